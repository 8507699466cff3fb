(** Interval literals and how intervals are shown: crates/sail-sql-parser/src/ast/expression.rs,
    crates/sail-sql-analyzer/src/literal/interval.rs and utils.rs, crates/sail-sql-analyzer/src/parser.rs,
    crates/sail-function/src/scalar/datetime/spark_interval.rs (casts from text) and
    crates/sail-common-datafusion/src/formatter.rs (casts to text and tables shown). *)
From Coq Require Import NArith ZArith ZifyN Ascii String Lia.
From stdpp Require Import prelude list strings.
From Verif Require Import Lib.Text Functions.IntModel Sql.LexModel Literal.NumberModel.
From Verif.Catalog Require MemoryModel.
#[local] Open Scope Z_scope.

(** interval.rs:62-75 [IntervalValue]. *)
Inductive ivalue :=
  | YearMonth (months : Z)
  | Micro (microseconds : Z)
  | MonthDayNano (months days nanoseconds : Z).
#[global] Instance ivalue_eq_dec : EqDecision ivalue.
Proof. solve_decision. Defined.

(** ** Qualified literals *)

Inductive field := FYear | FMonth | FDay | FHour | FMinute | FSecond.
#[global] Instance field_eq_dec : EqDecision field.
Proof. solve_decision. Defined.

(** interval.rs:233-248 [StandardIntervalKind]. *)
Inductive kind :=
  | Year | YearToMonth | Month | Day | DayToHour | DayToMinute | DayToSecond
  | Hour | HourToMinute | HourToSecond | Minute | MinuteToSecond | Second.
#[global] Instance kind_eq_dec : EqDecision kind.
Proof. solve_decision. Defined.

(** What stands between two fields: [-], [\s+] or [:]. *)
Inductive sep := Dash | Spaces | Colon.

(** interval.rs:24-59: the fields of the regular expression of a kind, each but the first with what
    stands before it. *)
Definition layout (k : kind) : field * list (sep * field) :=
  match k with
  | Year => (FYear, [])
  | YearToMonth => (FYear, [(Dash, FMonth)])
  | Month => (FMonth, [])
  | Day => (FDay, [])
  | DayToHour => (FDay, [(Spaces, FHour)])
  | DayToMinute => (FDay, [(Spaces, FHour); (Colon, FMinute)])
  | DayToSecond => (FDay, [(Spaces, FHour); (Colon, FMinute); (Colon, FSecond)])
  | Hour => (FHour, [])
  | HourToMinute => (FHour, [(Colon, FMinute)])
  | HourToSecond => (FHour, [(Colon, FMinute); (Colon, FSecond)])
  | Minute => (FMinute, [])
  | MinuteToSecond => (FMinute, [(Colon, FSecond)])
  | Second => (FSecond, [])
  end.
(** Those with seconds also have a fraction. *)
Definition has_fraction (k : kind) : bool :=
  match k with DayToSecond | HourToSecond | MinuteToSecond | Second => true | _ => false end.
Definition is_year_month (k : kind) : bool :=
  match k with Year | YearToMonth | Month => true | _ => false end.

(** [\s]: the characters with the White_Space property. *)
Notation is_space := MemoryModel.is_space.
(** [\s*] *)
Fixpoint drop_spaces (s : text) : text :=
  match s with c :: s' => if is_space c then drop_spaces s' else s | [] => [] end.
Definition match_sep (x : sep) (s : text) : option text :=
  match s with
  | [] => None
  | c :: s' =>
      match x with
      | Dash => if bool_decide (c = 45%N) then Some s' else None
      | Colon => if bool_decide (c = 58%N) then Some s' else None
      | Spaces => if is_space c then Some (drop_spaces s') else None
      end
  end.
(** [\d+]. Simplification: ASCII digits only.  The code lets digits of other scripts match and fails
    when it parses them; the exception are those after the sixth digit of a fraction, which are
    ignored there and an error here. *)
Definition match_digits (s : text) : option (text * text) :=
  let d := digit_run s in if bool_decide (d = []) then None else Some (d, drop (length d) s).
Fixpoint match_fields (l : list (sep * field)) (s : text) : option (list (field * text) * text) :=
  match l with
  | [] => Some ([], s)
  | (x, f) :: l' =>
      s1 ← match_sep x s; '(d, s2) ← match_digits s1; '(caps, s3) ← match_fields l' s2;
      Some ((f, d) :: caps, s3)
  end.
(** [[.]?(?P<fraction>\d+)?] *)
Definition match_fraction (s : text) : option text * text :=
  let s1 := skip_point s in
  let d := digit_run s1 in
  (if bool_decide (d = []) then None else Some d, drop (length d) s1).
(** interval.rs:24-59: the sign, the fields and the fraction that an expression captures. The digits of
    a field are taken greedily, and what follows a field is no digit, so there is one way to match. *)
Definition regex (k : kind) (s : text) : option (text * list (field * text) * option text) :=
  let '(sign, s1) := take_sign (drop_spaces s) in
  '(d, s2) ← match_digits s1;
  '(caps, s3) ← match_fields (layout k).2 s2;
  let '(fraction, s4) := if has_fraction k then match_fraction s3 else (None, s3) in
  if forallb is_space s4 then Some (sign, ((layout k).1, d) :: caps, fraction) else None.

(** utils.rs:82-95 [extract_match], with [unwrap_or(0)]. *)
Definition field_value (bits : Z) (f : field) (caps : list (field * text)) : option Z :=
  match list_find (fun c : field * text => c.1 = f) caps with
  | Some (_, (_, d)) => parse_int bits d
  | None => Some 0
  end.
(** utils.rs:97-116 [extract_fraction_match] with n = 6, with [unwrap_or(0)]. *)
Definition fraction_value (fraction : option text) : option Z :=
  match fraction with
  | Some d => parse_int 64 (take 6 (d ++ replicate 6 48%N))
  | None => Some 0
  end.

(** checked_mul(-1), if the interval is negated. *)
Definition negate_if (negated : bool) (bits n : Z) : option Z :=
  if negated then checked bits (- n) else Some n.

(** interval.rs:177-198 [parse_interval_year_month_string]. *)
Definition parse_year_month (k : kind) (negated : bool) (s : text) : option ivalue :=
  '(sign, caps, _) ← regex k s;
  years ← field_value 32 FYear caps;
  months ← field_value 32 FMonth caps;
  n ← checked 32 (years * 12);
  n ← checked 32 (n + months);
  n ← negate_if (xorb negated (negative sign)) 32 n;
  Some (YearMonth n).

(** chrono's TimeDelta, counted in microseconds (the only ones made here are whole): between
    -i64::MAX and i64::MAX milliseconds. *)
Definition delta_max : Z := (2 ^ 63 - 1) * 1000.
Definition delta (n : Z) : option Z := if Z.abs n <=? delta_max then Some n else None.
(** try_weeks, try_days, try_hours, try_minutes, try_seconds, try_milliseconds: [n] of a unit. *)
Definition delta_of (unit n : Z) : option Z := delta (n * unit).
Definition US_SECOND : Z := 1000000.
Definition US_MINUTE : Z := 60 * US_SECOND.
Definition US_HOUR : Z := 60 * US_MINUTE.
Definition US_DAY : Z := 24 * US_HOUR.
Definition US_WEEK : Z := 7 * US_DAY.

(** interval.rs:200-231 [parse_interval_day_time_string]. *)
Definition parse_day_time (k : kind) (negated : bool) (s : text) : option ivalue :=
  '(sign, caps, fraction) ← regex k s;
  days ← field_value 64 FDay caps;
  hours ← field_value 64 FHour caps;
  minutes ← field_value 64 FMinute caps;
  seconds ← field_value 64 FSecond caps;
  us ← fraction_value fraction;
  d ← delta_of US_DAY days;
  x ← delta_of US_HOUR hours; d ← delta (d + x);
  x ← delta_of US_MINUTE minutes; d ← delta (d + x);
  x ← delta_of US_SECOND seconds; d ← delta (d + x);
  d ← delta (d + us);
  n ← checked 64 d;
  n ← negate_if (xorb negated (negative sign)) 64 n;
  Some (Micro n).

(** interval.rs:300-349 [from_ast_standard_interval], after the sign of the expression. *)
Definition parse_standard (k : kind) (negated : bool) (s : text) : option ivalue :=
  if is_year_month k then parse_year_month k negated s else parse_day_time k negated s.

(** ** Expressions in a literal *)

(** The expressions that utils.rs:48-80 [parse_signed_value] accepts: a number without suffix, a string,
    or the opposite of one. Others are errors. *)
Inductive value := VNum (s : text) | VStr (s : text) | VNeg (v : value).

(** parse_signed_value::<i32> and ::<i64>; the negation wraps (Cargo.toml:217). *)
Fixpoint value_int (bits : Z) (v : value) : option Z :=
  match v with
  | VNum s | VStr s => parse_int bits s
  | VNeg v => n ← value_int bits v; Some (wrap bits (- n))
  end.
(** parse_signed_value::<Signed<String>>: whether it is negative, and the text. *)
Fixpoint value_text (v : value) : bool * text :=
  match v with
  | VNum s | VStr s => (false, s)
  | VNeg v => let '(negated, s) := value_text v in (negb negated, s)
  end.
(** parse::<u32> of ASCII digits. *)
Definition parse_u32 (s : text) : option Z :=
  let n := Z.of_N (dec_value s) in if n <? 2 ^ 32 then Some n else None.
(** interval.rs:149-175 [Signed<DecimalSecond>::from_str]. *)
Definition parse_second (s : text) : option (bool * Z * Z) :=
  '(sign, caps, fraction) ← regex Second s;
  seconds ← match caps with (_, d) :: _ => parse_u32 d | [] => Some 0 end;
  us ← fraction_value fraction;
  Some (negative sign, seconds, us).
(** parse_signed_value::<Signed<DecimalSecond>>: whether it is negative, the seconds and the
    microseconds. *)
Fixpoint value_second (v : value) : option (bool * Z * Z) :=
  match v with
  | VNum s | VStr s => parse_second s
  | VNeg v => '(negated, n, us) ← value_second v; Some (negb negated, n, us)
  end.

(** ast/expression.rs:304-324 [IntervalUnit]. *)
Inductive unit := UYear | UMonth | UWeek | UDay | UHour | UMinute | USecond | UMilli | UMicro.
#[global] Instance unit_eq_dec : EqDecision unit.
Proof. solve_decision. Defined.

(** interval.rs:351-416, one value with its unit. The state is the months and the time so far. *)
Definition add_time (d : Z) (x : option Z) (months : Z) : option (Z * Z) :=
  x ← x; d ← delta (d + x); Some (months, d).
Definition add_item (acc : Z * Z) (item : value * unit) : option (Z * Z) :=
  let '(months, d) := acc in
  let '(v, u) := item in
  match u with
  | UYear => n ← value_int 32 v; n ← checked 32 (n * 12); n ← checked 32 (months + n); Some (n, d)
  | UMonth => n ← value_int 32 v; n ← checked 32 (months + n); Some (n, d)
  | UWeek => n ← value_int 64 v; add_time d (delta_of US_WEEK n) months
  | UDay => n ← value_int 64 v; add_time d (delta_of US_DAY n) months
  | UHour => n ← value_int 64 v; add_time d (delta_of US_HOUR n) months
  | UMinute => n ← value_int 64 v; add_time d (delta_of US_MINUTE n) months
  | USecond =>
      '(negated, n, us) ← value_second v;
      let sign : Z := if negated : bool then -1 else 1 in
      d ← delta (d + sign * (n * US_SECOND)); d ← delta (d + sign * us); Some (months, d)
  | UMilli => n ← value_int 64 v; add_time d (delta_of 1000 n) months
  | UMicro => n ← value_int 64 v; add_time d (Some n) months
  end.
Fixpoint add_items (acc : Z * Z) (items : list (value * unit)) : option (Z * Z) :=
  match items with
  | [] => Some acc
  | i :: items' => acc ← add_item acc i; add_items acc items'
  end.
(** interval.rs:417-465, the result. *)
Definition finish (negated : bool) (months d : Z) : option ivalue :=
  if bool_decide (months = 0) then
    n ← checked 64 d; n ← negate_if negated 64 n; Some (Micro n)
  else if bool_decide (d = 0) then
    n ← negate_if negated 32 months; Some (YearMonth n)
  else
    let days := Z.quot d US_DAY in
    us ← checked 64 (d - days * US_DAY);
    months ← negate_if negated 32 months;
    days ← negate_if negated 64 days;
    days ← checked 32 days;
    us ← negate_if negated 64 us;
    Some (MonthDayNano months days (us * 1000)).
(** interval.rs:351-466 [from_ast_multi_unit_interval]. *)
Definition parse_multi (negated : bool) (items : list (value * unit)) : option ivalue :=
  '(months, d) ← add_items (0, 0) items; finish negated months d.

(** ast/expression.rs:273-294 [IntervalExpr]. *)
Inductive iexpr :=
  | MultiUnit (head : value * unit) (tail : list (value * unit))
  | Standard (v : value) (k : kind)
  | Literal (s : text).

(** interval.rs:103-142: one value with one unit is a qualified literal if the unit allows it. *)
Definition unit_kind (u : unit) : option kind :=
  match u with
  | UYear => Some Year | UMonth => Some Month | UDay => Some Day | UHour => Some Hour
  | UMinute => Some Minute | USecond => Some Second
  | UWeek | UMilli | UMicro => None
  end.
Definition standard_value (k : kind) (negated : bool) (v : value) : option ivalue :=
  let '(n, s) := value_text v in parse_standard k (xorb n negated) s.

(** ** From text to expression *)

(** utils.rs:20-33 of the parser [skip_whitespace]. *)
Fixpoint skip_ws (l : list token) : list token :=
  match l with t :: l' => if is_whitespace t then skip_ws l' else l | [] => [] end.

(** ast/literal.rs:163-213: the number literal at the start of the tokens, as long as possible. *)
Definition number_raw (t : token) : option text :=
  match t with
  | Word raw => Some raw
  | Punct c => if bool_decide (c = 46%N \/ c = 43%N \/ c = 45%N) then Some [c] else None
  | _ => None
  end.
Fixpoint read_number (st : nstate) (best : option (text * option suffix * list token)) (l : list token) :
  option (text * option suffix * list token) :=
  match l with
  | [] => best
  | t :: l' =>
      match number_raw t with
      | None => best
      | Some raw =>
          match next_slice st raw with
          | None => best
          | Some st' =>
              read_number st' (match finalize st' with Some (v, suf) => Some (v, suf, l') | None => best end) l'
          end
      end
  end.
(** The expression at the start of the tokens, if it is one that parse_signed_value accepts; otherwise
    the literal is an error in the end, here as well as there. Simplification: strings in quotes only,
    not those with dollar signs or U&. *)
Fixpoint read_value (l : list token) : option (value * list token) :=
  match l with
  | [] => None
  | t :: l' =>
      match t with
      | Blank _ _ | LineComment _ | BlockComment _ => read_value l'
      | Punct c =>
          if bool_decide (c = 45%N) then '(v, r) ← read_value l'; Some (VNeg v, r)
          else match read_number Start None l with
               | Some (v, None, r) => Some (VNum v, skip_ws r)
               | _ => None
               end
      | Word _ =>
          match read_number Start None l with
          | Some (v, None, r) => Some (VNum v, skip_ws r)
          | _ => None
          end
      | Str raw (Quoted d p) =>
          match skip_ws l', decode default_options (Quoted d p) raw with
          | Str _ _ :: _, _ => None
          | r, Valid v _ => Some (VStr v, r)
          | _, _ => None
          end
      | Str _ _ => None
      end
  end.

(** Keywords in either case. *)
Definition upper_ascii (c : N) : N := if (97 <=? c)%N && (c <=? 122)%N then (c - 32)%N else c.
Definition keyword (w : text) (l : list token) : option (list token) :=
  match l with
  | Word raw :: l' => if bool_decide (map upper_ascii raw = w) then Some (skip_ws l') else None
  | _ => None
  end.
(** The words for units in the order of the alternatives. *)
Definition unit_words : list (text * unit) :=
  [(str "YEAR", UYear); (str "YEARS", UYear); (str "MONTH", UMonth); (str "MONTHS", UMonth);
   (str "WEEK", UWeek); (str "WEEKS", UWeek); (str "DAY", UDay); (str "DAYS", UDay);
   (str "HOUR", UHour); (str "HOURS", UHour); (str "MINUTE", UMinute); (str "MINUTES", UMinute);
   (str "SECOND", USecond); (str "SECONDS", USecond); (str "MILLISECOND", UMilli);
   (str "MILLISECONDS", UMilli); (str "MICROSECOND", UMicro); (str "MICROSECONDS", UMicro)].
Definition read_unit (l : list token) : option (unit * list token) :=
  match l with
  | Word raw :: l' =>
      '(_, (_, u)) ← list_find (fun w : text * unit => map upper_ascii raw = w.1) unit_words;
      Some (u, skip_ws l')
  | _ => None
  end.
(** ast/expression.rs:296-302 [IntervalValueWithUnit]. *)
Definition read_item (l : list token) : option (value * unit * list token) :=
  '(v, l1) ← read_value l; '(u, l2) ← read_unit l1; Some (v, u, l2).
(** As many as there are; each takes a token at least, so that the fuel is never used up. *)
Fixpoint read_items (fuel : nat) (l : list token) : list (value * unit) * list token :=
  match fuel with
  | O => ([], l)
  | S fuel' =>
      match read_item l with
      | Some (v, u, r) => let '(items, r') := read_items fuel' r in ((v, u) :: items, r')
      | None => ([], l)
      end
  end.
(** ast/expression.rs:326-330 [IntervalQualifier] and interval.rs:250-298
    [from_ast_interval_qualifier]. *)
Definition field_words : list (text * field) :=
  [(str "YEAR", FYear); (str "MONTH", FMonth); (str "DAY", FDay); (str "HOUR", FHour);
   (str "MINUTE", FMinute); (str "SECOND", FSecond)].
Definition read_field (l : list token) : option (field * list token) :=
  match l with
  | Word raw :: l' =>
      '(_, (_, f)) ← list_find (fun w : text * field => map upper_ascii raw = w.1) field_words;
      Some (f, skip_ws l')
  | _ => None
  end.
Definition kind_of (a : field) (b : option field) : option kind :=
  match a, b with
  | FYear, None => Some Year
  | FYear, Some FMonth => Some YearToMonth
  | FMonth, None => Some Month
  | FDay, None => Some Day
  | FDay, Some FHour => Some DayToHour
  | FDay, Some FMinute => Some DayToMinute
  | FDay, Some FSecond => Some DayToSecond
  | FHour, None => Some Hour
  | FHour, Some FMinute => Some HourToMinute
  | FHour, Some FSecond => Some HourToSecond
  | FMinute, None => Some Minute
  | FMinute, Some FSecond => Some MinuteToSecond
  | FSecond, None => Some Second
  | _, _ => None
  end.
Definition read_qualifier (l : list token) : option (kind * list token) :=
  '(a, l1) ← read_field l;
  match keyword (str "TO") l1 with
  | Some l2 => '(b, l3) ← read_field l2; k ← kind_of a (Some b); Some (k, l3)
  | None => k ← kind_of a None; Some (k, l1)
  end.

(** ast/expression.rs:263-294 [IntervalLiteral], [IntervalExpr], until the end of the input. *)
Definition read_interval (l : list token) : option iexpr :=
  let l := skip_ws l in
  let l := match keyword (str "INTERVAL") l with Some r => r | None => l end in
  let other :=
    match read_value l with
    | Some (v, r) =>
        match read_qualifier r with
        | Some (k, []) => Some (Standard v k)
        | Some _ => None
        | None => match v, r with VStr s, [] => Some (Literal s) | _, _ => None end
        end
    | None => None
    end in
  match read_item l with
  | Some (v, u, r) =>
      match keyword (str "TO") r with
      | Some _ => other
      | None => match read_items (length r) r with (items, []) => Some (MultiUnit (v, u) items) | _ => None end
      end
  | None => other
  end.

Section parse.
Context (alnum : N -> bool).
(** interval.rs:99-147 [from_ast_signed_interval] and :468-482 [parse_unqualified_interval_string]: a
    string without a unit is an interval literal of its own.  It is shorter than the text it stands in,
    so that the fuel is never used up. *)
Fixpoint parse_loop (fuel : nat) (negated : bool) (s : text) : option ivalue :=
  match fuel with
  | O => None
  | S fuel' =>
      toks ← lex alnum default_options s;
      e ← read_interval (map fst toks);
      match e with
      | Standard v k => standard_value k negated v
      | MultiUnit (v, u) [] =>
          match unit_kind u with
          | Some k => standard_value k negated v
          | None => parse_multi negated [(v, u)]
          end
      | MultiUnit i tail => parse_multi negated (i :: tail)
      | Literal s' => parse_loop fuel' negated s'
      end
  end.
(** parser.rs:113-115 [parse_interval]; the interval literal in a query is analysed in the same way
    (analyzer expression.rs:1075-1077). *)
Definition parse_interval (s : text) : option ivalue := parse_loop (S (length s)) false s.

(** spark_interval.rs:200-256: the casts from text to the three interval types. *)
Definition to_year_month (s : text) : option Z :=
  match parse_interval s with Some (YearMonth n) => Some n | _ => None end.
Definition to_day_time (s : text) : option Z :=
  match parse_interval s with Some (Micro n) => Some n | _ => None end.
Definition calendar_of_micros (n : Z) : option (Z * Z * Z) :=
  days ← checked 32 (Z.quot n US_DAY); Some (0, days, Z.rem n US_DAY * 1000).
Definition to_calendar (s : text) : option (Z * Z * Z) :=
  match parse_interval s with
  | Some (YearMonth n) => Some (n, 0, 0)
  | Some (Micro n) => calendar_of_micros n
  | Some (MonthDayNano m d n) => Some (m, d, n)
  | None => None
  end.
End parse.

(** ** Display *)

Definition print_int (n : Z) : text :=
  match n with Zneg p => 45%N :: decimal (Npos p) | _ => decimal (Z.to_N n) end.
(** {:02} *)
Definition pad2 (n : Z) : text := if n <? 10 then 48%N :: print_int n else print_int n.
(** formatter.rs:29-50 [FractionFormatter]. *)
Definition trim_end_zeros (s : text) : text := rev (trim_zeros (rev s)).
Definition show_fraction (digits : nat) (n : Z) : text :=
  if 0 <? n then
    let v := print_int n in 46%N :: replicate (digits - length v) 48%N ++ trim_end_zeros v
  else [].
(** formatter.rs:233-243 [IntervalYearMonthFormatter]. *)
Definition show_year_month (n : Z) : text :=
  let years := Z.quot n 12 in
  let prepend := if (years =? 0) && (n <? 0) then str "-" else [] in
  str "INTERVAL '" ++ prepend ++ print_int years ++ str "-" ++ print_int (Z.abs (Z.rem n 12)) ++
  str "' YEAR TO MONTH".
(** The text of formatter.rs:263-267, 343-346, 366-369, 389-392, 411-414. *)
Definition day_time_text (negative : bool) (days hours minutes seconds : Z) (fraction : text) : text :=
  str "INTERVAL '" ++ (if negative then str "-" else []) ++ print_int days ++ str " " ++ pad2 hours ++
  str ":" ++ pad2 minutes ++ str ":" ++ pad2 seconds ++ fraction ++ str "' DAY TO SECOND".
(** formatter.rs:331-416: [DurationSecondFormatter] with [u] = 1 and no digits,
    [DurationMillisecondFormatter] with 1000 and 3, [DurationMicrosecondFormatter] with 10^6 and 6,
    [DurationNanosecondFormatter] with 10^9 and 9. *)
Definition show_duration (u : Z) (digits : nat) (n : Z) : text :=
  let days := Z.quot n (86400 * u) in
  day_time_text ((days =? 0) && (n <? 0)) days
    (Z.abs (Z.quot (Z.rem n (86400 * u)) (3600 * u)))
    (Z.abs (Z.quot (Z.rem n (3600 * u)) (60 * u)))
    (Z.abs (Z.quot (Z.rem n (60 * u)) u))
    (show_fraction digits (Z.abs (Z.rem n u))).
(** formatter.rs:245-270 [IntervalDayTimeFormatter]; the addition wraps. *)
Definition show_day_time (days0 ms0 : Z) : text :=
  let days := wrap 32 (days0 + Z.quot ms0 86400000) in
  let ms := Z.rem ms0 86400000 in
  day_time_text ((days =? 0) && (ms <? 0)) days
    (Z.abs (Z.quot (Z.rem ms 86400000) 3600000))
    (Z.abs (Z.quot (Z.rem ms 3600000) 60000))
    (Z.abs (Z.quot (Z.rem ms 60000) 1000))
    (show_fraction 3 (Z.abs (Z.rem ms 1000))).
(** formatter.rs:274-329 [IntervalMonthDayNanoFormatter]: the parts that are not zero, with a blank
    between them. *)
Definition show_part (n : Z) (word : text) : list text :=
  if n =? 0 then [] else [print_int n ++ str " " ++ word].
Definition calendar_parts (months days ns : Z) : list text :=
  show_part (Z.quot months 12) (str "years") ++ show_part (Z.rem months 12) (str "months") ++
  show_part days (str "days") ++
  show_part (Z.quot ns 3600000000000) (str "hours") ++
  show_part (Z.quot (Z.rem ns 3600000000000) 60000000000) (str "minutes") ++
  let seconds := Z.quot (Z.rem ns 60000000000) 1000000000 in
  let nanos := Z.rem ns 1000000000 in
  if (seconds =? 0) && (nanos =? 0) then []
  else [(if (seconds =? 0) && (nanos <? 0) then str "-" else []) ++ print_int seconds ++
        show_fraction 9 (Z.abs nanos) ++ str " seconds"].
Fixpoint join_blank (l : list text) : text :=
  match l with [] => [] | [a] => a | a :: l' => a ++ str " " ++ join_blank l' end.
Definition show_calendar (months days ns : Z) : text :=
  match calendar_parts months days ns with [] => str "0 seconds" | l => join_blank l end.
