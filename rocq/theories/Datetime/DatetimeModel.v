(** Dates, times and timestamps as text: how they are read and how they are shown. *)
From Coq Require Import NArith ZArith ZifyN Ascii String Lia.
From stdpp Require Import prelude list.
From Verif.Lib Require Import Text.
From Verif.Sql Require Import LexModel.
From Verif.Literal Require Import NumberModel IntervalModel.
From Verif.Datetime Require Import CalendarModel.
Local Open Scope N_scope.

(** ** Parsers: crates/sail-sql-analyzer/src/literal/datetime.rs.  A parser returns its value and the
    rest of the text. *)

(** [one_of('0'..='9').repeated().at_least(lo).at_most(hi)] *)
Definition digits_between (lo hi : nat) (s : text) : option (text * text) :=
  let '(d, r) := run Text.is_digit hi s in
  if (lo <=? length d)%nat then Some (d, r) else None.
(** datetime.rs:89-106 [signed], 108-121 [unsigned]: the numbers have few digits, so that parsing them
    never fails. *)
Definition signed (lo hi : nat) (s : text) : option (Z * text) :=
  let '(negative, s1) :=
    match s with
    | c :: s' => if c =? 45 then (true, s') else if c =? 43 then (false, s') else (false, s)
    | [] => (false, s)
    end in
  match digits_between lo hi s1 with
  | Some (d, r) => Some (if negative : bool then (- Z.of_N (dec_value d))%Z else Z.of_N (dec_value d), r)
  | None => None
  end.
Definition unsigned (lo hi : nat) (s : text) : option (Z * text) :=
  match digits_between lo hi s with Some (d, r) => Some (Z.of_N (dec_value d), r) | None => None end.
(** datetime.rs:123-148 [fraction]: padded with zeros on the right. *)
Definition fraction (hi : nat) (s : text) : option (Z * text) :=
  match digits_between 0 hi s with
  | Some (d, r) => Some (Z.of_N (dec_value (take hi (d ++ replicate hi 48))), r)
  | None => None
  end.
(** [just(c).ignore_then(p).or_not()] *)
Definition after (c : N) (p : text -> option (Z * text)) (s : text) : option Z * text :=
  match s with
  | x :: s' =>
    if x =? c then match p s' with Some (a, r) => (Some a, r) | None => (None, s) end else (None, s)
  | [] => (None, s)
  end.

(** datetime.rs:10-15, 150-165: [DateValue], [date]. *)
Record date_value := DateValue { dv_year : Z; dv_month : Z; dv_day : Z }.
Definition parse_date_part (s : text) : option (date_value * text) :=
  match signed 4 7 s with
  | None => None
  | Some (y, s1) =>
    let '(m, s2) := after 45 (unsigned 1 2) s1 in
    let '(d, s3) := after 45 (unsigned 1 2) s2 in
    Some (DateValue y (default 1%Z m) (default 1%Z d), s3)
  end.
(** datetime.rs:26-32, 167-185: [TimeValue], [time]. *)
Record time_value := TimeValue { tv_hour : Z; tv_minute : Z; tv_second : Z; tv_nanos : Z }.
Definition parse_time_part (s : text) : option (time_value * text) :=
  match unsigned 1 2 s with
  | None => None
  | Some (h, s1) =>
    let '(m, s2) := after 58 (unsigned 1 2) s1 in
    let '(sec, s3) := after 58 (unsigned 1 2) s2 in
    let '(f, s4) := after 46 (fraction 9) s3 in
    Some (TimeValue h (default 0%Z m) (default 0%Z sec) (default 0%Z f), s4)
  end.
(** datetime.rs:187-202 [timezone]: all the rest. *)
Definition trim_blanks (s : text) : text :=
  let skip_blanks := skip (fun c => c =? 32) in rev (skip_blanks (rev (skip_blanks s))).
Definition zone_text (s : text) : text :=
  let s := trim_blanks s in
  if bool_decide (s = str "Z" \/ s = str "z") then str "UTC"
  else if starts_with s (str "UTC+") || starts_with s (str "UTC-") then drop 3 s
  else s.
(** datetime.rs:204-229 [timestamp]: the separator is a T between blanks, or blanks; then a time and a
    time zone.  Otherwise nothing but blanks. *)
Definition separator (s : text) : option text :=
  let s1 := skip (fun c => c =? 32) s in
  match s1 with
  | c :: s2 =>
    if (c =? 84) || (c =? 116) then Some (skip (fun c => c =? 32) s2)
    else if bool_decide (s1 = s) then None else Some s1
  | [] => if bool_decide (s1 = s) then None else Some s1
  end.
Record timestamp_value := TimestampValue { ts_date : date_value; ts_time : time_value; ts_zone : text }.
Definition parse_timestamp (s : text) : option timestamp_value :=
  match parse_date_part s with
  | None => None
  | Some (d, r) =>
    match (match separator r with Some r1 => parse_time_part r1 | None => None end) with
    | Some (t, z) => Some (TimestampValue d t (zone_text z))
    | None =>
      match skip (fun c => c =? 32) r with
      | [] => Some (TimestampValue d (TimeValue 0 0 0 0) [])
      | _ => None
      end
    end
  end.
(** char::is_ascii_whitespace; datetime.rs:231-244 [create_date_parser]: after white space anything may
    follow. *)
Definition is_ascii_ws (c : N) : bool := (c =? 32) || (c =? 9) || (c =? 10) || (c =? 12) || (c =? 13).
Definition parse_date (s : text) : option date_value :=
  match parse_date_part s with
  | Some (d, []) => Some d
  | Some (d, c :: _) => if is_ascii_ws c then Some d else None
  | None => None
  end.
(** datetime.rs:253-258 [create_time_parser] *)
Definition parse_time (s : text) : option time_value :=
  match parse_time_part s with Some (t, []) => Some t | _ => None end.

(** ** Values *)
Local Open Scope Z_scope.
(** datetime.rs:17-24 [NaiveDate::try_from]; spark_date.rs:37-49 [string_to_date32],
    literal.rs:36-46 [resolve_expression_date]: days since the epoch. *)
Definition naive_date (v : date_value) : option date := from_ymd (dv_year v) (dv_month v) (dv_day v).
Definition read_date (s : text) : option Z :=
  v ← parse_date s; x ← naive_date v; Some (to_days x).

(** datetime.rs:34-57 [NaiveTime::try_from]: second 60 becomes 59.  [NaiveTime::from_hms_nano_opt] takes
    hours up to 23, minutes and seconds up to 59.  Seconds since midnight and nanoseconds. *)
Definition naive_time (v : time_value) : option (Z * Z) :=
  match (if tv_second v =? 60 then
           if negb (tv_hour v =? 23) || negb (tv_minute v =? 59) then None else Some 59
         else Some (tv_second v)) with
  | None => None
  | Some second =>
    if (tv_hour v <? 24) && (tv_minute v <? 60) && (second <? 60)
    then Some (tv_hour v * 3600 + tv_minute v * 60 + second, tv_nanos v) else None
  end.
(** literal.rs:90-113 [resolve_expression_time]: microseconds since midnight. *)
Definition read_time (s : text) : option Z :=
  v ← parse_time s; '(seconds, nanos) ← naive_time v; Some (seconds * 1000000 + nanos / 1000).

(** A date and time without a time zone: seconds since 1970-01-01 00:00:00 and nanoseconds.
    datetime.rs:66-87 [into_naive]: adding the leap second panics after the last day of chrono. *)
Definition LAST_SECOND : Z := (to_days (Date 262142 12 31) + 1) * 86400 - 1.
Definition into_naive (v : timestamp_value) : outcome (Z * Z * text) :=
  match naive_date (ts_date v), naive_time (ts_time v) with
  | Some x, Some (seconds, nanos) =>
    let l := to_days x * 86400 + seconds in
    if tv_second (ts_time v) =? 60 then
      if l + 1 <=? LAST_SECOND then Ok (l + 1, nanos, ts_zone v) else Panic
    else Ok (l, nanos, ts_zone v)
  | _, _ => Err
  end.

(** A time zone (arrow's [Tz], a dependency): an offset to UTC in seconds, and the instants at which
    the offset changes, in order.  The database of time zones is a parameter. *)
Record tz := Tz { tz_first : Z; tz_changes : list (Z * Z) }.
Fixpoint offset_from (off : Z) (cs : list (Z * Z)) (u : Z) : Z :=
  match cs with
  | [] => off
  | (t, off') :: cs' => if u <? t then off else offset_from off' cs' u
  end.
Definition offset_at (z : tz) (u : Z) : Z := offset_from (tz_first z) (tz_changes z) u.
Definition local_of (z : tz) (u : Z) : Z := u + offset_at z u.
(** [from_local_datetime(..).earliest()]: the first instant with that local time.  Overflow at the ends
    of chrono's range is not modelled. *)
Fixpoint resolve_from (from : option Z) (off : Z) (cs : list (Z * Z)) (l : Z) : option Z :=
  let u := l - off in
  let started := match from with Some t => t <=? u | None => true end in
  match cs with
  | [] => if started then Some u else None
  | (t, off') :: cs' => if started && (u <? t) then Some u else resolve_from (Some t) off' cs' l
  end.
Definition resolve (z : tz) (l : Z) : option Z := resolve_from None (tz_first z) (tz_changes z) l.
(** crates/sail-common-datafusion/src/utils/datetime.rs:9-24 [localize_with_fallback] *)
Definition localize (z : tz) (l : Z) : option Z :=
  match resolve z l with
  | Some u => Some u
  | None => u ← resolve z (l - 86400); Some (u + 86400)
  end.
(** [timestamp_micros] *)
Definition micros (seconds nanos : Z) : Z := seconds * 1000000 + nanos / 1000.

Section zones.
(** [str::parse::<Tz>] *)
Context (zone : text -> option tz).

(** literal.rs:48-88 [resolve_expression_timestamp] *)
Inductive timestamp_type := Configured | WithLocalTimeZone | WithoutTimeZone.
Definition read_literal (ty : timestamp_type) (default_local : bool) (session : text) (s : text) :
    outcome (Z * bool) :=
  match parse_timestamp s with
  | None => Err
  | Some v =>
    match into_naive v with
    | Ok (l, nanos, name) =>
      match (if decide (name = []) then Some None else Some <$> zone name) with
      | None => Err
      | Some named =>
        let local z := match localize z l with Some u => Ok (micros u nanos, true) | None => Err end in
        match ty, named, default_local with
        | Configured, None, true | WithLocalTimeZone, None, _ =>
          match zone session with Some z => local z | None => Err end
        | Configured, Some z, _ | WithLocalTimeZone, Some z, _ => local z
        | Configured, None, false | WithoutTimeZone, _, _ => Ok (micros l nanos, false)
        end
      end
    | Err => Err
    | Panic => Panic
    end
  end.

(** crates/sail-function/src/scalar/datetime/spark_timestamp.rs:52-80 [localize], 121-141
    [string_to_microseconds]: CAST of a string, with and without a time zone. *)
Definition cast_timestamp (default_zone : option text) (s : text) : outcome Z :=
  match parse_timestamp s with
  | None => Err
  | Some v =>
    if tv_second (ts_time v) =? 60 then Err
    else
      match into_naive v with
      | Ok (l, nanos, name) =>
        match default_zone with
        | Some session =>
          match zone (if decide (name = []) then session else name) with
          | Some z => match localize z l with Some u => Ok (micros u nanos) | None => Err end
          | None => Err
          end
        | None => Ok (micros l nanos)
        end
      | Err => Err
      | Panic => Panic
      end
  end.
End zones.

(** ** Display: crates/sail-common-datafusion/src/formatter.rs *)

(** chrono's [Numeric::Year] with [Pad::Zero]: a sign before years that do not have up to four
    digits. *)
Definition pad4 (n : Z) : text :=
  let v := decimal (Z.to_N n) in replicate (4 - length v) 48%N ++ v.
Definition show_year (y : Z) : text :=
  if (0 <=? y) && (y <=? 9999) then pad4 y
  else (if y <? 0 then 45%N else 43%N) :: pad4 (Z.abs y).
Definition show_ymd (x : date) : text :=
  show_year (year x) ++ str "-" ++ pad2 (month x) ++ str "-" ++ pad2 (day x).
Definition show_hms (seconds : Z) : text :=
  pad2 (seconds / 3600) ++ str ":" ++ pad2 (seconds / 60 mod 60) ++ str ":" ++ pad2 (seconds mod 60).
(** formatter.rs:145-158 [Date32Formatter] *)
Definition show_date (days : Z) : text :=
  match of_days days with Some x => show_ymd x | None => str "ERROR" end.
(** formatter.rs:80-94 [write_timestamp], 118-134 [TimestampMicrosecondFormatter] *)
Definition show_timestamp (z : option tz) (us : Z) : text :=
  let u := us / 1000000 in
  let nanos := us mod 1000000 * 1000 in
  let l := match z with Some z => local_of z u | None => u end in
  match of_days (l / 86400) with
  | Some x => show_ymd x ++ str " " ++ show_hms (l mod 86400) ++ show_fraction 9 nanos
  | None => str "ERROR"
  end.
(** formatter.rs:202-217 [Time64MicrosecondFormatter] *)
Definition show_time (us : Z) : text :=
  if (0 <=? us) && (us <? 86400000000) then
    show_hms (us / 1000000) ++ show_fraction 6 (us mod 1000000)
  else str "ERROR".
