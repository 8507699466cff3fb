(** Number literals: crates/sail-sql-parser/src/ast/literal.rs, crates/sail-sql-analyzer/src/literal/
    numeric.rs, crates/sail-sql-analyzer/src/value.rs and the decimal literals of
    crates/sail-spark-connect/src/proto/literal.rs. *)
From Coq Require Import NArith ZArith ZifyN Ascii String Lia.
From stdpp Require Import prelude list strings.
From Verif Require Import Lib.Text Functions.IntModel.
#[local] Open Scope Z_scope.

(** ast/literal.rs:24-45 [NumberSuffix]. *)
Inductive suffix := SufY | SufS | SufL | SufF | SufD | SufBd.
#[global] Instance suffix_eq_dec : EqDecision suffix.
Proof. solve_decision. Defined.

(** ast/literal.rs:52-67 [NumberState]. *)
Inductive nstate :=
  | Start
  | WholeNumber (x : text)
  | DecimalPoint (x : text)
  | DecimalNumber (x : text)
  | ExponentMarker (x : text)
  | ExponentSign (x : text)
  | Exponent (x : text)
  | SuffixOne (s : suffix) (x : text)  (* SuffixY, SuffixS, SuffixL, SuffixF, SuffixD, SuffixBd *)
  | SuffixB (x : text).

(** One of the two cases of a letter. *)
Definition letter (lower : N) (c : N) : bool := bool_decide (c = lower) || bool_decide (c = (lower - 32)%N).

(** ast/literal.rs:78-141 [next]: the characters are bytes here; none above 127 is accepted. *)
Definition next (st : nstate) (c : N) : option nstate :=
  match st with
  | Start =>
      if is_digit c then Some (WholeNumber [c])
      else if bool_decide (c = 46%N) then Some (DecimalPoint [c]) else None
  | WholeNumber x =>
      if is_digit c then Some (WholeNumber (x ++ [c]))
      else if bool_decide (c = 46%N) then Some (DecimalNumber (x ++ [c]))
      else if letter 101 c then Some (ExponentMarker (x ++ [c]))
      else if letter 121 c then Some (SuffixOne SufY x)
      else if letter 115 c then Some (SuffixOne SufS x)
      else if letter 108 c then Some (SuffixOne SufL x)
      else if letter 102 c then Some (SuffixOne SufF x)
      else if letter 100 c then Some (SuffixOne SufD x)
      else if letter 98 c then Some (SuffixB x) else None
  | DecimalPoint x => if is_digit c then Some (DecimalNumber (x ++ [c])) else None
  | DecimalNumber x =>
      if is_digit c then Some (DecimalNumber (x ++ [c]))
      else if letter 101 c then Some (ExponentMarker (x ++ [c]))
      else if letter 102 c then Some (SuffixOne SufF x)
      else if letter 100 c then Some (SuffixOne SufD x)
      else if letter 98 c then Some (SuffixB x) else None
  | ExponentMarker x =>
      if bool_decide (c = 43%N) || bool_decide (c = 45%N) then Some (ExponentSign (x ++ [c]))
      else if is_digit c then Some (Exponent (x ++ [c])) else None
  | ExponentSign x => if is_digit c then Some (Exponent (x ++ [c])) else None
  | Exponent x =>
      if is_digit c then Some (Exponent (x ++ [c]))
      else if letter 102 c then Some (SuffixOne SufF x)
      else if letter 100 c then Some (SuffixOne SufD x)
      else if letter 98 c then Some (SuffixB x) else None
  | SuffixOne _ _ => None
  | SuffixB x => if letter 100 c then Some (SuffixOne SufBd x) else None
  end.

(** ast/literal.rs:70-77 [next_slice]. *)
Fixpoint next_slice (st : nstate) (s : text) : option nstate :=
  match s with
  | [] => Some st
  | c :: s' => match next st c with Some st' => next_slice st' s' | None => None end
  end.

(** ast/literal.rs:143-160 [finalize]. *)
Definition finalize (st : nstate) : option (text * option suffix) :=
  match st with
  | WholeNumber x | DecimalNumber x | Exponent x => Some (x, None)
  | SuffixOne s x => Some (x, Some s)
  | Start | DecimalPoint _ | ExponentMarker _ | ExponentSign _ | SuffixB _ => None
  end.

(** ast/literal.rs:163-213, the parser of a number literal, run on tokens that make up the literal:
    the words, periods and signs are fed to the automaton one after the other, which is the same as
    feeding it their concatenation.  (How far the literal reaches in a longer input is not modelled.) *)
Definition number_literal (s : text) : option (text * option suffix) :=
  match next_slice Start s with Some st => finalize st | None => None end.

(** The literals that the analyzer makes.  A float is left as the text it is read from. *)
Inductive literal :=
  | LInt (bits : Z) (n : Z)            (* Int8, Int16, Int32, Int64 *)
  | LFloat (bits : Z) (s : text)       (* Float32, Float64 *)
  | LDecimal (bits : Z) (precision scale value : Z).   (* Decimal128, Decimal256 *)
#[global] Instance literal_eq_dec : EqDecision literal.
Proof. solve_decision. Defined.

(** An error that the user sees, or a panic. *)
Inductive outcome (A : Type) := Ok (a : A) | Err | Panic.
Arguments Ok {_} _.
Arguments Err {_}.
Arguments Panic {_}.

(** The longest run of decimal digits at the start of [s]. Rust's [\d] also matches the digits of
    other scripts; a text with one of those is an error later, when the number is parsed. *)
Fixpoint digit_run (s : text) : text :=
  match s with
  | c :: s' => if is_digit c then c :: digit_run s' else []
  | [] => []
  end.

(** [+-]? at the start of a text: the sign that is there, and the rest. *)
Definition take_sign (s : text) : text * text :=
  match s with
  | c :: s' => if bool_decide (c = 43%N) || bool_decide (c = 45%N) then ([c], s') else ([], s)
  | [] => ([], [])
  end.
Definition negative (sign : text) : bool := bool_decide (sign = [45%N]).
Definition with_sign (sign : text) (n : N) : Z := if negative sign then - Z.of_N n else Z.of_N n.

(** Rust's [str::parse] for a signed integer type: an optional sign, then one or more digits, and a
    number in range. *)
Definition parse_int (bits : Z) (s : text) : option Z :=
  let '(sign, r) := take_sign s in
  if bool_decide (r = []) then None
  else if forallb is_digit r then checked bits (with_sign sign (dec_value r)) else None.

(** What the groups of the two regular expressions of numeric.rs:17-24 match. *)
Record captures := Captures { c_sign : text; c_whole : text; c_fraction : text; c_exponent : option text }.

(** The end of both expressions: ([eE](?P<exponent>[+-]?\d+))?$. The outer option tells a match. *)
Definition match_exponent (s : text) : option (option text) :=
  match s with
  | [] => Some None
  | c :: s' =>
      if letter 101 c then
        let '(_, r) := take_sign s' in
        if bool_decide (r = []) then None
        else if forallb is_digit r then Some (Some s') else None
      else None
  end.

(** [.]? *)
Definition skip_point (s : text) : text :=
  match s with c :: s' => if bool_decide (c = 46%N) then s' else s | [] => [] end.

(** numeric.rs:18-20 [DECIMAL_REGEX]. The groups are greedy: the whole part takes as many as 38 of the
    digits, whether a point follows or not. *)
Definition decimal_regex (s : text) : option captures :=
  let '(sign, s1) := take_sign s in
  let whole := take 38 (digit_run s1) in
  if bool_decide (whole = []) then None
  else
    let s2 := skip_point (drop (length whole) s1) in
    let fraction := take 38 (digit_run s2) in
    match match_exponent (drop (length fraction) s2) with
    | Some e => Some (Captures sign whole fraction e)
    | None => None
    end.

(** numeric.rs:21-23 [DECIMAL_FRACTION_REGEX]. *)
Definition decimal_fraction_regex (s : text) : option captures :=
  let '(sign, s1) := take_sign s in
  match s1 with
  | c :: s2 =>
      if bool_decide (c = 46%N) then
        let fraction := take 38 (digit_run s2) in
        if bool_decide (fraction = []) then None
        else match match_exponent (drop (length fraction) s2) with
             | Some e => Some (Captures sign [] fraction e)
             | None => None
             end
      else None
  | [] => None
  end.

(** trim_start_matches('0'). *)
Fixpoint trim_zeros (s : text) : text :=
  match s with c :: s' => if bool_decide (c = 48%N) then trim_zeros s' else s | [] => [] end.

(** numeric.rs:99-150, after the captures. The integers [w], [f], [e], [scale], [padding] and [width]
    are i8: the additions at line 125 wrap in a release build (Cargo.toml:217), and a negative width
    becomes, as usize, a number above 2^64 - 129, at which the formatting at line 129 panics.  The
    text that is parsed at lines 136 and 143 has at most 38 (76) digits, so that it always is an i128
    (an i256); it is not formed here, its value is computed. *)
Definition decimal_of_captures (c : captures) : outcome literal :=
  let whole0 := trim_zeros (c_whole c) in
  match match c_exponent c with Some t => parse_int 8 t | None => Some 0 end with
  | None => Err
  | Some e =>
      let '(whole, w, f) :=
        match whole0, c_fraction c with
        | [], [] => ([48%N], 1, 0)
        | _, _ => (whole0, Z.of_nat (length whole0), Z.of_nat (length (c_fraction c)))
        end in
      match checked 8 (f - e) with
      | None => Err
      | Some scale0 =>
          if negb ((-76 <=? scale0) && (scale0 <=? 76)) then Err
          else
            let '(scale, padding) := if scale0 <? 0 then (0, - scale0) else (scale0, 0) in
            let width := wrap 8 (w + f + padding) in
            let precision := Z.max width scale mod 256 in
            if width <? 0 then Panic
            else
              let value := with_sign (c_sign c)
                (dec_value (whole ++ c_fraction c ++ replicate (Z.to_nat padding) 48%N)) in
              if bool_decide (precision = 0) || (76 <? precision) || (precision <? Z.abs scale) then Err
              else if 38 <? precision then Ok (LDecimal 256 precision scale value)
              else Ok (LDecimal 128 precision scale value)
      end
  end.

(** numeric.rs:94-151 [parse_decimal_string]. *)
Definition parse_decimal_string (s : text) : outcome literal :=
  match decimal_regex s with
  | Some c => decimal_of_captures c
  | None => match decimal_fraction_regex s with Some c => decimal_of_captures c | None => Err end
  end.

(** numeric.rs:74-92 [parse_decimal_128_string] and [parse_decimal_256_string], tried one after the
    other at value.rs:26, 31-32 and 36-37. *)
Definition parse_decimal_width (bits : Z) (s : text) : outcome literal :=
  match parse_decimal_string s with
  | Ok (LDecimal b p sc v) => if b =? bits then Ok (LDecimal b p sc v) else Err
  | Ok _ => Err
  | Err => Err
  | Panic => Panic
  end.

Definition or_else (a b : outcome literal) : outcome literal :=
  match a with Ok x => Ok x | Err => b | Panic => Panic end.

(** numeric.rs:26-52 [parse_i8_string] and the others. *)
Definition parse_integer (bits : Z) (s : text) : outcome literal :=
  match parse_int bits s with Some n => Ok (LInt bits n) | None => Err end.

(** numeric.rs:54-72 [parse_f32_string] and [parse_f64_string]; [finite bits s] tells whether the text
    is a number whose nearest float is finite. Which float that is, is not modelled. *)
Definition parse_float (finite : Z -> text -> bool) (bits : Z) (s : text) : outcome literal :=
  if finite bits s then Ok (LFloat bits s) else Err.

(** value.rs:13-42 [from_ast_number_literal]. *)
Definition from_ast_number_literal (finite : Z -> text -> bool) (value : text) (suf : option suffix)
    : outcome literal :=
  match suf with
  | Some SufY => parse_integer 8 value
  | Some SufS => parse_integer 16 value
  | Some SufL => parse_integer 64 value
  | Some SufF => parse_float finite 32 value
  | Some SufD => parse_float finite 64 value
  | Some SufBd => or_else (parse_decimal_width 128 value) (parse_decimal_width 256 value)
  | None =>
      if contains value [101%N] || contains value [69%N] then
        or_else (parse_float finite 64 value)
          (or_else (parse_decimal_width 128 value) (parse_decimal_width 256 value))
      else
        or_else (parse_integer 32 value)
          (or_else (parse_integer 64 value)
            (or_else (parse_decimal_width 128 value) (parse_decimal_width 256 value)))
  end.

(** The literal in the text of a query: the parser, then the analyzer. A text that is no number literal
    is an error. *)
Definition sql_number (finite : Z -> text -> bool) (s : text) : outcome literal :=
  match number_literal s with Some (v, suf) => from_ast_number_literal finite v suf | None => Err end.

(** crates/sail-spark-connect/src/proto/literal.rs:40-97, the decimal literal of a client; the given
    precision and scale are i32 and are narrowed to u8 and i8. *)
Definition connect_decimal (s : text) (precision scale : option Z) : outcome literal :=
  match parse_decimal_string s with
  | Ok (LDecimal bits p sc v) =>
      match precision, scale with
      | None, None => Ok (LDecimal bits p sc v)
      | _, _ =>
          let p' := match precision with Some x => Z.max p (x mod 256) | None => p end in
          let sc' := match scale with Some x => Z.max sc (wrap 8 x) | None => sc end in
          Ok (LDecimal bits (Z.max p' (sc' mod 256)) sc' v)
      end
  | Ok _ => Err
  | Err => Err
  | Panic => Panic
  end.
