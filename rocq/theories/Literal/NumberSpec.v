(** What a number literal says, written down without looking at how it is parsed. *)
From Coq Require Import NArith ZArith ZifyN QArith Ascii String Lia.
From stdpp Require Import prelude list strings.
From Verif Require Import Lib.Text Functions.IntModel Literal.NumberModel.
#[local] Open Scope Z_scope.

(** The rational number m * 10^e. *)
Definition sci (m e : Z) : Q :=
  if 0 <=? e then inject_Z (m * 10 ^ e) else Qmake m (Z.to_pos (10 ^ (- e))).

(** A numeral: a sign, digits, a point, digits, and an exponent (a letter, a sign and digits). *)
Record numeral := Numeral {
  n_sign : text;
  n_whole : text;
  n_point : bool;
  n_fraction : text;
  n_exponent : option (N * text * text);
}.

Definition is_sign (s : text) : Prop := s = [] \/ s = str "+" \/ s = str "-".
Definition all_digits (s : text) : Prop := Forall (fun c => is_digit c = true) s.

(** A numeral has at least one digit before the exponent, and a fraction only after a point. *)
Definition numeral_ok (n : numeral) : Prop :=
  is_sign (n_sign n) /\ all_digits (n_whole n) /\ all_digits (n_fraction n) /\
  n_whole n ++ n_fraction n <> [] /\
  (n_point n = false -> n_fraction n = []) /\
  match n_exponent n with
  | None => True
  | Some (l, sg, ds) => (l = 101 \/ l = 69)%N /\ is_sign sg /\ all_digits ds /\ ds <> []
  end.

(** How it is written. *)
Definition exponent_text (e : option (N * text * text)) : text :=
  match e with None => [] | Some (l, sg, ds) => l :: sg ++ ds end.
Definition numeral_text (n : numeral) : text :=
  n_sign n ++ n_whole n ++ (if n_point n then str "." else []) ++ n_fraction n ++
  exponent_text (n_exponent n).

(** The number it says. *)
Definition signed (sg : text) (n : N) : Z := if bool_decide (sg = str "-") then - Z.of_N n else Z.of_N n.
Definition exponent_value (e : option (N * text * text)) : Z :=
  match e with None => 0 | Some (_, sg, ds) => signed sg (dec_value ds) end.
Definition mantissa (n : numeral) : Z := signed (n_sign n) (dec_value (n_whole n ++ n_fraction n)).
Definition numeral_value (n : numeral) : Q :=
  sci (mantissa n) (exponent_value (n_exponent n) - Z.of_nat (length (n_fraction n))).

(** No sign, no point and no exponent. *)
Definition plain (n : numeral) : Prop :=
  n_sign n = [] /\ n_point n = false /\ n_exponent n = None.

(** The digits of the whole part that are left when the zeros in front are taken away. *)
Fixpoint significant (s : text) : nat :=
  match s with [] => 0 | c :: s' => if bool_decide (c = 48%N) then significant s' else length s end.
(** The digits before the point, when there is any digit to write down at all: 0 has one. *)
Definition whole_digits (n : numeral) : Z :=
  if bool_decide (significant (n_whole n) = O) && bool_decide (n_fraction n = []) then 1
  else Z.of_nat (significant (n_whole n)).
Definition fraction_digits (n : numeral) : Z := Z.of_nat (length (n_fraction n)).

(** How many digits it takes to write the numeral without an exponent, and how many of them come after
    the point. *)
Definition needed_digits (n : numeral) : Z :=
  let e := exponent_value (n_exponent n) in
  Z.max (whole_digits n + Z.max (fraction_digits n) e) (fraction_digits n - e).
Definition needed_scale (n : numeral) : Z :=
  Z.max 0 (fraction_digits n - exponent_value (n_exponent n)).

(** The letters after a number, in either case. *)
Definition upper (c : N) : N := if (97 <=? c)%N && (c <=? 122)%N then (c - 32)%N else c.
Definition suffix_letters (suf : option suffix) : text :=
  match suf with
  | None => []
  | Some SufY => str "Y"
  | Some SufS => str "S"
  | Some SufL => str "L"
  | Some SufF => str "F"
  | Some SufD => str "D"
  | Some SufBd => str "BD"
  end.
Definition spells_suffix (suf : option suffix) (t : text) : Prop := map upper t = suffix_letters suf.
(** The suffixes that only an integer takes. *)
Definition integer_suffix (suf : option suffix) : Prop := suf = Some SufY \/ suf = Some SufS \/ suf = Some SufL.

(** The text of a number literal in a query: an unsigned numeral and a suffix. *)
Definition literal_text (n : numeral) (suf : option suffix) (s : text) : Prop :=
  numeral_ok n /\ n_sign n = [] /\ (integer_suffix suf -> plain n) /\
  exists t, spells_suffix suf t /\ s = numeral_text n ++ t.

(** The number that a literal stands for, unless it is a float. *)
Definition literal_value (l : literal) : option Q :=
  match l with
  | LInt _ n => Some (inject_Z n)
  | LDecimal _ _ sc v => Some (sci v (- sc))
  | LFloat _ _ => None
  end.
(** Its type can hold it. *)
Definition literal_ok (l : literal) : Prop :=
  match l with
  | LInt bits n => fits bits n = true
  | LDecimal bits p sc v =>
      (bits = 128 /\ 1 <= p <= 38 \/ bits = 256 /\ 38 < p <= 76) /\ 0 <= sc <= p /\ Z.abs v < 10 ^ p
  | LFloat _ _ => True
  end.
