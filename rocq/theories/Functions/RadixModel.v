(** Numbers in other bases: conv, bin and unhex. *)
From Coq Require Import ZArith NArith ZifyN Ascii String Lia.
From stdpp Require Import prelude list.
From Verif.Lib Require Import Text.
From Verif.Functions Require Import IntModel.
Local Open Scope Z_scope.

(** ** conv *)
(** char::to_digit with the radix 36: the value of a digit or letter. *)
Definition digit_value (c : N) : option Z :=
  if ((48 <=? c) && (c <=? 57))%N then Some (Z.of_N c - 48)
  else if ((65 <=? c) && (c <=? 90))%N then Some (Z.of_N c - 55)
  else if ((97 <=? c) && (c <=? 122))%N then Some (Z.of_N c - 87)
  else None.
(** i64::from_str_radix (a dependency, from its documentation): an optional sign and at least one digit;
    an error when the number does not fit.  The number is computed first and checked once, which is the same
    because it only grows away from 0. *)
Fixpoint read_digits (base acc : Z) (s : text) : option Z :=
  match s with
  | [] => Some acc
  | c :: s' =>
    d ← digit_value c;
    if d <? base then read_digits base (acc * base + d) s' else None
  end.
Definition from_str_radix (base : Z) (s : text) : option Z :=
  match s with
  | [] => None
  | c :: s' =>
    let '(sign, l) := if (c =? 45)%N then (-1, s') else if (c =? 43)%N then (1, s') else (1, s) in
    match l with
    | [] => None
    | _ => n ← read_digits base 0 l; checked 64 (sign * n)
    end
  end.

(** std::char::from_digit(rem, 36) in upper case, or '?'
    (crates/sail-function/src/scalar/math/spark_conv.rs:234-238). *)
Definition digit_char (rem : Z) : N :=
  if (0 <=? rem) && (rem <? 10) then Z.to_N (48 + rem)
  else if (10 <=? rem) && (rem <? 36) then Z.to_N (55 + rem)
  else 63%N.
(** The loop of spark_conv.rs:232-244: the digits, the last one first.  The remainder is cast to u8.
    At most 64 rounds, as the base is at least 2. *)
Fixpoint radix_digits (fuel : nat) (n base : Z) : text :=
  match fuel with
  | O => []
  | S fuel =>
    let c := digit_char (Z.rem n base mod 256) in
    let n' := Z.quot n base in
    if n' =? 0 then [c] else c :: radix_digits fuel n' base
  end.
(** spark_conv.rs:221-251 [to_radix_string], in a release build, where [abs] of the least number wraps. *)
Definition to_radix_string (n base : Z) : text :=
  if n =? 0 then str "0"
  else
    let l := radix_digits 64 (wrap 64 (Z.abs n)) base in
    rev (if n <? 0 then l ++ str "-" else l).
(** One row of a column of strings (spark_conv.rs:131-219 [invoke_vectorized]). *)
Definition conv_column (s : option text) (from to : Z) : option text :=
  if negb ((2 <=? from) && (from <=? 36)) || negb ((2 <=? to) && (to <=? 36)) then None
  else s ← s; n ← from_str_radix from s; Some (to_radix_string n to).
(** A constant string (spark_conv.rs:60-86): NULL is shown as the text NULL first. *)
Definition conv_constant (s : option text) (from to : Z) : option text :=
  conv_column (Some (default (str "NULL") s)) from to.
(** One row of a column of ints: the first base is not used (spark_conv.rs:199-204). *)
Definition conv_int_column (n : option Z) (from to : Z) : option text :=
  if negb ((2 <=? from) && (from <=? 36)) || negb ((2 <=? to) && (to <=? 36)) then None
  else n ← n; Some (to_radix_string n to).
(** A constant int is shown as a decimal text first (spark_conv.rs:60-61). *)
Definition conv_int_constant (n : option Z) (from to : Z) : option text :=
  conv_constant (n ← n; Some (to_radix_string n 10)) from to.

(** ** bin *)
(** crates/sail-function/src/scalar/math/spark_bin.rs:205-219 [bin_into]: [v >> i & 1] for [i] from
    [k - 1] down to 0. *)
Fixpoint bits (k : nat) (v : Z) : text :=
  match k with
  | O => []
  | S k => (if (v / 2 ^ Z.of_nat k) mod 2 =? 1 then 49%N else 48%N) :: bits k v
  end.
Definition bin (n : Z) : text :=
  let v := n mod 2 ^ 64 in
  if 0 <=? n then bits (Z.to_nat (Z.max (if v =? 0 then 0 else Z.log2 v + 1) 1)) v
  else bits 64 v.

(** ** hex and unhex *)
(** crates/sail-function/src/scalar/math/spark_unhex.rs:217-226 [unhex_digit] *)
Definition unhex_digit (c : N) : option N :=
  if ((48 <=? c) && (c <=? 57))%N then Some (c - 48)%N
  else if ((65 <=? c) && (c <=? 70))%N then Some (10 + c - 65)%N
  else if ((97 <=? c) && (c <=? 102))%N then Some (10 + c - 97)%N
  else None.
(** spark_unhex.rs:230-251 [unhex] *)
Fixpoint unhex_pairs (s : text) : option (list N) :=
  match s with
  | a :: b :: s' =>
    x ← unhex_digit a; y ← unhex_digit b; r ← unhex_pairs s';
    Some (N.lor (N.shiftl x 4) y :: r)
  | _ => Some []
  end.
Definition unhex (s : text) : option (list N) :=
  if Nat.odd (length s) then
    match s with
    | a :: s' => x ← unhex_digit a; r ← unhex_pairs s'; Some (x :: r)
    | [] => Some []
    end
  else unhex_pairs s.
(** spark_unhex.rs:78-96 [hex_bytes], and the hex of datafusion_spark: two upper-case digits for each byte. *)
Definition hex_digit (n : N) : N := if (n <? 10)%N then (48 + n)%N else (55 + n)%N.
Definition hex (b : list N) : text := flat_map (fun x => [hex_digit (x / 16); hex_digit (x mod 16)]%N) b.
