(** What rounding up and down to a number of decimal places means. *)
From Coq Require Import ZArith QArith.
From Verif Require Import Functions.CeilModel.
#[local] Open Scope Z_scope.

(** 10 to the power of -t: the distance between neighbouring numbers with t decimal places. *)
Definition unit_of (t : Z) : Q :=
  if 0 <=? t then 1 # Z.to_pos (10 ^ t) else inject_Z (10 ^ (- t)).

(** The number that a decimal stands for. *)
Definition number (v s : Z) : Q := v # Z.to_pos (10 ^ s).
Definition dec_number (d : dec) : Q := number (d_value d) (d_scale d).

(** [y] is the least number with t decimal places that is at least [x], or the greatest one at most [x]. *)
Definition rounds_to (f : fn) (x : Q) (t : Z) (y : Q) : Prop :=
  (exists k : Z, y == inject_Z k * unit_of t)%Q /\
  match f with
  | Ceil => (x <= y)%Q /\ forall k : Z, (x <= inject_Z k * unit_of t -> y <= inject_Z k * unit_of t)%Q
  | Floor => (y <= x)%Q /\ forall k : Z, (inject_Z k * unit_of t <= x -> inject_Z k * unit_of t <= y)%Q
  end.

(** The value fits in the declared precision. *)
Definition dec_fits (d : dec) : Prop := - 10 ^ d_precision d < d_value d < 10 ^ d_precision d.
