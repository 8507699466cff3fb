(** Fixed-width two's complement integers. *)
From Coq Require Import ZArith Lia.
From stdpp Require Import prelude list numbers.
#[local] Open Scope Z_scope.

(** The range of Rust's signed integer type with [bits] bits (i8, i16, i32, i64, i128). *)
Definition int_min (bits : Z) : Z := - 2 ^ (bits - 1).
Definition int_max (bits : Z) : Z := 2 ^ (bits - 1) - 1.
Definition fits (bits z : Z) : bool := (int_min bits <=? z) && (z <=? int_max bits).

(** What the unchecked operators +, -, * of that type return in a release build, and what [as]
    returns when it narrows. (A build with overflow checks panics instead.) *)
Definition wrap (bits z : Z) : Z :=
  (z + 2 ^ (bits - 1)) mod 2 ^ bits - 2 ^ (bits - 1).

(** checked_add, checked_sub, checked_mul, try_from: the result if it is in range. *)
Definition checked (bits z : Z) : option Z := if fits bits z then Some z else None.
