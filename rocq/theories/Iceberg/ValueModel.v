(** Literal values of Iceberg metadata.
    Source: crates/sail-iceberg/src/spec/types/values.rs. *)
From Coq Require Import NArith ZArith Lia.
From stdpp Require Import prelude list.
From Verif.Lib Require Import Text.

(** values.rs:35-48 [PrimitiveLiteral].  Floats are their bit patterns, strings
    and binaries their bytes, UUIDs and fixed values numbers.  The nested literals
    (struct, list, map) are not modelled: partition values and bounds are
    primitive. *)
Inductive prim :=
| PBool (b : bool)
| PInt (z : Z)
| PLong (z : Z)
| PFloat (bits : N)
| PDouble (bits : N)
| PInt128 (z : Z)
| PString (s : text)
| PUInt128 (n : N)
| PBinary (s : text).
Global Instance prim_eqdec : EqDecision prim.
Proof. solve_decision. Defined.

(** The ranges of the Rust types. *)
Definition prim_ok (p : prim) : Prop :=
  match p with
  | PBool _ => True
  | PInt z => (- 2 ^ 31 <= z < 2 ^ 31)%Z
  | PLong z => (- 2 ^ 63 <= z < 2 ^ 63)%Z
  | PFloat b => (b < 2 ^ 32)%N
  | PDouble b => (b < 2 ^ 64)%N
  | PInt128 z => (- 2 ^ 127 <= z < 2 ^ 127)%Z
  | PUInt128 n => (n < 2 ^ 128)%N
  | PString s | PBinary s => Forall is_byte s
  end.

(** The order of [OrderedFloat]: NaN is the largest and equal to itself, the two
    zeros are equal.  [fkey m e b] maps a bit pattern with [m] mantissa bits and
    exponent mask [e] (so that infinity is [e * 2^m]) to an integer that is ordered
    the same way. *)
Definition fkey (m e : N) (b : N) : Z :=
  let sign := N.testbit b (m + N.log2 (e + 1)) in
  let mag := N.land b ((e + 1) * 2 ^ m - 1) in
  if (e * 2 ^ m <? mag)%N then Z.of_N (e * 2 ^ m) + 1
  else if sign then - Z.of_N mag else Z.of_N mag.
Definition fkey32 : N -> Z := fkey 23 255.
Definition fkey64 : N -> Z := fkey 52 2047.
Definition is_nan (m e : N) (b : N) : bool :=
  (e * 2 ^ m <? N.land b ((e + 1) * 2 ^ m - 1))%N.

(** Lexicographic comparison of bytes ([String] and [Vec<u8>] in Rust). *)
Fixpoint bytes_cmp (a b : text) : comparison :=
  match a, b with
  | [], [] => Eq
  | [], _ :: _ => Lt
  | _ :: _, [] => Gt
  | x :: a, y :: b => match N.compare x y with Eq => bytes_cmp a b | c => c end
  end.

(** values.rs:56-90 [Ord for PrimitiveLiteral]: values of different kinds are
    ordered by the kind. *)
Definition kind (p : prim) : nat :=
  match p with
  | PBool _ => 0 | PInt _ => 1 | PLong _ => 2 | PFloat _ => 3 | PDouble _ => 4
  | PInt128 _ => 5 | PString _ => 6 | PUInt128 _ => 7 | PBinary _ => 8
  end.
Definition bool_cmp (a b : bool) : comparison :=
  match a, b with false, true => Lt | true, false => Gt | _, _ => Eq end.
Definition prim_cmp (a b : prim) : comparison :=
  match a, b with
  | PBool a, PBool b => bool_cmp a b
  | PInt a, PInt b => Z.compare a b
  | PLong a, PLong b => Z.compare a b
  | PFloat a, PFloat b => Z.compare (fkey32 a) (fkey32 b)
  | PDouble a, PDouble b => Z.compare (fkey64 a) (fkey64 b)
  | PInt128 a, PInt128 b => Z.compare a b
  | PUInt128 a, PUInt128 b => N.compare a b
  | PString a, PString b => bytes_cmp a b
  | PBinary a, PBinary b => bytes_cmp a b
  | _, _ => Nat.compare (kind a) (kind b)
  end.
(** values.rs:36 [derive(PartialEq)], with the equality of [OrderedFloat]. *)
Definition prim_eq (a b : prim) : bool :=
  match prim_cmp a b with Eq => true | _ => false end.
Definition prim_lt (a b : prim) : bool :=
  match prim_cmp a b with Lt => true | _ => false end.
Definition prim_gt (a b : prim) : bool :=
  match prim_cmp a b with Gt => true | _ => false end.
