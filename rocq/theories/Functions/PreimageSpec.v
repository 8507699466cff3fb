(** What a filter on floor(x) means. *)
From Coq Require Import ZArith.
From stdpp Require Import prelude.
From Verif Require Import Functions.PreimageModel Functions.IntModel.
#[local] Open Scope Z_scope.

(** The comparison of an integer with a literal: an integer, or a decimal z / 10^s. *)
Definition compare_lit (k : Z) (l : lit) : comparison :=
  match l with LInt z => Z.compare k z | LDec z s => Z.compare (k * 10 ^ s) z end.
Definition holds (op : cop) (c : comparison) : bool :=
  match op, c with
  | CEq, Eq | CNe, (Lt | Gt) | CLt, Lt | CLe, (Lt | Eq) | CGt, Gt | CGe, (Gt | Eq) => true
  | _, _ => false
  end.
(** floor(x) op l. *)
Definition original (t : cty) (op : cop) (l : lit) (v : cval) : bool :=
  holds op (compare_lit (floor1 t v) l).

(** The values of a type. *)
Definition float_ok (prec emin emax : Z) (x : fval) : Prop :=
  match x with
  | Fin m e => - 2 ^ prec < m < 2 ^ prec /\ emin <= e <= emax
  | _ => True
  end.
Definition val_ok (t : cty) (v : cval) : Prop :=
  match t, v with
  | TInt bits, VInt z => - 2 ^ (bits - 1) <= z < 2 ^ (bits - 1)
  | TDec p s, VDec z => 0 <= s /\ - 10 ^ p < z < 10 ^ p
  | TF64, VFloat x => float_ok 53 (-1074) 971 x
  | TF32, VFloat x => float_ok 24 (-149) 104 x
  | _, _ => False
  end.
(** Neither NaN nor the negative zero. *)
Definition plain (v : cval) : Prop :=
  match v with VFloat NegZero | VFloat (NaN _) => False | _ => True end.
(** The literal is an i64 or an i128 with a scale that is not negative. *)
Definition lit_ok (t : cty) (l : lit) : Prop :=
  match t, l with
  | TDec _ _, LDec z s => 0 <= s /\ - 2 ^ 127 <= z < 2 ^ 127
  | (TInt _ | TF64 | TF32), LInt z => - 2 ^ 63 <= z < 2 ^ 63
  | _, _ => False
  end.
