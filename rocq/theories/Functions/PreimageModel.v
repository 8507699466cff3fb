(** The rewriting of filters on floor(x). *)
From Coq Require Import ZArith Lia.
From stdpp Require Import prelude list numbers.
From Verif Require Import Functions.IntModel Functions.CeilModel.
#[local] Open Scope Z_scope.

(** Floating-point numbers. [Fin m e] is m * 2^e; [Fin 0 e] is the positive zero. *)
Inductive fval := Fin (m e : Z) | NegZero | Inf (negative : bool) | NaN (negative : bool).

(** The types of columns that the rewriting knows, and their values. A decimal is its unscaled value. *)
Inductive cty := TInt (bits : Z) | TDec (p s : Z) | TF64 | TF32.
Inductive cval := VInt (z : Z) | VDec (v : Z) | VFloat (x : fval).

(** Rust's "as i64" and "as i128" from floating point saturate, and make NaN zero. *)
Definition saturate (bits z : Z) : Z := Z.max (int_min bits) (Z.min (int_max bits) z).

(** f64::floor(x) as i64 (crates/sail-function/src/scalar/math/spark_ceil_floor.rs:583-603). *)
Definition float_floor (x : fval) : Z :=
  match x with
  | Fin m e => saturate 64 (if 0 <=? e then m * 2 ^ e else m / 2 ^ (- e))
  | NegZero => 0
  | Inf negative => if negative then int_min 64 else int_max 64
  | NaN _ => 0
  end.

(** floor(x) with one argument (spark_ceil_floor.rs:363-618); a decimal result has scale 0. *)
Definition floor1 (t : cty) (v : cval) : Z :=
  match t, v with
  | TInt _, VInt z => z
  | TDec _ s, VDec z => ceil_floor_with_target_scale Floor z s 0
  | _, VFloat x => float_floor x
  | _, _ => 0
  end.

(** An integer as a floating-point number with [prec] bits: to the nearest, ties to even. The integers
    are i128, so nothing becomes infinite. The result is an integer again. *)
Definition round_to (prec n : Z) : Z :=
  let a := Z.abs n in
  if a <? 2 ^ prec then n
  else
    let k := Z.log2 a - (prec - 1) in
    let q := a / 2 ^ k in
    let r := a mod 2 ^ k in
    let up := (2 ^ k <? 2 * r) || ((2 * r =? 2 ^ k) && Z.odd q) in
    Z.sgn n * (if up then q + 1 else q) * 2 ^ k.

(** float_bounds (spark_ceil_floor.rs:860-869). *)
Definition float_bounds (n : Z) : option (Z * Z) :=
  let lo := round_to 53 n in
  m ← checked 128 (n + 1);
  let hi := round_to 53 m in
  if negb (saturate 128 lo =? n) || (hi <=? lo) then None else Some (lo, hi).

(** int_bounds (spark_ceil_floor.rs:871-878). *)
Definition int_bounds (bits n : Z) : option (Z * Z) :=
  lo ← checked bits n; hi ← checked bits (lo + 1); Some (lo, hi).

(** decimal128_bounds (spark_ceil_floor.rs:880-898). checked_pow fails from 10^39 on. *)
Definition decimal128_bounds (n precision scale : Z) : option (Z * Z) :=
  if scale <? 0 then None
  else
    step ← checked 128 (10 ^ scale);
    lo ← checked 128 (n * step);
    hi ← checked 128 (lo + step);
    let max_unscaled := 10 ^ precision in
    if (max_unscaled <=? Z.abs lo) || (max_unscaled <=? Z.abs hi) then None else Some (lo, hi).

(** The bounds chosen by preimage_floor (spark_ceil_floor.rs:791-822). Floating-point bounds are given by
    the integers that they are; a bound of zero is the positive zero. *)
Definition bounds (t : cty) (n : Z) : option (Z * Z) :=
  match t with
  | TF64 => float_bounds n
  | TF32 =>
      '(lo, hi) ← float_bounds n;
      let lo32 := round_to 24 lo in
      let hi32 := round_to 24 hi in
      if negb (lo32 =? lo) || negb (hi32 =? hi) || (hi32 <=? lo32) then None else Some (lo32, hi32)
  | TInt bits => int_bounds bits n
  | TDec p s => decimal128_bounds n p s
  end.

(** The literals that a floor can be compared with: integers, and decimals with a scale. *)
Inductive lit := LInt (z : Z) | LDec (z s : Z).
(** lit_as_integer (spark_ceil_floor.rs:833-858). *)
Definition lit_as_integer (l : lit) : option Z :=
  match l with
  | LInt z => Some z
  | LDec z s =>
      if s =? 0 then Some z
      else if 0 <? s then
        pow ← checked 128 (10 ^ s);
        if Z.rem z pow =? 0 then Some (Z.quot z pow) else None
      else None
  end.

(** Comparing a column with a bound. Arrow orders floating-point numbers by IEEE 754 totalOrder: the
    negative zero is less than the positive one, and NaN is greater than infinity, or less than
    -infinity if its sign is set. *)
Definition cmp_bound (v : cval) (b : Z) : comparison :=
  match v with
  | VInt z | VDec z => Z.compare z b
  | VFloat (Fin m e) => if 0 <=? e then Z.compare (m * 2 ^ e) b else Z.compare m (b * 2 ^ (- e))
  | VFloat NegZero => if 0 <=? b then Lt else Gt
  | VFloat (Inf negative) | VFloat (NaN negative) => if negative then Lt else Gt
  end.
Definition ge_bound (v : cval) (b : Z) : bool := match cmp_bound v b with Lt => false | _ => true end.
Definition lt_bound (v : cval) (b : Z) : bool := negb (ge_bound v b).

(** DataFusion's rewriting of a comparison of a function with a literal, given the interval of the
    arguments on which they are equal (PreimageResult::Range). NULL stays NULL on both sides and is not
    modelled. *)
Inductive cop := CEq | CNe | CLt | CLe | CGt | CGe.
Definition rewritten (op : cop) (v : cval) (lo hi : Z) : bool :=
  match op with
  | CEq => ge_bound v lo && lt_bound v hi
  | CNe => lt_bound v lo || ge_bound v hi
  | CLt => lt_bound v lo
  | CLe => lt_bound v hi
  | CGt => ge_bound v hi
  | CGe => ge_bound v lo
  end.

(** The filter that is evaluated for floor(x) op l: the rewritten one if there is a preimage
    (spark_ceil_floor.rs:773-831), otherwise [None] and the filter stays as it is. *)
Definition preimage_filter (t : cty) (op : cop) (l : lit) : option (cval -> bool) :=
  n ← lit_as_integer l;
  '(lo, hi) ← bounds t n;
  Some (fun v => rewritten op v lo hi).
