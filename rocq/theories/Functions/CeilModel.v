(** ceil() and floor() of integers, decimals and floating-point numbers. *)
From Coq Require Import ZArith QArith Qround Lia.
From stdpp Require Import prelude list numbers.
#[local] Open Scope Z_scope.

Inductive fn := Ceil | Floor.

(** div_ceil and div_floor of the num crate (imported at
    crates/sail-function/src/scalar/math/spark_ceil_floor.rs:18). *)
Definition div_floor (a b : Z) : Z := a / b.
Definition div_ceil (a b : Z) : Z := if a mod b =? 0 then a / b else a / b + 1.
Definition div_fn (f : fn) : Z -> Z -> Z := match f with Ceil => div_ceil | Floor => div_floor end.

(** ceil_floor_with_target_scale (spark_ceil_floor.rs:724-762). The i128 arithmetic is done on integers:
    with a precision of at most 38 and a target scale of at least -37 nothing leaves the i128 range. *)
Definition ceil_floor_with_target_scale (f : fn) (decimal scale target_scale : Z) : Z :=
  if target_scale <? 0 then
    let integer_value :=
      match Z.compare scale 0 with
      | Gt => div_fn f decimal (10 ^ scale)
      | Lt => decimal * 10 ^ (- scale)
      | Eq => decimal
      end in
    let pow_factor := 10 ^ (- target_scale) in
    div_fn f integer_value pow_factor * pow_factor
  else
    let scale_diff := target_scale - scale in
    if 0 <=? scale_diff then decimal else div_fn f decimal (10 ^ (- scale_diff)).

(** round_decimal_base with decimal_128 = true
    (crates/sail-function/src/scalar/math/utils/decimal.rs:6-36). *)
Definition round_decimal_base (precision scale target_scale : Z) : Z * Z :=
  let integral_least_num_digits := precision - scale + 1 in
  if target_scale <? 0 then
    (Z.min (Z.max integral_least_num_digits (- target_scale + 1)) 38, 0)
  else
    let new_scale := Z.min scale target_scale in
    (Z.min (integral_least_num_digits + new_scale) 38, new_scale).

(** A DECIMAL value: precision, scale and unscaled value. *)
Record dec := Dec { d_precision : Z; d_scale : Z; d_value : Z }.

(** ceil and floor of a decimal (spark_ceil_floor.rs:620-681 with the return type at 64-148); without a
    target scale it is 0. [None] is the error for target scales below -37. *)
Definition decimal_fn (f : fn) (p s v : Z) (target : option Z) : option dec :=
  let t := default 0 target in
  if t <? -37 then None
  else
    let '(p', s') := round_decimal_base p s t in
    Some (Dec p' s' (ceil_floor_with_target_scale f v s t)).

(** The precision given to integers (spark_ceil_floor.rs:115-118). *)
Definition int_precision (bits : Z) : Z :=
  if bits =? 8 then 3 else if bits =? 16 then 5 else if bits =? 32 then 10 else 20.

(** ceil and floor of an integer with a target scale (spark_ceil_floor.rs:378-531): a cast to the
    return type, which has scale 0, or the function above. *)
Definition int_fn (f : fn) (bits v t : Z) : option dec :=
  if t <? -37 then None
  else
    let '(p', s') := round_decimal_base (int_precision bits) 0 t in
    Some (Dec p' s' (if 0 <=? t then v else ceil_floor_with_target_scale f v 0 t)).

(** The rounding of Arrow's cast from floating point to decimal: to the nearest, halves away from zero.
    The cast multiplies by a power of ten in floating point first; the model leaves out the rounding of
    that product, so it describes the numbers for which the product is exact. *)
Definition round_away (q : Q) : Z :=
  if Qle_bool 0 q then Qfloor (q + (1 # 2)) else - Qfloor (- q + (1 # 2)).
Definition cast_to_decimal (q : Q) (s : Z) : Z := round_away (q * inject_Z (10 ^ s)).

(** ceil and floor of a finite DOUBLE with a target scale (spark_ceil_floor.rs:573-582 and 120): the
    number is cast to the return type, and then rounded. Overflow of the cast is not modelled. *)
Definition double_fn (f : fn) (q : Q) (t : Z) : option dec :=
  if t <? -37 then None
  else
    let '(p', s') := round_decimal_base 30 15 t in
    Some (Dec p' s' (ceil_floor_with_target_scale f (cast_to_decimal q s') s' t)).
