From Coq Require Import ZArith QArith Qround Lia.
From stdpp Require Import prelude list numbers.
From Verif Require Import Functions.CeilModel Functions.CeilSpec Functions.CeilProofs.
#[local] Open Scope Z_scope.

(** ceil and floor of a decimal are the least number above and the greatest number below with the wanted
    number of places. Without a second argument that number is 0. *)
Theorem C73_decimal f p s v t :
  0 <= s -> -37 <= default 0 t ->
  exists d, decimal_fn f p s v t = Some d /\ rounds_to f (number v s) (default 0 t) (dec_number d).
Proof.
  intros Hs Ht. destruct (decimal_fn f p s v t) as [d|] eqn:E.
  - exists d. split; [done|]. by eapply decimal_fn_rounds.
  - exfalso. unfold decimal_fn in E. replace (default 0 t <? -37) with false in E by lia.
    by destruct (round_decimal_base _ _ _).
Qed.
Print Assumptions C73_decimal.

(** The answer fits in the declared precision, except perhaps for 38 digits before the point that are
    rounded to tens or more. *)
Theorem C73_decimal_fits f p s v t d :
  0 <= s <= p -> 0 < p <= 38 -> - 10 ^ p < v < 10 ^ p ->
  0 <= default 0 t \/ p - s < 38 ->
  decimal_fn f p s v t = Some d -> dec_fits d.
Proof. intros Hs Hp Hv. apply decimal_fn_fits; lia. Qed.
Print Assumptions C73_decimal_fits.

(** That exception is real. *)
Theorem C73_fits_refuted :
  exists p s v t d,
    0 <= s <= p /\ 0 < p <= 38 /\ - 10 ^ p < v < 10 ^ p /\ -37 <= t /\
    decimal_fn Ceil p s v (Some t) = Some d /\ ~ dec_fits d.
Proof.
  exists 38, 0, (10 ^ 38 - 1), (-1), (Dec 38 0 (10 ^ 38)). split_and!; try lia; [by vm_compute|].
  unfold dec_fits. cbn [d_precision d_value]. lia.
Qed.
Print Assumptions C73_fits_refuted.

(** The same for integers, whose answer always fits. *)
Theorem C73_integer f bits v t :
  bits = 8 \/ bits = 16 \/ bits = 32 \/ bits = 64 ->
  - 2 ^ (bits - 1) <= v < 2 ^ (bits - 1) -> -37 <= t ->
  exists d, int_fn f bits v t = Some d /\ rounds_to f (inject_Z v) t (dec_number d) /\ dec_fits d.
Proof.
  intros Hbits Hv Ht. rewrite int_fn_decimal.
  destruct (C73_decimal f (int_precision bits) 0 v (Some t) ltac:(lia) Ht) as (d & Hd & Hr).
  exists d. split; [done|]. split; [exact Hr|].
  assert (0 < int_precision bits < 38 /\ Z.abs v < 10 ^ int_precision bits) as [Hp Hb].
  { destruct Hbits as [-> | [-> | [-> | ->] ] ]; cbn [int_precision Z.eqb Pos.eqb]; lia. }
  eapply decimal_fn_fits; [| | | |exact Hd]; lia.
Qed.
Print Assumptions C73_integer.

(** For a DOUBLE the same holds if it has no more places than are asked for. Missing: doubles with more
    places, for which the statement is false. *)
Theorem C73_double_partial f v t :
  -37 <= t ->
  let s := if t <? 0 then 0 else Z.min 15 t in
  exists d, double_fn f (number v s) t = Some d /\ rounds_to f (number v s) t (dec_number d).
Proof.
  intros Ht. cbn zeta. unfold double_fn. replace (t <? -37) with false by lia. unfold round_decimal_base.
  destruct (t <? 0) eqn:E.
  - rewrite cast_exact by lia. eexists. split; [done|].
    pose proof (fn_rounds f v 0 t ltac:(lia)) as Hr. rewrite E in Hr. exact Hr.
  - rewrite cast_exact by lia. eexists. split; [done|].
    pose proof (fn_rounds f v (Z.min 15 t) t ltac:(lia)) as Hr. rewrite E in Hr.
    rewrite (Z.min_l (Z.min 15 t) t) in Hr by lia. exact Hr.
Qed.
Print Assumptions C73_double_partial.

(** ceil(1.0625D, 2) is 1.06, which is below its argument, and floor(1.125D, 2) is 1.13, which is above. *)
Theorem C73_double_refuted :
  (exists d, double_fn Ceil (17 # 16) 2 = Some d /\ dec_number d == 106 # 100 /\ dec_number d < 17 # 16)%Q /\
  (exists d, double_fn Floor (9 # 8) 2 = Some d /\ dec_number d == 113 # 100 /\ 9 # 8 < dec_number d)%Q.
Proof.
  split; (eexists; split; [vm_compute; reflexivity|]; split; vm_compute; reflexivity).
Qed.
Print Assumptions C73_double_refuted.

Example C73_example :
  decimal_fn Ceil 5 3 (-12345) (Some 1) = Some (Dec 4 1 (-123)) /\
  decimal_fn Floor 5 3 (-12345) (Some 1) = Some (Dec 4 1 (-124)) /\
  decimal_fn Ceil 5 3 12345 None = Some (Dec 3 0 13) /\
  decimal_fn Floor 7 2 (-1234567) (Some (-3)) = Some (Dec 6 0 (-13000)) /\
  int_fn Ceil 32 123456 (-2) = Some (Dec 11 0 123500).
Proof. by vm_compute. Qed.
