From Coq Require Import ZArith Lia.
From stdpp Require Import prelude list numbers.
From Verif Require Import Functions.IntModel Functions.CeilModel Functions.PreimageModel.
From Verif Require Import Functions.PreimageSpec Functions.PreimageProofs.
#[local] Open Scope Z_scope.

(** A filter on floor(x) that has been rewritten into a filter on x keeps the same rows, for columns of
    integers, decimals and floating-point numbers. Missing: NaN and the negative zero. *)
Theorem C74_filter_partial t op l g v :
  lit_ok t l -> val_ok t v -> plain v ->
  preimage_filter t op l = Some g ->
  g v = original t op l v.
Proof. intros. by eapply preimage_right. Qed.
Print Assumptions C74_filter_partial.

(** The bounds of a decimal column fit in its type, and so do those of an integer column. *)
Theorem C74_bounds_fit t n lo hi :
  bounds t n = Some (lo, hi) ->
  match t with
  | TInt bits => int_min bits <= lo < hi /\ hi <= int_max bits
  | TDec p _ => - 10 ^ p < lo < hi /\ hi < 10 ^ p
  | TF64 | TF32 => lo < hi
  end.
Proof.
  intros Hb. destruct t; cbn [bounds] in Hb.
  - unfold int_bounds in Hb. destruct (checked bits n) as [a|] eqn:E1; [|done]. cbn [mbind option_bind] in Hb.
    apply checked_Some in E1 as [-> E1].
    destruct (checked bits (n + 1)) as [b|] eqn:E2; [|done]. cbn [mbind option_bind] in Hb.
    apply checked_Some in E2 as [-> E2]. injection Hb as <- <-. unfold fits in *. lia.
  - apply dec_case in Hb as (Hs & -> & -> & H1 & H2).
    assert (0 < 10 ^ s) by (apply Z.pow_pos_nonneg; lia). lia.
  - unfold float_bounds in Hb. cbn zeta in Hb. destruct (checked 128 (n + 1)); [|done].
    cbn [mbind option_bind] in Hb. destruct (_ || _) eqn:E; [done|].
    apply (inj Some) in Hb. injection Hb as <- <-. lia.
  - destruct (float_bounds n) as [[a b]|]; [|done]. cbn [mbind option_bind] in Hb. cbn zeta in Hb.
    destruct (_ || _) eqn:E; [done|]. apply (inj Some) in Hb. injection Hb as <- <-. lia.
Qed.
Print Assumptions C74_bounds_fit.

(** floor(-0.0) is 0, but the filter floor(x) = 0 loses -0.0, and floor(x) = -1 keeps it. *)
Theorem C74_negative_zero_refuted :
  exists g h,
    preimage_filter TF64 CEq (LInt 0) = Some g /\ preimage_filter TF64 CEq (LInt (-1)) = Some h /\
    original TF64 CEq (LInt 0) (VFloat NegZero) = true /\ g (VFloat NegZero) = false /\
    original TF64 CEq (LInt (-1)) (VFloat NegZero) = false /\ h (VFloat NegZero) = true.
Proof. eexists _, _. split_and!; [done|done|..]; by vm_compute. Qed.
Print Assumptions C74_negative_zero_refuted.

(** floor(NaN) is 0, but the filter floor(x) = 0 loses NaN, and floor(x) > 5 keeps it. *)
Theorem C74_nan_refuted :
  exists g h,
    preimage_filter TF64 CEq (LInt 0) = Some g /\ preimage_filter TF64 CGt (LInt 5) = Some h /\
    original TF64 CEq (LInt 0) (VFloat (NaN false)) = true /\ g (VFloat (NaN false)) = false /\
    original TF64 CGt (LInt 5) (VFloat (NaN false)) = false /\ h (VFloat (NaN false)) = true.
Proof. eexists _, _. split_and!; [done|done|..]; by vm_compute. Qed.
Print Assumptions C74_nan_refuted.

(** Numbers at the edge of what a double can tell apart, and one that is given up. *)
Example C74_example :
  bounds TF64 (2 ^ 53 + 2) = Some (2 ^ 53 + 2, 2 ^ 53 + 4) /\
  bounds TF64 (2 ^ 53) = None /\ bounds TF64 (- 2 ^ 53 - 2) = Some (- 2 ^ 53 - 2, - 2 ^ 53) /\
  bounds TF32 (2 ^ 24) = None /\ bounds TF32 (2 ^ 24 - 1) = Some (2 ^ 24 - 1, 2 ^ 24) /\
  bounds (TDec 5 2) 999 = None /\ bounds (TDec 5 2) (-999) = Some (-99900, -99800) /\
  val_ok TF64 (VFloat (Fin (2 ^ 52 + 1) 1)) /\ plain (VFloat (Fin (2 ^ 52 + 1) 1)) /\
  lit_ok TF64 (LInt (2 ^ 53 + 2)) /\ original TF64 CEq (LInt (2 ^ 53 + 2)) (VFloat (Fin (2 ^ 52 + 1) 1)) = true /\
  lit_ok (TDec 5 2) (LDec (-99900) 2) /\ original (TDec 5 2) CLt (LDec (-99900) 2) (VDec (-99901)) = true.
Proof. split_and!; try (by vm_compute); cbn; lia. Qed.
