(** C90: a remote call is repeated until it succeeds, at most the configured
    number of times, with the configured delays in between. *)

From Coq Require Import NArith Lia.
From stdpp Require Import list numbers.
From Verif.Retry Require Import RetryModel.

Open Scope N_scope.

(** ** Specification *)

(** How often the operation may be repeated. *)
Definition repetitions (s : strategy) : nat :=
  match s with Fixed n _ => n | Backoff n _ _ _ => n end.

(** The delay after the failure of call [k]. *)
Definition delay_after (s : strategy) (k : nat) : N :=
  match s with
  | Fixed _ d => d
  | Backoff _ d m f => if decide (k = 0%nat) then d else N.min (d * f ^ N.of_nat k) m
  end.

(** Calls up to number [k] with the delays in between. *)
Definition calls_until (s : strategy) (k : nat) : list action :=
  concat ((fun j => [Call; Sleep (delay_after s j)]) <$> seq 0 k) ++ [Call].

Definition is_call (a : action) : bool :=
  match a with Call => true | Sleep _ => false end.

(** The delays cannot get too large to compute. *)
Definition computable (s : strategy) : Prop :=
  match s with
  | Fixed _ _ => True
  | Backoff _ d m f => d * f < 2 ^ 64 ∧ m * f < 2 ^ 64
  end.

(** ** Proofs *)

(** The iterator after [k] delays. *)
Definition state_after (s : strategy) (k : nat) : delays :=
  match s with
  | Fixed n d => Delays (n - k) d None
  | Backoff n d m f => Delays (n - k) (delay_after s k) (Some (m, f))
  end.

Lemma state_zero s : state_after s 0 = delay s.
Proof. destruct s; cbn; by rewrite Nat.sub_0_r. Qed.

Lemma next_state s k :
  computable s → (k < repetitions s)%nat →
  next (state_after s k) = Next (delay_after s k) (state_after s (S k)).
Proof.
  intros Hc Hk. unfold next. destruct s as [n d|n d m f]; cbn [state_after remaining repetitions] in *.
  - destruct (n - k)%nat as [|r] eqn:Hr; [lia|]. cbn [growth current delay_after].
    do 2 f_equal. lia.
  - destruct (n - k)%nat as [|r] eqn:Hr; [lia|]. cbn [growth current].
    destruct Hc as [H1 H2].
    assert (delay_after (Backoff n d m f) k * f < SECONDS) as Hp.
    { unfold SECONDS, delay_after. destruct (decide (k = 0%nat)); [done|].
      eapply N.le_lt_trans; [|exact H2]. apply N.mul_le_mono_r. lia. }
    unfold times. cbv zeta. rewrite (proj2 (N.ltb_lt _ _) Hp). f_equal.
    replace r with (n - S k)%nat by lia. f_equal.
    unfold delay_after. destruct (decide (S k = 0%nat)) as [?|_]; [lia|].
    destruct (decide (k = 0%nat)) as [->|Hk0].
    + change (N.of_nat 1) with 1. by rewrite N.pow_1_r.
    + rewrite Nnat.Nat2N.inj_succ, N.pow_succ_r'.
      rewrite (N.mul_comm f), N.mul_assoc.
      set (x := d * f ^ N.of_nat k).
      destruct (N.eq_dec f 0) as [->|Hf].
      { rewrite !N.mul_0_r. done. }
      destruct (N.le_gt_cases x m) as [Hx|Hx].
      * rewrite (N.min_l x m) by done. done.
      * rewrite (N.min_r x m) by lia.
        rewrite (N.min_r (m * f) m) by nia. rewrite N.min_r by nia. done.
Qed.

Lemma next_end s : next (state_after s (repetitions s)) = Finished.
Proof. destruct s; unfold next; cbn [state_after remaining repetitions]; by rewrite Nat.sub_diag. Qed.

Lemma run_loop_spec {T E} s (f : nat → T + E) m k :
  computable s → (k + m <= repetitions s)%nat →
  (∀ j, (k <= j < k + m)%nat → ∃ e, f j = inr e) →
  (match f (k + m)%nat with
   | inl _ => True
   | inr _ => (k + m = repetitions s)%nat
   end) →
  run_loop (repetitions s - k) f k (state_after s k)
  = (concat ((fun j => [Call; Sleep (delay_after s j)]) <$> seq k m) ++ [Call],
     match f (k + m)%nat with inl t => Value t | inr e => Error e end).
Proof.
  intros Hc. revert k. induction m as [|m IH]; intros k Hk Hfail Hlast.
  - rewrite Nat.add_0_r in Hlast |- *. cbn [seq fmap list_fmap concat app].
    destruct (repetitions s - k)%nat eqn:Hr; cbn [run_loop].
    all: destruct (f k) as [t|e]; [done|].
    + assert (k = repetitions s) as -> by lia. by rewrite next_end.
    + lia.
  - destruct (Hfail k ltac:(lia)) as [e He].
    destruct (repetitions s - k)%nat as [|r] eqn:Hr; [lia|].
    cbn [run_loop]. rewrite He, next_state by (try done; lia).
    replace r with (repetitions s - S k)%nat by lia.
    cbv zeta. rewrite IH; [|lia| |].
    + replace (S k + m)%nat with (k + S m)%nat by lia. done.
    + intros j Hj. apply Hfail. lia.
    + by replace (S k + m)%nat with (k + S m)%nat by lia.
Qed.

(** ** Theorems *)

(** The operation is called until it succeeds for the first time, and its
    result is returned. *)
Theorem C90_success {T E} s (f : nat → T + E) k t :
  computable s → (k <= repetitions s)%nat →
  (∀ j, (j < k)%nat → ∃ e, f j = inr e) → f k = inl t →
  run s f = (calls_until s k, Value t).
Proof.
  intros Hc Hk Hfail Hok. unfold run, calls_until. rewrite <- state_zero.
  pose proof (run_loop_spec s f k 0 Hc ltac:(lia)) as H. cbn [plus] in H.
  rewrite Hok, Nat.sub_0_r in H.
  assert (remaining (state_after s 0) = repetitions s) as ->
    by (destruct s; cbn; by rewrite Nat.sub_0_r).
  apply H; [|done]. intros j Hj. apply Hfail. lia.
Qed.
Print Assumptions C90_success.

(** If it fails as often as it may be called, the last error is returned. *)
Theorem C90_failure {T E} s (f : nat → T + E) e :
  computable s → (∀ j, (j < repetitions s)%nat → ∃ e, f j = inr e) → f (repetitions s) = inr e →
  run s f = (calls_until s (repetitions s), Error e).
Proof.
  intros Hc Hfail He. unfold run, calls_until. rewrite <- state_zero.
  pose proof (run_loop_spec s f (repetitions s) 0 Hc ltac:(lia)) as H. cbn [plus] in H.
  rewrite He, Nat.sub_0_r in H.
  assert (remaining (state_after s 0) = repetitions s) as ->
    by (destruct s; cbn; by rewrite Nat.sub_0_r).
  apply H; [|done]. intros j Hj. apply Hfail. lia.
Qed.
Print Assumptions C90_failure.

(** Whatever the delays, the operation is called at least once and at most
    once more than it may be repeated. *)
Theorem C90_bound {T E} s (f : nat → T + E) :
  (1 <= length (List.filter is_call (run s f).1) <= 1 + repetitions s)%nat.
Proof.
  unfold run. assert (remaining (delay s) = repetitions s) as -> by (by destruct s).
  assert (∀ n k i, (1 <= length (List.filter is_call (run_loop n f k i).1) <= 1 + n)%nat) as H;
    [|apply H].
  clear s. induction n as [|n IH]; intros k i; cbn [run_loop].
  - destruct (f k); [cbn; lia|]. destruct (next i); cbn; lia.
  - destruct (f k); [cbn; lia|]. destruct (next i) as [| |d i']; [cbn; lia..|].
    cbv zeta. cbn [fst List.filter is_call length]. specialize (IH (S k) i'). lia.
Qed.
Print Assumptions C90_bound.

(** Delays do not exceed the maximum, if the first one does not. *)
Theorem C90_maximum {T E} n d m g (f : nat → T + E) x :
  d <= m → Sleep x ∈ (run (Backoff n d m g) f).1 → x <= m.
Proof.
  unfold run. cbn [delay remaining]. generalize 0%nat at 1 as k. generalize n at 1 as fuel.
  intros fuel. revert n d. induction fuel as [|fuel IH]; intros n d k Hd; cbn [run_loop].
  - destruct (f k); cbn [fst].
    { by intros ?%elem_of_list_singleton. }
    destruct (next _); cbn [fst]; by intros ?%elem_of_list_singleton.
  - destruct (f k); cbn [fst].
    { by intros ?%elem_of_list_singleton. }
    unfold next; cbn [remaining growth current]. destruct n as [|n]; cbn [fst].
    { by intros ?%elem_of_list_singleton. }
    destruct (times d g) as [p|]; cbn [fst].
    2:{ by intros ?%elem_of_list_singleton. }
    intros [?|[[= ->]|Hin]%elem_of_cons]%elem_of_cons; [done|done|].
    eapply IH; [|exact Hin]. lia.
Qed.
Print Assumptions C90_maximum.

(** The first delay is not limited. *)
Theorem C90_first_delay_refuted :
  ∃ (f : nat → unit + unit) n d m g, computable (Backoff n d m g) ∧ m < d ∧
    Sleep d ∈ (run (Backoff n d m g) f).1.
Proof.
  exists (fun k => match k with O => inr tt | _ => inl tt end), 1%nat, 60, 5, 2.
  split_and!; [done|done|]. vm_compute. right. left.
Qed.
Print Assumptions C90_first_delay_refuted.

(** A delay that would be limited is computed first; if it is too large the
    call is not repeated, although it may be. *)
Theorem C90_overflow_refuted :
  ∃ (f : nat → unit + unit) n d m g, d < 2 ^ 64 ∧ g < 2 ^ 32 ∧ m <= 60 ∧ f 1%nat = inl tt ∧
    (1 <= n)%nat ∧ run (Backoff n d m g) f = ([Call], Panicked).
Proof.
  exists (fun k => match k with O => inr tt | _ => inl tt end), 3%nat, (2 ^ 63), 60, 2.
  split_and!; [done..|lia|]. vm_compute. done.
Qed.
Print Assumptions C90_overflow_refuted.

(** Two failures, then a success. *)
Example C90_case :
  let f := fun k => match k with O => inr 7%nat | S O => inr 8%nat | _ => inl 9%nat end in
  computable (Backoff 5 1 3 4) ∧
  run (Backoff 5 1 3 4) f = ([Call; Sleep 1; Call; Sleep 3; Call], Value 9%nat) ∧
  run (Fixed 1 2) f = ([Call; Sleep 2; Call], Error 8%nat).
Proof. vm_compute. done. Qed.
