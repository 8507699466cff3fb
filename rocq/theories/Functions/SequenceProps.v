From Coq Require Import ZArith Lia.
From stdpp Require Import prelude list numbers.
From Verif Require Import Functions.IntModel Functions.SequenceModel Functions.SequenceSpec.
From Verif Require Import Functions.SequenceProofs.
#[local] Open Scope Z_scope.

(** If sequence() answers, every row of the answer is the sequence that its arguments describe, NULL
    exactly for the rows with a NULL argument, no element has wrapped around, and every row was legal. *)
Theorem C72_rows bits rows out :
  0 < bits <= 64 -> Forall (row_ok bits) rows ->
  gen_sequence bits rows = Some out ->
  Forall2 row_right rows out /\ total_of out < 2 ^ 31.
Proof.
  intros Hbits Hok Hout. pose proof (plan_cases bits rows 0 Hbits Hok ltac:(lia)) as Hc.
  unfold gen_sequence in Hout. destruct (plan_rows rows 0) as [ps|]; cbn [mbind option_bind] in Hout; [|done].
  destruct Hc as (ls & H1 & H2 & H3). change (mapM (fill bits) ps = Some out) in Hout.
  rewrite H1 in Hout. apply (inj Some) in Hout. subst out. split; [done|]. apply H3. lia.
Qed.
Print Assumptions C72_rows.

(** It fails only if a row is illegal or too long, or if the rows together have too many elements. *)
Theorem C72_fails bits rows :
  0 < bits <= 64 -> Forall (row_ok bits) rows ->
  gen_sequence bits rows = None ->
  (exists a b st, Some (a, b, st) ∈ rows /\
     (~ leads a b (step_of a b st) \/ too_long a b (step_of a b st))) \/
  (exists j ls, Forall2 row_right (take j rows) ls /\ 2 ^ 31 <= total_of ls).
Proof.
  intros Hbits Hok Hout. pose proof (plan_cases bits rows 0 Hbits Hok ltac:(lia)) as Hc.
  unfold gen_sequence in Hout. destruct (plan_rows rows 0) as [ps|]; cbn [mbind option_bind] in Hout; [|done].
  destruct Hc as (ls & H1 & H2 & H3). change (mapM (fill bits) ps = None) in Hout.
  by rewrite H1 in Hout.
Qed.
Print Assumptions C72_fails.

(** The arguments determine the sequence. *)
Theorem C72_unique a b s l1 l2 :
  is_sequence a b s l1 -> is_sequence a b s l2 -> l1 = l2.
Proof.
  unfold is_sequence. case_bool_decide; [congruence|]. intros H1 H2.
  apply list_eq. intros i. apply option_eq. intros x. rewrite H1, H2. done.
Qed.
Print Assumptions C72_unique.

(** A legal sequence of four elements is refused because its ends are more than 2^63 apart. *)
Theorem C72_far_ends_refuted :
  exists a b s l,
    row_ok 64 (Some (a, b, Some s)) /\ leads a b s /\ is_sequence a b s l /\ length l = 4%nat /\
    gen_sequence 64 [Some (a, b, Some s)] = None.
Proof.
  exists (- 2 ^ 63), (2 ^ 63 - 1), (2 ^ 62), [- 2 ^ 63; - 2 ^ 62; 0; 2 ^ 62].
  split_and!; [unfold row_ok; lia|left; lia| |done|by vm_compute].
  unfold is_sequence. case_bool_decide; [lia|]. intros i x.
  destruct i as [|[|[|[|i]]]]; cbn [lookup list_lookup]; [| | | |].
  1-4: split; [intros [= <-]; lia|intros [-> _]; f_equal; lia].
  split; [done|]. intros [-> Hx]. lia.
Qed.
Print Assumptions C72_far_ends_refuted.

Example C72_example :
  let rows := [Some (1, 10, Some 4); None; Some (3, 1, None); Some (127, -128, Some (-100)); Some (5, 5, Some 0)] in
  Forall (row_ok 8) rows /\
  gen_sequence 8 rows = Some [Some [1; 5; 9]; None; Some [3; 2; 1]; Some [127; 27; -73]; Some [5]] /\
  gen_sequence 8 [Some (1, 10, Some (-1))] = None.
Proof.
  cbn zeta. split_and!; [|by vm_compute|by vm_compute].
  repeat constructor; vm_compute; congruence.
Qed.
