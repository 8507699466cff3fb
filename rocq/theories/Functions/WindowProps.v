(** C70: time windows. *)
From Coq Require Import ZArith Lia.
From stdpp Require Import prelude list numbers.
From Verif Require Import Functions.IntModel Functions.WindowModel Functions.WindowSpec
  Functions.WindowProofs.
#[local] Open Scope Z_scope.

(** A window definition is accepted exactly if it is legal. *)
Theorem C70_accepted d slide start times :
  d + default d slide < 2 ^ 63 ->
  (exists rows, window_rows d slide start times = Some rows) <->
  legal d (default d slide) (default 0 start).
Proof.
  intros Hr. unfold window_rows. split.
  - intros [rows H]. apply bind_Some in H as (sp & Hsp & _).
    by destruct (parse_legal _ _ _ _ Hsp Hr).
  - intros Hl. rewrite (parse_complete d slide start Hl Hr). cbn [mbind option_bind]. eauto.
Qed.
Print Assumptions C70_accepted.

(** Every input row comes out once for each window that contains its timestamp, and for no other; rows
    without a timestamp are dropped. *)
Theorem C70_windows d slide start times rows :
  window_rows d slide start times = Some rows ->
  d + default d slide < 2 ^ 63 ->
  (forall ts, Some ts ∈ times -> in_range d (default d slide) ts) ->
  NoDup rows /\
  forall i a b,
    (i, (a, b)) ∈ rows <->
    exists ts, times !! i = Some (Some ts) /\
      is_window d (default d slide) (default 0 start) a b /\ inside a b ts.
Proof.
  intros H Hr Hin. unfold window_rows in H. apply bind_Some in H as (sp & Hsp & H).
  destruct (parse_legal _ _ _ _ Hsp Hr) as [-> Hl].
  apply (inj Some) in H. subst rows. rewrite explode_invoke. unfold rows_of. split.
  - apply (rows_NoDup _ (fun i => i)); [done|]. intros ts Hts.
    apply desc_NoDup, buckets_sorted; auto.
  - intros i a b. rewrite elem_of_imap_concat. split.
    + intros (j & t & Hj & Hx). destruct t as [ts|]; [|by apply elem_of_nil in Hx].
      apply elem_of_list_fmap in Hx as (w & Hw & Hx). apply pair_equal_spec in Hw as [-> <-].
      exists ts. split; [done|]. apply buckets_spec; [done| |done].
      apply Hin. by eapply elem_of_list_lookup_2.
    + intros (ts & Hts & Hw). exists i, (Some ts). split; [done|].
      apply elem_of_list_fmap. exists (a, b). split; [done|].
      apply buckets_spec; [done| |done].
      apply Hin. by eapply elem_of_list_lookup_2.
Qed.
Print Assumptions C70_windows.

(** No row with a timestamp is lost. *)
Theorem C70_no_row_lost d slide start times rows i ts :
  window_rows d slide start times = Some rows ->
  d + default d slide < 2 ^ 63 ->
  (forall t, Some t ∈ times -> in_range d (default d slide) t) ->
  times !! i = Some (Some ts) ->
  exists a b, (i, (a, b)) ∈ rows.
Proof.
  intros H Hr Hin Hi. destruct (C70_windows _ _ _ _ _ H Hr Hin) as [_ Hspec].
  assert (legal d (default d slide) (default 0 start)) as Hl
    by (eapply C70_accepted; [done|]; eauto).
  destruct Hl as (Hs & Hst & _).
  set (s := default d slide) in *. set (st := default 0 start) in *.
  exists (st + (ts - st) / s * s), (st + (ts - st) / s * s + d).
  apply Hspec. exists ts. split; [done|]. unfold is_window, inside. split_and!.
  - by exists ((ts - st) / s).
  - done.
  - pose proof (Z.mul_div_le (ts - st) s ltac:(lia)). lia.
  - pose proof (Z.mul_succ_div_gt (ts - st) s ltac:(lia)). lia.
Qed.
Print Assumptions C70_no_row_lost.

(** Without a slide the windows do not overlap: a row is in one window only. *)
Theorem C70_tumbling d start times rows i ts :
  window_rows d None start times = Some rows ->
  2 * d < 2 ^ 63 ->
  (forall t, Some t ∈ times -> in_range d d t) ->
  times !! i = Some (Some ts) ->
  exists a, forall w, (i, w) ∈ rows <-> w = (a, a + d).
Proof.
  intros H Hr Hin Hi.
  destruct (C70_windows _ _ _ _ _ H ltac:(cbn; lia) Hin) as [_ Hspec].
  destruct (C70_no_row_lost _ _ _ _ _ _ _ H ltac:(cbn; lia) Hin Hi) as (a & b & Hab).
  exists a. intros [a' b']. cbn [default] in *.
  pose proof (proj1 (Hspec i a b) Hab) as (ts1 & Hts1 & [[k Hk] Hb] & Hins).
  rewrite Hi in Hts1. apply (inj Some) in Hts1. apply (inj Some) in Hts1. subst ts1.
  split.
  - intros Hab'. apply Hspec in Hab' as (ts2 & Hts2 & [[k' Hk'] Hb'] & Hins').
    rewrite Hi in Hts2. apply (inj Some) in Hts2. apply (inj Some) in Hts2. subst ts2.
    unfold inside in *. assert (k = k') by nia. subst. f_equal; lia.
  - intros Hw. apply pair_equal_spec in Hw as [-> ->]. rewrite <- Hb. done.
Qed.
Print Assumptions C70_tumbling.

(** window_time of a window is the last instant in it. *)
Theorem C70_window_time d slide start times rows i a b :
  window_rows d slide start times = Some rows ->
  d + default d slide < 2 ^ 63 ->
  (forall t, Some t ∈ times -> in_range d (default d slide) t) ->
  (i, (a, b)) ∈ rows ->
  inside a b (window_time (a, b)) /\ forall t, inside a b t -> t <= window_time (a, b).
Proof.
  intros H Hr Hin Hab.
  assert (legal d (default d slide) (default 0 start)) as Hl
    by (eapply C70_accepted; [done|]; eauto).
  destruct (C70_windows _ _ _ _ _ H Hr Hin) as [_ Hspec].
  apply Hspec in Hab as (ts & Hts & [_ Hb] & Hins). subst b.
  rewrite (window_time_eq a d (default d slide) ts).
  - unfold inside. destruct Hl. split; [lia|]. intros t. lia.
  - apply Hin. by eapply elem_of_list_lookup_2.
  - destruct Hl. lia.
  - destruct Hl. lia.
  - done.
Qed.
Print Assumptions C70_window_time.

(** The bound on the duration is needed: with a duration above half of the 64-bit range the number of
    windows to try comes out negative, and every row is dropped. *)
Theorem C70_long_window_refuted :
  exists d ts, legal d d 0 /\ d < 2 ^ 63 /\ 0 <= ts < d /\
    window_rows d None None [Some ts] = Some [].
Proof. exists (2 ^ 62 + 1), 5. unfold legal. split_and!; try lia. by vm_compute. Qed.
Print Assumptions C70_long_window_refuted.

(** Ten-minute windows every four minutes from second 30 on: a row in three windows, one in two. *)
Example C70_example :
  let min := 60000000 in
  window_rows (10 * min) (Some (4 * min)) (Some 30000000)
    [Some (9 * min); None; Some (- min); Some (8 * min)] =
  Some [(0%nat, (8 * min + 30000000, 18 * min + 30000000));
        (0%nat, (4 * min + 30000000, 14 * min + 30000000));
        (0%nat, (30000000, 10 * min + 30000000));
        (2%nat, (- 4 * min + 30000000, 6 * min + 30000000));
        (2%nat, (- 8 * min + 30000000, 2 * min + 30000000));
        (3%nat, (4 * min + 30000000, 14 * min + 30000000));
        (3%nat, (30000000, 10 * min + 30000000))].
Proof. by vm_compute. Qed.
Example C70_example_in_range : in_range 600000000 240000000 540000000.
Proof. unfold in_range. lia. Qed.
