(** Proofs about the MERGE cardinality check. *)
From Coq Require Import Lia.
From stdpp Require Import prelude list.
From Verif.Plan Require Import CardinalityModel CardinalitySpec.

(** Ids of matched rows. *)
Definition mid {D} (r : row D) : option nat := if matched r then row_id r else None.
Definition mids {D} (rows : list (row D)) : list nat := omap mid rows.

Lemma mids_cons {D} (r : row D) rows :
  mids (r :: rows) = match mid r with Some i => i :: mids rows | None => mids rows end.
Proof. reflexivity. Qed.
Lemma mids_app {D} (a b : list (row D)) : mids (a ++ b) = mids a ++ mids b.
Proof. apply omap_app. Qed.

Lemma check_batch_spec {D} (rows : list (row D)) seen :
  NoDup seen ->
  (NoDup (mids rows ++ seen) -> exists seen', check_batch seen rows = Some seen' /\
     seen' ≡ₚ mids rows ++ seen) /\
  (~ NoDup (mids rows ++ seen) -> check_batch seen rows = None).
Proof.
  revert seen. induction rows as [|r rows IH]; intros seen Hs.
  - split; [intros _; by exists seen|]. cbn. done.
  - rewrite mids_cons. cbn [check_batch]. unfold mid.
    destruct (matched r); [|by apply IH].
    destruct (row_id r) as [i|]; [|by apply IH].
    assert (Hp : (i :: mids rows) ++ seen ≡ₚ mids rows ++ i :: seen)
      by (cbn; apply Permutation_middle).
    destruct (decide (i ∈ seen)) as [Hi|Hi].
    + split; [|done]. intros Hn. exfalso. rewrite Hp in Hn.
      apply NoDup_app in Hn as (_ & _ & Hn). by apply NoDup_cons in Hn as [? _].
    + destruct (IH (i :: seen)) as [IH1 IH2]; [by constructor|]. split.
      * intros Hn. rewrite Hp in Hn. destruct (IH1 Hn) as (seen' & -> & Hperm).
        exists seen'. split; [done|]. by rewrite Hperm, Hp.
      * intros Hn. apply IH2. by rewrite <- Hp.
Qed.

Lemma check_stream_spec {D} (bs : list (list (row D))) seen :
  NoDup seen ->
  (NoDup (mids (concat bs) ++ seen) -> check_stream seen bs = Some bs) /\
  (~ NoDup (mids (concat bs) ++ seen) -> check_stream seen bs = None).
Proof.
  revert seen. induction bs as [|b bs IH]; intros seen Hs; [done|].
  cbn [concat check_stream]. rewrite mids_app.
  destruct (check_batch_spec b seen Hs) as [H1 H2].
  assert (Hp : (mids b ++ mids (concat bs)) ++ seen ≡ₚ mids (concat bs) ++ mids b ++ seen).
  { rewrite (Permutation_app_comm (mids b)). by rewrite <- app_assoc. }
  destruct (decide (NoDup (mids b ++ seen))) as [Hb|Hb].
  - destruct (H1 Hb) as (seen' & -> & Hs'). destruct (IH seen') as [IH1 IH2]; [by rewrite Hs'|].
    split; intros Hn; rewrite Hp, <- Hs' in Hn.
    + by rewrite IH1.
    + by rewrite IH2.
  - rewrite (H2 Hb). split; [|done]. intros Hn. rewrite Hp in Hn.
    apply NoDup_app in Hn as (_ & _ & Hn). done.
Qed.

Lemma check_exec_spec {D} (parts : list (list (list (row D)))) :
  (Forall (fun bs => NoDup (mids (concat bs))) parts -> check_exec parts = Some parts) /\
  (~ Forall (fun bs => NoDup (mids (concat bs))) parts -> check_exec parts = None).
Proof.
  induction parts as [|bs parts [IH1 IH2]].
  - split; [done|]. intros H. destruct H. constructor.
  - unfold check_exec in *. cbn [mapM].
    destruct (check_stream_spec bs [] ltac:(constructor)) as [H1 H2]. rewrite app_nil_r in *.
    split.
    + intros H. inversion H; subst. rewrite H1 by done. cbn. by rewrite IH1.
    + intros H. destruct (decide (NoDup (mids (concat bs)))) as [Hn|Hn].
      * rewrite H1 by done. cbn. rewrite IH2; [done|]. intros ?. apply H. by constructor.
      * by rewrite H2.
Qed.

Lemma mid_Some {D} (r : row D) i :
  mid r = Some i <-> row_id r = Some i /\ row_target r = Some true /\ row_source r = Some true.
Proof.
  unfold mid, matched. destruct (row_target r) as [[]|], (row_source r) as [[]|]; cbn; naive_solver.
Qed.

Lemma mids_lookup {D} (rows : list (row D)) :
  NoDup (mids rows) <->
  forall i j r r' id, rows !! i = Some r -> rows !! j = Some r' ->
    mid r = Some id -> mid r' = Some id -> i = j.
Proof.
  induction rows as [|r rows IH].
  - split; [done|]. intros _. constructor.
  - rewrite mids_cons. split.
    + intros Hn i j r1 r2 id H1 H2 H3 H4.
      assert (Hrest : forall k r', rows !! k = Some r' -> mid r' = Some id -> id ∈ mids rows).
      { intros k r' Hk Hm. apply elem_of_list_omap. exists r'. split; [|done].
        by apply elem_of_list_lookup_2 in Hk. }
      destruct i as [|i], j as [|j]; [done| | |].
      * injection H1 as ->. rewrite H3 in Hn. apply NoDup_cons in Hn as [Hn _].
        exfalso. eauto.
      * injection H2 as ->. rewrite H4 in Hn. apply NoDup_cons in Hn as [Hn _].
        exfalso. eauto.
      * f_equal. assert (Hn' : NoDup (mids rows)).
        { destruct (mid r); [by apply NoDup_cons in Hn as [_ ?]|done]. }
        eapply (proj1 IH Hn'); eauto.
    + intros H.
      assert (Hn' : NoDup (mids rows)).
      { apply IH. intros i j r1 r2 id H1 H2 H3 H4.
        assert (S i = S j) by (eapply H; [exact H1|exact H2|done|done]). lia. }
      destruct (mid r) as [id|] eqn:E; [|done]. constructor; [|done].
      intros Hin. apply elem_of_list_omap in Hin as (r' & Hr' & Hm).
      apply elem_of_list_lookup in Hr' as [j Hj].
      assert (0 = S j) by (eapply (H 0 (S j)); [done|exact Hj|done|done]). lia.
Qed.

Lemma not_doubly {D} (rows : list (row D)) : ~ doubly_matched rows <-> NoDup (mids rows).
Proof.
  rewrite mids_lookup. split.
  - intros Hd i j r r' id H1 H2 H3 H4. destruct (decide (i = j)) as [|Hne]; [done|].
    exfalso. apply Hd. apply mid_Some in H3 as (? & ? & ?). apply mid_Some in H4 as (? & ? & ?).
    exists i, j, r, r', id. done.
  - intros H (i & j & r & r' & id & Hne & H1 & H2 & H3 & H4 & H5 & H6 & H7 & H8).
    apply Hne. eapply H; [exact H1|exact H2| |]; apply mid_Some; eauto.
Qed.

Lemma nodup_parts {D} (parts : list (list (list (row D)))) :
  hash_partitioned parts ->
  (NoDup (mids (concat (map (@concat _) parts))) <->
   Forall (fun bs => NoDup (mids (concat bs))) parts).
Proof.
  intros [h Hh].
  assert (Hgen : forall k, (forall p bs r, parts !! p = Some bs -> r ∈ concat bs ->
      k + p = h (row_id r)) ->
    (NoDup (mids (concat (map (@concat _) parts))) <->
     Forall (fun bs => NoDup (mids (concat bs))) parts)).
  { clear Hh. induction parts as [|bs parts IH]; intros k Hk.
    - split; intros; constructor.
    - cbn [map concat]. rewrite mids_app, Forall_cons, NoDup_app.
      rewrite (IH (S k)).
      2: { intros p bs' r Hp Hr. specialize (Hk (S p) bs' r Hp Hr). lia. }
      split; [tauto|]. intros [H1 H2]. split_and!; [done| |done].
      intros id Hid Hid'. unfold mids in Hid, Hid'.
      apply elem_of_list_omap in Hid as (r & Hr & Hm).
      apply elem_of_list_omap in Hid' as (r' & Hr' & Hm').
      apply mid_Some in Hm as (Hm & _). apply mid_Some in Hm' as (Hm' & _).
      specialize (Hk 0 bs r eq_refl Hr) as Hk0.
      apply elem_of_list_In, in_concat in Hr' as (rows & Hrows & Hr').
      apply in_map_iff in Hrows as (bs' & <- & Hbs').
      apply elem_of_list_In, elem_of_list_lookup in Hbs' as [p Hp].
      apply elem_of_list_In in Hr'.
      specialize (Hk (S p) bs' r' Hp Hr') as Hk1. rewrite Hm in Hk0. rewrite Hm' in Hk1. lia. }
  by apply (Hgen 0).
Qed.

Lemma cardinality_correct {D} (parts : list (list (list (row D)))) :
  hash_partitioned parts ->
  (doubly_matched (concat (map (@concat _) parts)) -> check_exec parts = None) /\
  (~ doubly_matched (concat (map (@concat _) parts)) -> check_exec parts = Some parts).
Proof.
  intros Hh. pose proof (nodup_parts parts Hh) as Hn.
  destruct (check_exec_spec parts) as [H1 H2]. rewrite <- Hn in H1, H2.
  rewrite <- not_doubly in H1, H2. split.
  - intros Hd. apply H2. tauto.
  - intros Hd. apply H1. done.
Qed.
