From stdpp Require Import prelude list sorting.
From Coq Require Import Lia.
From Verif.Lib Require Import ListFacts.
From Verif.Exec Require Import GraphModel AssignerModel AssignerSpec AssignerProofs.

Definition slots_of (a : assigner) (w : nat) : option (list (list key)) :=
  match w_get w (a_workers a) with Some (Active sl _) => Some sl | _ => None end.
Definition queue_keys (a : assigner) : list key := flat_map region_keys (a_queue a).

Record inv (enq : list key) (a : assigner) (L : list live_set) : Prop := {
  i_ids : NoDup (map fst (a_workers a));
  i_qnd : NoDup (queue_keys a);
  i_qenq : forall k, k ∈ queue_keys a -> k ∈ enq;
  i_tenq : forall k, a_table a k <> None -> k ∈ enq;
  i_qt : forall k, k ∈ queue_keys a -> a_table a k = None;
  i_lnd : NoDup (map fst L);
  i_l : forall w n ks, (w, n, ks) ∈ L ->
    ks <> [] /\ NoDup ks /\ (forall k, k ∈ ks -> a_table a k = Some (ToWorker w n)) /\
    exists sl s, slots_of a w = Some sl /\ sl !! n = Some s /\ s ≡ₚ ks;
  i_s : forall w sl n s, slots_of a w = Some sl -> sl !! n = Some s -> s <> [] ->
    exists ks, (w, n, ks) ∈ L;
}.

Lemma inv_frame enq a a' L :
  map fst (a_workers a') = map fst (a_workers a) ->
  (forall w, slots_of a' w = slots_of a w) ->
  a_queue a' = a_queue a -> a_table a' = a_table a ->
  inv enq a L -> inv enq a' L.
Proof.
  intros Hid Hs Hq Ht [H1 H2 H3 H4 H5 H6 H7 H8].
  split; unfold queue_keys in *; rewrite ?Hid, ?Hq, ?Ht; try done.
  - intros w n ks Hin. destruct (H7 _ _ _ Hin) as (?&?&?& sl & s & ?). split_and!; [done..|].
    exists sl, s. by rewrite Hs.
  - intros w sl n s Hsl. rewrite Hs in Hsl. by apply H8.
Qed.

Lemma slots_of_alter_streams a w w' (f : worker -> worker) ws :
  a_workers a = ws ->
  (forall sl st, exists st', f (Active sl st) = Active sl st') -> f Inactive = Inactive ->
  match w_get w' (w_alter f w ws) with Some (Active sl _) => Some sl | _ => None end = slots_of a w'.
Proof.
  intros <- Hf Hi. unfold slots_of. rewrite w_get_alter. case_bool_decide as E; [|done]. subst.
  destruct (w_get w (a_workers a)) as [[sl st|]|]; cbn; [|by rewrite Hi|done].
  destruct (Hf sl st) as [st' ->]. done.
Qed.

Lemma track_one_frame a x :
  map fst (a_workers (track_one a x)) = map fst (a_workers a) /\
  (forall w, slots_of (track_one a x) w = slots_of a w) /\
  a_queue (track_one a x) = a_queue a /\ a_table (track_one a x) = a_table a.
Proof.
  destruct x as [s [|w n]]; cbn; split_and!; try done.
  - apply w_alter_ids.
  - intros w'. unfold slots_of at 1. cbn [a_workers].
    apply slots_of_alter_streams; [done| |done]. intros sl st. by eexists.
Qed.
Lemma track_streams_frame xs a :
  map fst (a_workers (track_streams a xs)) = map fst (a_workers a) /\
  (forall w, slots_of (track_streams a xs) w = slots_of a w) /\
  a_queue (track_streams a xs) = a_queue a /\ a_table (track_streams a xs) = a_table a.
Proof.
  revert a. induction xs as [|x xs IH]; intros a; [done|].
  change (track_streams a (x :: xs)) with (track_streams (track_one a x) xs).
  destruct (IH (track_one a x)) as (-> & H2 & -> & ->).
  destruct (track_one_frame a x) as (-> & H2' & -> & ->).
  split_and!; try done. intros w. by rewrite H2, H2'.
Qed.

(** Recording one launch. *)
Definition can_launch (enq : list key) (a : assigner) (x : task_set * place) : Prop :=
  (forall k, k ∈ set_tasks x.1 -> k ∈ enq /\ k ∉ queue_keys a /\ a_table a k = None) /\
  NoDup (set_tasks x.1) /\
  (forall w n, x.2 = ToWorker w n -> exists sl, slots_of a w = Some sl /\ sl !! n = Some []).

Lemma slots_of_record a w n ks w' :
  slots_of (record_assignment a (ks, ToWorker w n)) w' =
  if bool_decide (w' = w) then alter (fun s => ix_extend s (set_tasks ks)) n <$> slots_of a w
  else slots_of a w'.
Proof.
  unfold record_assignment. cbn [snd fst].
  destruct (w_get w (a_workers a)) as [x|] eqn:E.
  - unfold slots_of. cbn [a_workers]. rewrite w_get_alter. case_bool_decide as Ew; [|done].
    rewrite E. cbn. by destruct x.
  - case_bool_decide as Ew; [|done]. subst. unfold slots_of. rewrite E. done.
Qed.
Lemma record_queue a x : a_queue (record_assignment a x) = a_queue a.
Proof. destruct x as [s [|w n]]; cbn; [done|]. by destruct (w_get w (a_workers a)). Qed.
Lemma record_ids a x : map fst (a_workers (record_assignment a x)) = map fst (a_workers a).
Proof.
  destruct x as [s [|w n]]; cbn; [done|].
  destruct (w_get w (a_workers a)); cbn; [apply w_alter_ids|done].
Qed.
Lemma record_table enq a x k :
  can_launch enq a x ->
  a_table (record_assignment a x) k =
  if bool_decide (k ∈ set_tasks x.1) then Some x.2 else a_table a k.
Proof.
  intros (_ & _ & Hs). destruct x as [s [|w n]]; cbn; [done|].
  destruct (Hs w n eq_refl) as (sl & Hsl & _). unfold slots_of in Hsl.
  destruct (w_get w (a_workers a)); [done|done].
Qed.

Lemma record_inv enq a L x :
  inv enq a L -> can_launch enq a x ->
  inv enq (record_assignment a x) (filter unfinished (L ++ omap launched_on_worker [x])).
Proof.
  intros [H1 H2 H3 H4 H5 H6 H7 H8] Hc. pose proof Hc as (Hk & Hnd & Hs).
  assert (forall y, y ∈ L -> y.2 <> []) as HLne.
  { intros [[w n] ks] Hy. by apply H7 in Hy as []. }
  assert (filter unfinished (L ++ omap launched_on_worker [x]) =
          L ++ filter unfinished (omap launched_on_worker [x])) as ->.
  { rewrite filter_app. f_equal. by apply filter_all. }
  assert (forall k w n ks, (w, n, ks) ∈ L -> k ∈ ks -> k ∉ set_tasks x.1) as Hdisj.
  { intros k w n ks Hin Hkin Hx. destruct (H7 _ _ _ Hin) as (_ & _ & Ht & _).
    destruct (Hk k Hx) as (_ & _ & Hn). specialize (Ht k Hkin). congruence. }
  split.
  - by rewrite record_ids.
  - unfold queue_keys. by rewrite record_queue.
  - unfold queue_keys. by rewrite record_queue.
  - intros k. rewrite (record_table enq) by done. case_bool_decide as E; [|apply H4].
    intros _. by apply Hk.
  - intros k. unfold queue_keys. rewrite record_queue. intros Hq.
    rewrite (record_table enq) by done. case_bool_decide as E; [|by apply H5].
    by apply Hk in E as (_ & ? & _).
  - rewrite map_app. apply NoDup_app. split_and!; [done| |].
    + intros p Hp (y & -> & [_ Hx]%elem_of_list_filter)%elem_of_map_iff.
      destruct x as [s [|w n]]; cbn in Hx; [set_solver|].
      destruct (Hs w n eq_refl) as (sl & Hsl & Hn).
      apply elem_of_list_singleton in Hx as ->.
      apply elem_of_map_iff in Hp as ([[w' n'] ks] & [= <- <-] & Hin).
      destruct (H7 _ _ _ Hin) as (Hks & _ & _ & sl' & s' & Hsl' & Hs' & Hp).
      rewrite Hsl in Hsl'. injection Hsl' as <-. rewrite Hn in Hs'. injection Hs' as <-.
      apply Permutation_nil in Hp. done.
    + apply NoDup_map_filter. destruct x as [s [|w n]]; cbn; [constructor|apply NoDup_singleton].
  - intros w n ks [Hin|Hin]%elem_of_app.
    + destruct (H7 _ _ _ Hin) as (Hne & Hndk & Ht & sl & s & Hsl & Hsn & Hp).
      split_and!; [done|done| |].
      * intros k Hkk. rewrite (record_table enq) by done.
        rewrite bool_decide_false by (by eapply Hdisj). by apply Ht.
      * destruct x as [xs [|w0 n0]].
        { exists sl, s. done. }
        destruct (Hs w0 n0 eq_refl) as (sl0 & Hsl0 & Hn0).
        rewrite slots_of_record. case_bool_decide as Ew.
        -- subst w0. rewrite Hsl0 in Hsl. injection Hsl as ->.
           exists (alter (fun s => ix_extend s (set_tasks xs)) n0 sl), s. rewrite Hsl0. cbn.
           split_and!; [done| |done]. rewrite list_lookup_alter_ne; [done|].
           intros ->. rewrite Hn0 in Hsn. injection Hsn as <-.
           apply Permutation_nil in Hp. done.
        -- by exists sl, s.
    + apply elem_of_list_filter in Hin as [Hne Hin].
      destruct x as [xs [|w0 n0]]; cbn in Hin; [set_solver|].
      destruct (Hs w0 n0 eq_refl) as (sl0 & Hsl0 & Hn0).
      apply elem_of_list_singleton in Hin as [= -> -> ->].
      unfold unfinished in Hne. cbn in Hne. cbn [fst] in Hnd. split_and!; [done|done| |].
      * intros k Hkk. rewrite (record_table enq) by done. cbn [fst snd]. by rewrite bool_decide_true.
      * rewrite slots_of_record, bool_decide_true, Hsl0 by done. cbn.
        eexists _, _. split; [done|]. rewrite list_lookup_alter, Hn0. cbn. split; [done|].
        by rewrite ix_extend_fresh.
  - intros w sl n s Hsl Hsn Hne. destruct x as [xs [|w0 n0]].
    + destruct (H8 w sl n s) as [ks Hks]; [done..|]. exists ks. set_solver.
    + destruct (Hs w0 n0 eq_refl) as (sl0 & Hsl0 & Hn0).
      rewrite slots_of_record in Hsl. case_bool_decide as Ew.
      * subst w0. rewrite Hsl0 in Hsl. cbn in Hsl. injection Hsl as <-.
        destruct (decide (n0 = n)) as [->|Hn].
        -- rewrite list_lookup_alter, Hn0 in Hsn. cbn in Hsn. injection Hsn as <-.
           rewrite ix_extend_fresh in Hne by done. cbn in Hne.
           exists (set_tasks xs). apply elem_of_app. right.
           apply elem_of_list_filter. split; [done|cbn; set_solver].
        -- rewrite list_lookup_alter_ne in Hsn by done.
           destruct (H8 w sl0 n s) as [ks Hks]; [done..|]. exists ks. set_solver.
      * destruct (H8 w sl n s) as [ks Hks]; [done..|]. exists ks. set_solver.
Qed.

Definition out_keys (xs : list (task_set * place)) : list key := flat_map (fun x => set_tasks x.1) xs.

Lemma record_all_inv enq xs a L :
  inv enq a L ->
  NoDup (out_keys xs) ->
  (forall k, k ∈ out_keys xs -> k ∈ enq /\ k ∉ queue_keys a /\ a_table a k = None) ->
  NoDup (omap worker_place xs) ->
  (forall w n, (w, n) ∈ omap worker_place xs -> exists sl, slots_of a w = Some sl /\ sl !! n = Some []) ->
  inv enq (foldl record_assignment a xs)
    (filter unfinished (L ++ omap launched_on_worker xs)).
Proof.
  revert a L. induction xs as [|x xs IH]; intros a L Hi Hnd Hk Hpl Hfree.
  { cbn. rewrite app_nil_r, filter_all; [done|].
    intros [[w n] ks] Hy. by apply (i_l _ _ _ Hi) in Hy as []. }
  cbn [out_keys flat_map] in Hnd, Hk. apply NoDup_app in Hnd as (Hnd1 & Hd & Hnd2).
  assert (can_launch enq a x) as Hc.
  { split_and!; [|done|].
    - intros k Hkx. apply Hk. set_solver.
    - intros w n Hx. apply Hfree. destruct x as [s p]. cbn in Hx. subst p. cbn. set_solver. }
  pose proof (record_inv enq a L x Hi Hc) as Hi1. cbn [foldl].
  specialize (IH _ _ Hi1 Hnd2).
  replace (filter unfinished (L ++ omap launched_on_worker (x :: xs))) with
    (filter unfinished
      (filter unfinished (L ++ omap launched_on_worker [x]) ++ omap launched_on_worker xs)).
  2:{ rewrite (filter_app _ (filter _ _)), list_filter_filter.
      change (x :: xs) with ([x] ++ xs). rewrite omap_app, app_assoc, (filter_app _ (L ++ _)).
      f_equal. apply list_filter_iff. intros; tauto. }
  apply IH.
  - intros k Hkx. destruct (Hk k) as (? & ? & ?); [set_solver|].
    split_and!; [done| |].
    + unfold queue_keys. by rewrite record_queue.
    + rewrite (record_table enq) by done. rewrite bool_decide_false; [done|].
      intros Hx. by apply (Hd k).
  - cbn in Hpl. destruct (worker_place x); [by apply NoDup_cons in Hpl as []|done].
  - intros w n Hin. destruct (Hfree w n) as (sl & Hsl & Hn).
    { cbn. destruct (worker_place x); set_solver. }
    destruct x as [s [|w0 n0]]; [by exists sl|].
    rewrite slots_of_record. cbn in Hpl. apply NoDup_cons in Hpl as [Hni _].
    case_bool_decide as Ew; [|by exists sl]. subst w0. rewrite Hsl. cbn.
    eexists. split; [done|]. rewrite list_lookup_alter_ne; [done|]. by intros ->.
Qed.
