From stdpp Require Import prelude list sorting.
From Coq Require Import Lia.
From Verif.Lib Require Import ListFacts.
From Verif.Exec Require Import GraphModel AssignerModel AssignerSpec AssignerProofs AssignerInvariant.

(** * Assignment *)
Lemma placed_keys q outs :
  Forall2 placed_as q outs -> out_keys outs = region_keys q.
Proof.
  induction 1 as [|[p s] [s' pl] q outs [Hs _] H IH]; [done|].
  cbn in *. subst. by f_equal.
Qed.
Lemma region_keys_concat q : region_keys (concat q) = flat_map region_keys q.
Proof.
  induction q as [|r q IH]; [done|]. cbn [concat flat_map]. rewrite <- IH.
  unfold region_keys. apply flat_map_app.
Qed.
Lemma slots_of_elem a w sl :
  NoDup (map fst (a_workers a)) ->
  slots_of a w = Some sl <-> exists st, (w, Active sl st) ∈ a_workers a.
Proof.
  intros Hnd. unfold slots_of. split.
  - destruct (w_get w (a_workers a)) as [[sl' st|]|] eqn:E; try done.
    intros [= ->]. exists st. by apply w_get_elem.
  - intros [st Hin]. apply w_get_elem in Hin; [|done]. by rewrite Hin.
Qed.

Lemma assign_tasks_eq a :
  assign_tasks a =
  (foldl record_assignment
     (with_queue a (assign_loop (free_slots (a_workers a)) (a_queue a)).2)
     (assign_loop (free_slots (a_workers a)) (a_queue a)).1,
   (assign_loop (free_slots (a_workers a)) (a_queue a)).1).
Proof. unfold assign_tasks. by destruct (assign_loop _ _). Qed.

Lemma foldl_record_queue xs a : a_queue (foldl record_assignment a xs) = a_queue a.
Proof. revert a. induction xs as [|x xs IH]; intros a; [done|]. cbn. by rewrite IH, record_queue. Qed.

(** The launches of one call. *)
Lemma run_tasks_spec a a' outs :
  run_tasks a = (a', outs) ->
  exists n,
    n <= length (a_queue a) /\ a_queue a' = drop n (a_queue a) /\
    Forall2 placed_as (concat (take n (a_queue a))) outs /\
    (exists tail, order (free_slots (a_workers a)) = omap worker_place outs ++ tail) /\
    (n < length (a_queue a) ->
      all_free a < sum_list_with region_demand (take (S n) (a_queue a))).
Proof.
  unfold run_tasks. rewrite assign_tasks_eq.
  destruct (assign_loop (free_slots (a_workers a)) (a_queue a)) as [o rest] eqn:E. cbn [fst snd].
  intros [= <- <-]. destruct (assign_loop_spec _ _ _ _ E) as (n & Hn & Hr & Hf & Ht & Hm).
  exists n. rewrite length_order_free in Hm.
  destruct (track_streams_frame o (foldl record_assignment (with_queue a rest) o)) as (_ & _ & -> & _).
  rewrite foldl_record_queue. cbn. done.
Qed.

Lemma run_tasks_inv enq a L a' outs :
  inv enq a L -> run_tasks a = (a', outs) ->
  inv enq a' (filter unfinished (L ++ omap launched_on_worker outs)).
Proof.
  intros Hi Hr. pose proof (run_tasks_spec _ _ _ Hr) as (n & Hn & Hq & Hf & [tail Ht] & _).
  unfold run_tasks in Hr. rewrite assign_tasks_eq in Hr.
  destruct (assign_loop (free_slots (a_workers a)) (a_queue a)) as [o rest] eqn:E. cbn [fst snd] in Hr.
  injection Hr as <- <-.
  destruct (track_streams_frame o (foldl record_assignment (with_queue a rest) o)) as (F1 & F2 & F3 & F4).
  rewrite F3, foldl_record_queue in Hq. cbn in Hq. subst rest.
  eapply inv_frame; [exact F1|exact F2|exact F3|exact F4|].
  pose proof (i_qnd _ _ _ Hi) as Hqnd. unfold queue_keys in Hqnd.
  rewrite <- (take_drop n (a_queue a)), flat_map_app in Hqnd.
  apply NoDup_app in Hqnd as (Hnd1 & Hd & Hnd2).
  pose proof (placed_keys _ _ Hf) as Hok. rewrite region_keys_concat in Hok.
  assert (forall k, k ∈ flat_map region_keys (take n (a_queue a)) -> k ∈ queue_keys a) as Hsub.
  { intros k Hk. unfold queue_keys. rewrite <- (take_drop n (a_queue a)), flat_map_app. set_solver. }
  assert (forall k, k ∈ flat_map region_keys (drop n (a_queue a)) -> k ∈ queue_keys a) as Hsub'.
  { intros k Hk. unfold queue_keys. rewrite <- (take_drop n (a_queue a)), flat_map_app. set_solver. }
  pose proof (order_free_NoDup _ (i_ids _ _ _ Hi)) as Hond. rewrite Ht in Hond.
  apply NoDup_app in Hond as (Hond & _ & _).
  apply record_all_inv.
  - destruct Hi as [H1 H2 H3 H4 H5 H6 H7 H8]. split; try done.
    + intros k Hk. apply H3, Hsub', Hk.
    + intros k Hk. apply H5, Hsub', Hk.
  - by rewrite Hok.
  - intros k Hk. rewrite Hok in Hk. split_and!.
    + by apply (i_qenq _ _ _ Hi), Hsub.
    + unfold queue_keys. cbn. intros Hk'. by apply (Hd k).
    + cbn. by apply (i_qt _ _ _ Hi), Hsub.
  - done.
  - intros w m Hin.
    assert ((w, m) ∈ order (free_slots (a_workers a))) as Ho by (rewrite Ht; set_solver).
    apply order_free_elem in Ho as (sl & st & Hw & Hm). exists sl. split; [|done].
    apply (slots_of_elem (with_queue a _)); [apply (i_ids _ _ _ Hi)|]. by exists st.
Qed.

(** * The other operations *)
Lemma queue_sub_inv enq a L q :
  inv enq a L -> q `sublist_of` a_queue a -> inv enq (with_queue a q) L.
Proof.
  intros [H1 H2 H3 H4 H5 H6 H7 H8] Hq.
  assert (flat_map region_keys q `sublist_of` queue_keys a) as Hs.
  { unfold queue_keys. clear -Hq. induction Hq as [|x l1 l2 H IH|x l1 l2 H IH]; [done| |].
    - cbn. by apply sublist_app.
    - cbn. by apply sublist_inserts_l. }
  assert (forall k, k ∈ flat_map region_keys q -> k ∈ queue_keys a) as Hin.
  { intros k Hk. eapply elem_of_submseteq; [exact Hk|]. by apply sublist_submseteq. }
  split; try done.
  - unfold queue_keys. cbn. clear -H2 Hs. revert H2. induction Hs as [|x l1 l2 H IH|x l1 l2 H IH]; [done| |].
    + rewrite !NoDup_cons. intros [Hx Hl]. split; [|by apply IH].
      intros Hx1. apply Hx. eapply elem_of_submseteq; [exact Hx1|]. by apply sublist_submseteq.
    + rewrite NoDup_cons. intros [_ Hl]. by apply IH.
  - intros k Hk. by apply H3, Hin.
  - intros k Hk. by apply H5, Hin.
Qed.

Lemma live_filter_id enq a L : inv enq a L -> filter unfinished L = L.
Proof.
  intros Hi. apply filter_all. intros [[w n] ks] Hin.
  by apply (i_l _ _ _ Hi) in Hin as [].
Qed.

Lemma unassign_inv enq a L k :
  inv enq a L ->
  inv enq (unassign_task k a)
    (filter unfinished (map (fun x => (x.1, filter (fun k' => k' <> k) x.2)) L)).
Proof.
  intros Hi. set (L' := filter unfinished _).
  assert (forall w n ks', (w, n, ks') ∈ L' <->
    exists ks, (w, n, ks) ∈ L /\ ks' = filter (fun k' => k' <> k) ks /\ ks' <> []) as HL'.
  { intros w n ks'. unfold L'. rewrite elem_of_list_filter, elem_of_map_iff. split.
    - intros (Hne & [[w0 n0] ks] & [= -> -> ->] & Hin). by exists ks.
    - intros (ks & Hin & -> & Hne). split; [done|]. by exists (w, n, ks). }
  assert (NoDup (map fst L')) as HndL'.
  { unfold L'. apply NoDup_map_filter. rewrite map_map. cbn. apply (i_lnd _ _ _ Hi). }
  destruct Hi as [H1 H2 H3 H4 H5 H6 H7 H8].
  assert (forall w n ks, (w, n, ks) ∈ L -> a_table a k <> Some (ToWorker w n) ->
    filter (fun k' => k' <> k) ks = ks) as Hother.
  { intros w n ks Hin Hne. apply filter_all. intros k' Hk' ->.
    destruct (H7 _ _ _ Hin) as (_ & _ & Ht & _). by apply Hne, Ht. }
  unfold unassign_task. destruct (a_table a k) as [[|w0 n0]|] eqn:Ek.
  - split; try done.
    + intros w n ks' (ks & Hin & -> & Hne)%HL'.
      rewrite (Hother _ _ _ Hin) by congruence. exact (H7 _ _ _ Hin).
    + intros w sl n s Hsl Hs Hne. destruct (H8 w sl n s Hsl Hs Hne) as [ks Hks].
      exists ks. apply HL'. exists ks. rewrite (Hother _ _ _ Hks) by congruence.
      split_and!; [done..|]. by apply H7 in Hks as [].
  - set (a' := with_workers a _).
    assert (forall w, slots_of a' w =
      if bool_decide (w = w0) then alter (fun s => ix_swap_remove s k) n0 <$> slots_of a w0
      else slots_of a w) as Hsl'.
    { intros w. unfold slots_of, a'. cbn. rewrite w_get_alter. case_bool_decide; [|done].
      by destruct (w_get w0 (a_workers a)) as [[sl st|]|]. }
    split; try done.
    + unfold a'. cbn. by rewrite w_alter_ids.
    + intros w n ks' (ks & Hin & -> & Hne)%HL'.
      destruct (H7 _ _ _ Hin) as (_ & Hnd & Ht & sl & s & Hsl & Hs & Hp).
      split_and!; [done|by apply NoDup_filter| |].
      * intros k' [_ Hk']%elem_of_list_filter. by apply Ht.
      * rewrite Hsl'. case_bool_decide as Ew.
        -- subst w0. rewrite Hsl. cbn. destruct (decide (n0 = n)) as [->|Hn].
           ++ eexists _, _. split; [done|]. rewrite list_lookup_alter, Hs. cbn. split; [done|].
              rewrite ix_swap_remove_perm by (by rewrite Hp). by rewrite Hp.
           ++ eexists _, s. split; [done|]. rewrite list_lookup_alter_ne by done. split; [done|].
              rewrite (Hother _ _ _ Hin) by congruence. done.
        -- exists sl, s. split_and!; [done..|]. rewrite (Hother _ _ _ Hin) by congruence. done.
    + intros w sl n s Hsl Hs Hne. rewrite Hsl' in Hsl. case_bool_decide as Ew.
      * subst w0. destruct (slots_of a w) as [sl0|] eqn:Hsl0; [|done]. cbn in Hsl.
        injection Hsl as <-. destruct (decide (n0 = n)) as [->|Hn].
        -- rewrite list_lookup_alter in Hs. destruct (sl0 !! n) as [s0|] eqn:Hs0; [|done].
           cbn in Hs. injection Hs as <-.
           assert (s0 <> []) as Hne0 by (intros ->; by apply Hne).
           destruct (H8 w sl0 n s0 Hsl0 Hs0 Hne0) as [ks Hks].
           destruct (H7 _ _ _ Hks) as (_ & Hnd & _ & sl1 & s1 & Hsl1 & Hs1 & Hp).
           rewrite Hsl0 in Hsl1. injection Hsl1 as <-. rewrite Hs0 in Hs1. injection Hs1 as <-.
           exists (filter (fun k' => k' <> k) ks). apply HL'. exists ks. split_and!; [done..|].
           intros E. apply Hne. apply Permutation_nil. symmetry.
           rewrite ix_swap_remove_perm by (by rewrite Hp). by rewrite Hp, E.
        -- rewrite list_lookup_alter_ne in Hs by done.
           destruct (H8 w sl0 n s Hsl0 Hs Hne) as [ks Hks]. exists ks. apply HL'. exists ks.
           rewrite (Hother _ _ _ Hks) by congruence. split_and!; [done..|]. by apply H7 in Hks as [].
      * destruct (H8 w sl n s Hsl Hs Hne) as [ks Hks]. exists ks. apply HL'. exists ks.
        rewrite (Hother _ _ _ Hks) by congruence. split_and!; [done..|]. by apply H7 in Hks as [].
  - split; try done.
    + intros w n ks' (ks & Hin & -> & Hne)%HL'.
      rewrite (Hother _ _ _ Hin) by congruence. exact (H7 _ _ _ Hin).
    + intros w sl n s Hsl Hs Hne. destruct (H8 w sl n s Hsl Hs Hne) as [ks Hks].
      exists ks. apply HL'. exists ks. rewrite (Hother _ _ _ Hks) by congruence.
      split_and!; [done..|]. by apply H7 in Hks as [].
Qed.

Lemma deactivate_inv enq a L w0 :
  inv enq a L -> inv enq (deactivate_worker w0 a) (filter (fun x => x.1.1 <> w0) L).
Proof.
  intros [H1 H2 H3 H4 H5 H6 H7 H8].
  assert (forall w, slots_of (deactivate_worker w0 a) w =
    if bool_decide (w = w0) then None else slots_of a w) as Hsl'.
  { intros w. unfold slots_of. cbn. rewrite w_get_alter. case_bool_decide; [|done].
    by destruct (w_get w0 (a_workers a)) as [[sl st|]|]. }
  split; try done.
  - cbn. by rewrite w_alter_ids.
  - by apply NoDup_map_filter.
  - intros w n ks [Hw Hin]%elem_of_list_filter. cbn in Hw.
    rewrite Hsl', bool_decide_false by done. by apply H7.
  - intros w sl n s Hsl Hs Hne. rewrite Hsl' in Hsl. case_bool_decide as Ew; [done|].
    destruct (H8 w sl n s Hsl Hs Hne) as [ks Hks]. exists ks. by apply elem_of_list_filter.
Qed.

Lemma activate_inv enq o a L w0 : inv enq a L -> inv enq (activate_worker o w0 a) L.
Proof.
  intros Hi. unfold activate_worker. cbn [a_workers failed_to_start].
  destruct (w_get w0 (a_workers a)) as [x|] eqn:E.
  { eapply inv_frame; [..|exact Hi]; done. }
  destruct Hi as [H1 H2 H3 H4 H5 H6 H7 H8].
  set (a' := with_workers _ _).
  assert (forall w, slots_of a' w =
    if bool_decide (w = w0) then Some (replicate (o_task_slots o) []) else slots_of a w) as Hsl'.
  { intros w. unfold slots_of, a'. cbn. rewrite w_get_app. case_bool_decide as Ew.
    - subst. rewrite E. cbn. by rewrite bool_decide_true.
    - destruct (w_get w (a_workers a)); [done|]. cbn. rewrite bool_decide_false by done. done. }
  assert (slots_of a w0 = None) as Hn0 by (unfold slots_of; by rewrite E).
  split; try done.
  - unfold a'. cbn. rewrite map_app. apply NoDup_app. split_and!; [done| |apply NoDup_singleton].
    intros i Hi ->%elem_of_list_singleton. cbn in Hi. by apply w_get_None in E.
  - intros w n ks Hin. destruct (H7 _ _ _ Hin) as (? & ? & ? & sl & s & Hsl & ?).
    split_and!; [done..|]. exists sl, s. rewrite Hsl'. case_bool_decide; [congruence|done].
  - intros w sl n s Hsl Hs Hne. rewrite Hsl' in Hsl. case_bool_decide as Ew.
    + injection Hsl as <-. apply lookup_replicate in Hs as [-> _]. done.
    + by apply (H8 w sl n s).
Qed.

Lemma untrack_frame j st a :
  map fst (a_workers (untrack_streams j st a)) = map fst (a_workers a) /\
  (forall w, slots_of (untrack_streams j st a) w = slots_of a w).
Proof.
  split; cbn; [by rewrite map_map|].
  intros w. unfold slots_of. cbn. rewrite w_get_map. by destruct (w_get w (a_workers a)) as [[]|].
Qed.

Lemma enq_mono enq enq' a L : inv enq a L -> (forall k, k ∈ enq -> k ∈ enq') -> inv enq' a L.
Proof. intros [H1 H2 H3 H4 H5 H6 H7 H8] Hs. split; try done; eauto. Qed.

Lemma step_inv o enq a L op :
  inv enq a L -> NoDup (enq ++ op_keys op) ->
  inv (enq ++ op_keys op) (a_step o a op).1 (live_step L (op, (a_step o a op).2)).
Proof.
  intros Hi Hnd. unfold live_step. cbn [fst snd].
  assert (forall a, inv enq a L -> inv (enq ++ op_keys op) a (filter unfinished L)) as Hsame.
  { intros a1 Hi1. rewrite (live_filter_id _ _ _ Hi1). eapply enq_mono; [done|set_solver]. }
  destruct op; cbn [a_step op_keys fst snd] in *.
  - apply Hsame. eapply inv_frame; [..|exact Hi]; done.
  - apply Hsame. eapply inv_frame; [..|exact Hi]; done.
  - apply Hsame. by apply activate_inv.
  - rewrite app_nil_r. pose proof (deactivate_inv _ _ _ w Hi) as Hd.
    rewrite (live_filter_id _ _ _ Hd). exact Hd.
  - rewrite (live_filter_id _ _ _ Hi). destruct Hi as [H1 H2 H3 H4 H5 H6 H7 H8].
    apply NoDup_app in Hnd as (He & Hd & Hr).
    assert (queue_keys (enqueue_tasks r a) = queue_keys a ++ region_keys r) as Eq.
    { unfold queue_keys. cbn. rewrite flat_map_app. cbn. by rewrite app_nil_r. }
    split; rewrite ?Eq; try done.
    + apply NoDup_app. split_and!; [done| |done]. intros k Hk. by apply Hd, H3.
    + intros k [Hk|Hk]%elem_of_app; [apply H3 in Hk|]; set_solver.
    + intros k Hk. cbn in Hk. apply H4 in Hk. set_solver.
    + intros k [Hk|Hk]%elem_of_app; cbn; [by apply H5|].
      destruct (a_table a k) as [p|] eqn:E; [|done].
      destruct (Hd k); [|done]. apply H4. by rewrite E.
  - apply Hsame. apply queue_sub_inv; [done|]. apply sublist_filter.
  - rewrite app_nil_r. destruct (run_tasks a) as [a' outs] eqn:E. cbn. by eapply run_tasks_inv.
  - rewrite app_nil_r. by apply unassign_inv.
  - apply Hsame. destruct (untrack_frame job stage a) as [F1 F2].
    eapply inv_frame; [exact F1|exact F2|..]; done.
Qed.

Lemma a_history_app o a ops1 ops2 :
  a_history o a (ops1 ++ ops2) =
  a_history o a ops1 ++ a_history o (foldl (fun a op => (a_step o a op).1) a ops1) ops2.
Proof.
  revert a. induction ops1 as [|op ops IH]; intros a; [done|].
  cbn [app a_history foldl]. destruct (a_step o a op) as [a' outs]. cbn. by rewrite IH.
Qed.
Lemma history_snoc o ops op :
  history o (ops ++ [op]) = history o ops ++ [(op, (a_step o (a_run o ops) op).2)].
Proof.
  unfold history. rewrite a_history_app. f_equal. cbn.
  fold (a_run o ops). by destruct (a_step o (a_run o ops) op).
Qed.
Lemma a_run_snoc o ops op : a_run o (ops ++ [op]) = (a_step o (a_run o ops) op).1.
Proof. unfold a_run. by rewrite foldl_app. Qed.
Lemma live_snoc es e : live_sets (es ++ [e]) = live_step (live_sets es) e.
Proof. unfold live_sets. by rewrite foldl_app. Qed.

Lemma init_inv : inv [] a_new [].
Proof.
  split; try (cbn; constructor); try (intros; cbn in *; set_solver).
Qed.
Lemma reachable_inv o ops :
  fresh_keys ops -> inv (flat_map op_keys ops) (a_run o ops) (live_sets (history o ops)).
Proof.
  induction ops as [|op ops IH] using rev_ind; intros Hf; [exact init_inv|].
  unfold fresh_keys in Hf. rewrite flat_map_app in *. cbn [flat_map] in *. rewrite app_nil_r in *.
  rewrite a_run_snoc, history_snoc, live_snoc.
  apply step_inv; [|done]. apply IH. by apply NoDup_app in Hf as [? _].
Qed.

(** * Slots *)
Lemma one_set_per_slot o ops :
  fresh_keys ops -> NoDup (map fst (live_sets (history o ops))).
Proof. intros Hf. exact (i_lnd _ _ _ (reachable_inv o ops Hf)). Qed.

Lemma slot_contents o ops w sl st n s :
  fresh_keys ops ->
  (w, Active sl st) ∈ a_workers (a_run o ops) -> sl !! n = Some s ->
  NoDup s /\
  ((s = [] /\ forall ks, (w, n, ks) ∉ live_sets (history o ops)) \/
   (exists ks, (w, n, ks) ∈ live_sets (history o ops) /\ s ≡ₚ ks)).
Proof.
  intros Hf Hw Hs. pose proof (reachable_inv o ops Hf) as Hi.
  assert (slots_of (a_run o ops) w = Some sl) as Hsl.
  { apply slots_of_elem; [apply (i_ids _ _ _ Hi)|]. by exists st. }
  destruct s as [|k s0].
  - split; [constructor|]. left. split; [done|]. intros ks Hin.
    destruct (i_l _ _ _ Hi _ _ _ Hin) as (Hne & _ & _ & sl' & s' & Hsl' & Hs' & Hp).
    rewrite Hsl in Hsl'. injection Hsl' as <-. rewrite Hs in Hs'. injection Hs' as <-.
    by apply Permutation_nil in Hp.
  - destruct (i_s _ _ _ Hi w sl n (k :: s0)) as [ks Hin]; [done..|].
    destruct (i_l _ _ _ Hi _ _ _ Hin) as (Hne & Hnd & _ & sl' & s' & Hsl' & Hs' & Hp).
    rewrite Hsl in Hsl'. injection Hsl' as <-. rewrite Hs in Hs'. injection Hs' as <-.
    split; [by rewrite Hp|]. right. by exists ks.
Qed.

Lemma live_is_hosted o ops w n ks :
  fresh_keys ops -> (w, n, ks) ∈ live_sets (history o ops) ->
  (exists sl st s, (w, Active sl st) ∈ a_workers (a_run o ops) /\ sl !! n = Some s /\ s ≡ₚ ks) /\
  forall k, k ∈ ks -> a_table (a_run o ops) k = Some (ToWorker w n).
Proof.
  intros Hf Hin. pose proof (reachable_inv o ops Hf) as Hi.
  destruct (i_l _ _ _ Hi _ _ _ Hin) as (Hne & Hnd & Ht & sl & s & Hsl & Hs & Hp).
  split; [|done]. apply slots_of_elem in Hsl as [st Hst]; [|apply (i_ids _ _ _ Hi)].
  by exists sl, st, s.
Qed.

Lemma ids_NoDup o ops : NoDup (map fst (a_workers (a_run o ops))).
Proof.
  induction ops as [|op ops IH] using rev_ind; [constructor|].
  rewrite a_run_snoc. destruct op; cbn [a_step fst]; try done.
  - unfold activate_worker. cbn [a_workers failed_to_start].
    destruct (w_get w (a_workers (a_run o ops))) eqn:E; [done|]. cbn. rewrite map_app.
    apply NoDup_app. split_and!; [done| |apply NoDup_singleton].
    intros i Hi ->%elem_of_list_singleton. cbn in Hi. by apply w_get_None in E.
  - cbn. by rewrite w_alter_ids.
  - unfold run_tasks. destruct (assign_tasks (a_run o ops)) as [a1 outs] eqn:E. cbn [fst].
    destruct (track_streams_frame outs a1) as (-> & _).
    rewrite assign_tasks_eq in E. injection E as <- _.
    assert (forall xs a, map fst (a_workers (foldl record_assignment a xs)) = map fst (a_workers a)) as Hr.
    { intros xs. induction xs as [|x xs IHx]; intros a; [done|]. cbn [foldl]. by rewrite IHx, record_ids. }
    rewrite Hr. done.
  - unfold unassign_task. destruct (a_table _ k) as [[|w n]|]; [done| |done].
    cbn. by rewrite w_alter_ids.
  - cbn. by rewrite map_map.
Qed.

(** One call: what is launched. *)
Lemma launch_spec o ops a' outs :
  run_tasks (a_run o ops) = (a', outs) ->
  exists n,
    n <= length (a_queue (a_run o ops)) /\
    a_queue a' = drop n (a_queue (a_run o ops)) /\
    map fst outs = flat_map (map snd) (take n (a_queue (a_run o ops))) /\
    Forall2 (fun p x => p = OnDriver <-> x.2 = ToDriver)
      (flat_map (map fst) (take n (a_queue (a_run o ops)))) outs /\
    NoDup (omap worker_place outs) /\
    (forall w m, (w, m) ∈ omap worker_place outs -> slot_free (a_run o ops) w m) /\
    sum_list_with region_demand (take n (a_queue (a_run o ops))) <= all_free (a_run o ops) /\
    (n < length (a_queue (a_run o ops)) ->
      all_free (a_run o ops) < sum_list_with region_demand (take (S n) (a_queue (a_run o ops)))).
Proof.
  intros Hr. destruct (run_tasks_spec _ _ _ Hr) as (n & Hn & Hq & Hf & [tail Ht] & Hm).
  exists n. pose proof (order_free_NoDup _ (ids_NoDup o ops)) as Hnd.
  set (q := take n (a_queue (a_run o ops))) in *. clearbody q.
  split_and!; [done|done| | | | | |done].
  - clear -Hf. rewrite flat_map_concat_map, <- concat_map. induction Hf as [|x y l k [Hx _] H IH]; [done|].
    cbn. by f_equal.
  - clear -Hf. rewrite flat_map_concat_map, <- concat_map.
    induction Hf as [|x y l k [_ Hx] H IH]; [constructor|]. cbn. by constructor.
  - rewrite Ht in Hnd. by apply NoDup_app in Hnd as [? _].
  - intros w m Hin.
    assert ((w, m) ∈ order (free_slots (a_workers (a_run o ops)))) as Ho by (rewrite Ht; set_solver).
    apply order_free_elem in Ho as (sl & st & ? & ?). by exists sl, st.
  - unfold all_free. rewrite <- length_order_free, Ht, app_length, (placed_demand _ _ Hf).
    clear. assert (region_demand (concat q) = sum_list_with region_demand q) as ->; [|lia].
    induction q as [|r q IH]; [done|]. cbn [concat sum_list_with]. rewrite <- IH.
    clear IH. induction r as [|[p t] r IH]; [done|].
    change (((p, t) :: r) ++ concat q) with ((p, t) :: (r ++ concat q)).
    rewrite !region_demand_cons, IH. lia.
Qed.

(** * Order of launches over a history *)
Definition sets_of (ops : list a_op) : list task_set := flat_map op_sets ops.

Lemma flat_map_sublist {A B} (f : A -> list B) (l1 l2 : list A) :
  l1 `sublist_of` l2 -> flat_map f l1 `sublist_of` flat_map f l2.
Proof.
  induction 1 as [|x l1 l2 H IH|x l1 l2 H IH]; cbn; [done|by apply sublist_app|].
  by apply sublist_inserts_l.
Qed.
Lemma launched_snoc es e : launched (es ++ [e]) = launched es ++ map fst e.2.
Proof. unfold launched. rewrite flat_map_app. cbn. by rewrite app_nil_r. Qed.

Lemma run_moves a : map fst (run_tasks a).2 ++ waiting (run_tasks a).1 = waiting a.
Proof.
  destruct (run_tasks a) as [a' outs] eqn:E. cbn.
  destruct (run_tasks_spec _ _ _ E) as (n & _ & Hq & Hf & _).
  assert (map fst outs = flat_map (map snd) (take n (a_queue a))) as ->.
  { rewrite flat_map_concat_map, <- concat_map.
    clear -Hf. induction Hf as [|x y l k [Hx _] H IH]; [done|]. cbn. by f_equal. }
  unfold waiting. rewrite Hq, <- flat_map_app, take_drop. done.
Qed.

Definition excludes (op : a_op) : bool := match op with AExclude _ => true | _ => false end.

Lemma step_order o a op :
  map fst (a_step o a op).2 ++ waiting (a_step o a op).1 `sublist_of` waiting a ++ op_sets op /\
  (excludes op = false ->
   map fst (a_step o a op).2 ++ waiting (a_step o a op).1 = waiting a ++ op_sets op).
Proof.
  assert (forall (l1 l2 : list task_set) (P : Prop), l1 = l2 -> l1 `sublist_of` l2 /\ (P -> l1 = l2)) as Heq
    by (intros ??? ->; done).
  destruct op; cbn [a_step op_sets fst snd map app]; rewrite ?app_nil_r;
    try (apply Heq; done).
  - apply Heq. unfold activate_worker. by destruct (w_get _ _).
  - apply Heq. unfold waiting. cbn. rewrite flat_map_app. cbn. by rewrite app_nil_r.
  - split; [|done]. unfold waiting. cbn. apply flat_map_sublist, sublist_filter.
  - apply Heq, run_moves.
  - apply Heq. unfold unassign_task. by destruct (a_table a k) as [[|w n]|].
Qed.

Lemma launch_order o ops :
  launched (history o ops) ++ waiting (a_run o ops) `sublist_of` sets_of ops /\
  (Forall (fun op => excludes op = false) ops ->
   launched (history o ops) ++ waiting (a_run o ops) = sets_of ops).
Proof.
  induction ops as [|op ops [IH1 IH2]] using rev_ind; [done|].
  rewrite history_snoc, launched_snoc, a_run_snoc. cbn [snd].
  unfold sets_of. rewrite flat_map_app. cbn [flat_map]. rewrite app_nil_r.
  rewrite <- app_assoc. destruct (step_order o (a_run o ops) op) as [S1 S2]. split.
  - etransitivity; [apply sublist_app; [reflexivity|exact S1]|].
    rewrite app_assoc. by apply sublist_app.
  - rewrite Forall_app, Forall_singleton. intros [Ha Hb]. rewrite S2 by done.
    rewrite app_assoc. by rewrite IH2.
Qed.

(** A task excluded while waiting is not launched later. *)
Lemma in_waiting a k :
  (exists s, s ∈ waiting a /\ k ∈ set_tasks s) <-> k ∈ queue_keys a.
Proof.
  unfold waiting, queue_keys. rewrite elem_of_flat_map. split.
  - intros (s & (r & Hr & (ps & -> & Hps)%elem_of_map_iff)%elem_of_flat_map & Hk).
    exists r. split; [done|]. apply elem_of_flat_map. by exists ps.
  - intros (r & Hr & (ps & Hps & Hk)%elem_of_flat_map). exists ps.2. split; [|done].
    apply elem_of_flat_map. exists r. split; [done|]. apply elem_of_map_iff. by exists ps.
Qed.
Lemma region_contains_spec k r : region_contains k r = true <-> k ∈ region_keys r.
Proof.
  unfold region_contains. rewrite existsb_exists. unfold region_keys. rewrite elem_of_flat_map.
  split.
  - intros (ps & Hin%elem_of_list_In & (e & He%elem_of_list_In & Hk)%existsb_exists).
    exists ps. split; [done|]. apply bool_decide_eq_true in Hk. subst.
    apply elem_of_map_iff. by exists e.
  - intros (ps & Hin & (e & -> & He)%elem_of_map_iff). exists ps.
    split; [by apply elem_of_list_In|]. apply existsb_exists. exists e.
    split; [by apply elem_of_list_In|]. by apply bool_decide_eq_true.
Qed.
Lemma not_waiting_not_launched o a ops k :
  k ∉ queue_keys a -> k ∉ flat_map op_keys ops ->
  forall s, s ∈ launched (a_history o a ops) -> k ∉ set_tasks s.
Proof.
  revert a. induction ops as [|op ops IH]; intros a Ha Hk s Hs Hks; [cbn in Hs; set_solver|].
  cbn [flat_map] in Hk. cbn [a_history] in Hs.
  destruct (a_step o a op) as [a' outs] eqn:E. unfold launched in Hs. cbn [flat_map] in Hs.
  destruct (step_order o a op) as [S _]. rewrite E in S. cbn [fst snd] in S.
  assert (forall s, s ∈ map fst outs ++ waiting a' -> k ∉ set_tasks s) as Hno.
  { intros t Ht Hkt.
    assert (t ∈ waiting a ++ op_sets op) as Ht'.
    { eapply elem_of_submseteq; [exact Ht|]. by apply sublist_submseteq. }
    apply elem_of_app in Ht' as [Ht'|Ht'].
    - apply Ha, in_waiting. by exists t.
    - apply Hk, elem_of_app. left. destruct op; cbn in Ht'; try (by apply elem_of_nil in Ht').
      cbn. apply elem_of_map_iff in Ht' as (ps & -> & Hps).
      unfold region_keys. apply elem_of_flat_map. by exists ps. }
  cbn [snd] in Hs. apply elem_of_app in Hs as [Hs|Hs].
  - apply (Hno s); [set_solver|done].
  - apply (IH a') with (s := s); [|set_solver|done|done].
    intros (t & Ht & Hkt)%in_waiting. apply (Hno t); [set_solver|done].
Qed.
Lemma excluded_not_launched o ops k rest :
  k ∉ flat_map op_keys rest ->
  forall s, s ∈ launched (a_history o (a_run o (ops ++ [AExclude k])) rest) -> k ∉ set_tasks s.
Proof.
  intros Hk. apply not_waiting_not_launched; [|done].
  rewrite a_run_snoc. cbn. unfold queue_keys. cbn.
  intros (r & [Hr _]%elem_of_list_filter & Hkr)%elem_of_flat_map.
  apply region_contains_spec in Hkr. congruence.
Qed.
