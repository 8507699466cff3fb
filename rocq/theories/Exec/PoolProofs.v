From stdpp Require Import prelude list sorting.
From Coq Require Import Lia.
From Verif.Lib Require Import ListFacts.
From Verif.Exec Require Import GraphModel AssignerModel AssignerSpec AssignerProofs AssignerInvariant
  AssignerTheorems.

(** * Streams held by workers *)
Definition streams_of (a : assigner) (w : nat) : list key :=
  match w_get w (a_workers a) with Some (Active _ st) => st | _ => [] end.
Definition active_in (a : assigner) (w : nat) : bool :=
  match w_get w (a_workers a) with Some x => is_active x | None => false end.

Lemma record_streams a x w :
  streams_of (record_assignment a x) w = streams_of a w /\
  active_in (record_assignment a x) w = active_in a w.
Proof.
  destruct x as [s [|w0 n]]; [done|]. unfold record_assignment. cbn [fst snd].
  destruct (w_get w0 (a_workers a)) as [y|] eqn:E; [|done].
  unfold streams_of, active_in. cbn [a_workers]. rewrite w_get_alter.
  case_bool_decide as Ew; [|done]. subst. rewrite E. by destruct y.
Qed.
Lemma record_all_streams xs a w :
  streams_of (foldl record_assignment a xs) w = streams_of a w /\
  active_in (foldl record_assignment a xs) w = active_in a w.
Proof.
  revert a. induction xs as [|x xs IH]; intros a; [done|]. cbn [foldl].
  destruct (IH (record_assignment a x)) as [-> ->]. apply record_streams.
Qed.
Lemma track_streams_spec xs a w k :
  active_in (track_streams a xs) w = active_in a w /\
  (k ∈ streams_of (track_streams a xs) w <->
   k ∈ streams_of a w \/ (active_in a w = true /\ (w, k) ∈ flat_map stream_of xs)).
Proof.
  revert a. induction xs as [|x xs IH]; intros a; [cbn; set_solver|].
  change (track_streams a (x :: xs)) with (track_streams (track_one a x) xs).
  destruct (IH (track_one a x)) as [-> ->]. cbn [flat_map].
  rewrite elem_of_app.
  assert (active_in (track_one a x) w = active_in a w /\
    (k ∈ streams_of (track_one a x) w <->
     k ∈ streams_of a w \/ (active_in a w = true /\ (w, k) ∈ stream_of x))) as [Ha Hk].
  { destruct x as [s [|w0 n]]; cbn [track_one snd fst stream_of].
    - split; [done|]. unfold streams_of. cbn. set_solver.
    - unfold active_in, streams_of. cbn [a_workers]. rewrite w_get_alter.
      case_bool_decide as Ew.
      + subst w0. destruct (w_get w (a_workers a)) as [[sl st|]|]; cbn.
        * split; [done|]. rewrite ix_extend_elem. rewrite elem_of_map_iff.
          split; [intros [?|?]; [by left|right; split; [done|by eexists]]|].
          intros [?|[_ (? & [= <-] & ?)]]; [by left|by right].
        * split; [done|]. set_solver.
        * split; [done|]. set_solver.
      + split; [done|]. rewrite elem_of_map_iff. split; [by left|].
        intros [?|[_ (? & [=] & ?)]]; done. }
  rewrite Ha, Hk. tauto.
Qed.

Lemma untrack_one_elem job stage (k : key) l :
  k ∈ retain job stage l <-> k ∈ l /\ ~ cleaned job stage k.
Proof.
  unfold retain. rewrite elem_of_list_filter. unfold keeps, cleaned.
  destruct stage as [s|].
  - rewrite orb_true_iff, !negb_true_iff, !bool_decide_eq_false. destruct (decide (k_job k = job)); tauto.
  - rewrite negb_true_iff, bool_decide_eq_false. tauto.
Qed.

Lemma held_snoc es e : held_streams (es ++ [e]) = stream_step (held_streams es) e.
Proof. unfold held_streams. by rewrite foldl_app. Qed.

Lemma held_spec o ops w k :
  (w, k) ∈ held_streams (history o ops) <-> k ∈ streams_of (a_run o ops) w.
Proof.
  revert w k. induction ops as [|op ops IH] using rev_ind; intros w k.
  { cbn. unfold streams_of. cbn. set_solver. }
  rewrite history_snoc, held_snoc, a_run_snoc. unfold stream_step. cbn [fst snd].
  set (a := a_run o ops) in *. set (H := held_streams (history o ops)) in *.
  destruct op; cbn [a_step fst snd].
  - rewrite IH. done.
  - rewrite IH. done.
  - rewrite IH. unfold activate_worker. cbn [a_workers failed_to_start].
    destruct (w_get w0 (a_workers a)) eqn:E; [done|].
    unfold streams_of. cbn. rewrite w_get_app.
    destruct (w_get w (a_workers a)) eqn:Ew; [done|]. cbn.
    case_bool_decide; cbn; set_solver.
  - rewrite elem_of_list_filter. cbn [fst]. rewrite IH. unfold streams_of. cbn.
    rewrite w_get_alter. case_bool_decide as Ew; [|tauto].
    subst w0. destruct (w_get w (a_workers a)) as [[]|]; cbn; set_solver.
  - rewrite IH. done.
  - rewrite IH. done.
  - unfold run_tasks. destruct (assign_tasks a) as [a1 outs] eqn:E. cbn [fst snd].
    destruct (track_streams_spec outs a1 w k) as [_ ->]. rewrite elem_of_app, IH.
    rewrite assign_tasks_eq in E. injection E as <- Eo. rewrite Eo.
    destruct (assign_loop (free_slots (a_workers a)) (a_queue a)) as [o' rest] eqn:El.
    cbn [fst snd] in Eo. subst o'. cbn [snd].
    destruct (record_all_streams outs (with_queue a rest) w) as [-> ->].
    change (streams_of (with_queue a rest) w) with (streams_of a w).
    change (active_in (with_queue a rest) w) with (active_in a w).
    split; [|tauto]. intros [?|Hin]; [by left|]. right. split; [|done].
    apply elem_of_flat_map in Hin as ([s [|w' n]] & Hx & Hin); cbn in Hin; [set_solver|].
    apply elem_of_map_iff in Hin as (k' & [= -> ->] & _).
    destruct (assign_loop_spec _ _ _ _ El) as (_ & _ & _ & _ & [tail Ht] & _).
    assert ((w', n) ∈ order (free_slots (a_workers a))) as Ho.
    { rewrite Ht. apply elem_of_app. left. apply elem_of_list_omap. by exists (s, ToWorker w' n). }
    apply order_free_elem in Ho as (sl & st & Hw & _).
    apply w_get_elem in Hw; [|apply ids_NoDup]. unfold active_in. by rewrite Hw.
  - rewrite IH. unfold unassign_task. destruct (a_table a k0) as [[|w0 n]|]; [done| |done].
    unfold streams_of. cbn. rewrite w_get_alter. case_bool_decide; [|done]. subst.
    by destruct (w_get w0 (a_workers a)) as [[]|].
  - rewrite elem_of_list_filter. cbn [snd]. rewrite IH. unfold streams_of. cbn.
    rewrite w_get_map. destruct (w_get w (a_workers a)) as [[sl st|]|]; cbn; [|set_solver..].
    rewrite untrack_one_elem. tauto.
Qed.

Lemma idle_spec o ops w :
  fresh_keys ops ->
  is_worker_idle w (a_run o ops) = true <->
  (exists sl st, (w, Active sl st) ∈ a_workers (a_run o ops)) /\
  (forall n ks, (w, n, ks) ∉ live_sets (history o ops)) /\
  (forall k, (w, k) ∉ held_streams (history o ops)).
Proof.
  intros Hf. pose proof (ids_NoDup o ops) as Hnd. unfold is_worker_idle.
  assert (forall k, (w, k) ∈ held_streams (history o ops) <-> k ∈ streams_of (a_run o ops) w) as Hh
    by (intros; apply held_spec).
  destruct (w_get w (a_workers (a_run o ops))) as [[sl st|]|] eqn:E.
  - rewrite andb_true_iff, bool_decide_eq_true, forallb_elem.
    pose proof (proj1 (w_get_elem _ _ _ Hnd) E) as Hin.
    unfold streams_of in Hh. rewrite E in Hh. split.
    + intros [Hv ->]. split_and!; [by exists sl, []| |].
      * intros n ks Hl. destruct (live_is_hosted o ops w n ks Hf Hl) as [(sl' & st' & s & Hw & Hs & Hp) _].
        apply w_get_elem in Hw; [|done]. rewrite E in Hw. injection Hw as <- <-.
        assert (vacant s = true) as Hs0 by (apply Hv; by eapply elem_of_list_lookup_2).
        apply bool_decide_eq_true in Hs0. subst.
        destruct (i_l _ _ _ (reachable_inv o ops Hf) _ _ _ Hl) as [Hne _].
        by apply Permutation_nil in Hp.
      * intros k Hk. apply Hh in Hk. set_solver.
    + intros (_ & Hl & Hs). split.
      * intros s [n Hn]%elem_of_list_lookup. apply bool_decide_eq_true.
        destruct (slot_contents o ops w sl st n s Hf Hin Hn) as [_ [[-> _]|(ks & Hks & _)]]; [done|].
        by apply Hl in Hks.
      * destruct st as [|k st]; [done|]. destruct (Hs k). apply Hh. set_solver.
  - split; [done|]. intros [(sl & st & Hin) _]. apply w_get_elem in Hin; [|done]. congruence.
  - split; [done|]. intros [(sl & st & Hin) _]. apply w_get_elem in Hin; [|done]. congruence.
Qed.

Lemma lost_tasks o ops w k :
  fresh_keys ops ->
  k ∈ find_worker_tasks w (a_run o ops) <->
  exists n ks, (w, n, ks) ∈ live_sets (history o ops) /\ k ∈ ks.
Proof.
  intros Hf. pose proof (ids_NoDup o ops) as Hnd. unfold find_worker_tasks. split.
  - destruct (w_get w (a_workers (a_run o ops))) as [[sl st|]|] eqn:E; [|set_solver..].
    pose proof (proj1 (w_get_elem _ _ _ Hnd) E) as Hin.
    intros (s & Hs & Hk)%elem_of_concat.
    + apply elem_of_list_lookup in Hs as [n Hn].
      destruct (slot_contents o ops w sl st n s Hf Hin Hn) as [_ [[-> _]|(ks & Hks & Hp)]]; [set_solver|].
      exists n, ks. split; [done|]. by rewrite <- Hp.
  - intros (n & ks & Hl & Hk).
    destruct (live_is_hosted o ops w n ks Hf Hl) as [(sl & st & s & Hw & Hs & Hp) _].
    apply w_get_elem in Hw; [|done]. rewrite Hw. apply elem_of_concat.
    exists s. split; [by eapply elem_of_list_lookup_2|by rewrite Hp].
Qed.

(** * Worker counts *)
Definition act (a : assigner) : list (nat * bool) :=
  map (fun ix => (ix.1, is_active ix.2)) (a_workers a).

Lemma act_alter f w l :
  (forall x, is_active (f x) = is_active x) ->
  map (fun ix => (ix.1, is_active ix.2)) (w_alter f w l) = map (fun ix => (ix.1, is_active ix.2)) l.
Proof.
  intros Hf. induction l as [|[i y] r IH]; cbn [w_alter map]; [done|].
  case_bool_decide; cbn; [by rewrite Hf|]. by rewrite IH.
Qed.
Lemma act_record a x : act (record_assignment a x) = act a /\ a_requested (record_assignment a x) = a_requested a.
Proof.
  destruct x as [s [|w n]]; [done|]. unfold record_assignment. cbn [fst snd].
  destruct (w_get w (a_workers a)); [|done]. split; [|done].
  unfold act. cbn [a_workers]. apply act_alter. by intros [].
Qed.
Lemma act_record_all xs a :
  act (foldl record_assignment a xs) = act a /\ a_requested (foldl record_assignment a xs) = a_requested a.
Proof.
  revert a. induction xs as [|x xs IH]; intros a; [done|]. cbn [foldl].
  destruct (IH (record_assignment a x)) as [-> ->]. apply act_record.
Qed.
Lemma act_track_all xs a :
  act (track_streams a xs) = act a /\ a_requested (track_streams a xs) = a_requested a.
Proof.
  revert a. induction xs as [|x xs IH]; intros a; [done|].
  change (track_streams a (x :: xs)) with (track_streams (track_one a x) xs).
  destruct (IH (track_one a x)) as [-> ->].
  destruct x as [s [|w n]]; [done|]. split; [|done].
  unfold act. cbn [a_workers track_one snd]. apply act_alter. by intros [].
Qed.
Lemma act_run a : act (run_tasks a).1 = act a /\ a_requested (run_tasks a).1 = a_requested a.
Proof.
  unfold run_tasks. destruct (assign_tasks a) as [a1 outs] eqn:E. cbn [fst].
  destruct (act_track_all outs a1) as [-> ->].
  rewrite assign_tasks_eq in E. injection E as <- _.
  destruct (act_record_all (assign_loop (free_slots (a_workers a)) (a_queue a)).1
    (with_queue a (assign_loop (free_slots (a_workers a)) (a_queue a)).2)) as [-> ->]. done.
Qed.
Lemma act_unassign k a :
  act (unassign_task k a) = act a /\ a_requested (unassign_task k a) = a_requested a.
Proof.
  unfold unassign_task. destruct (a_table a k) as [[|w n]|]; [done| |done].
  split; [|done]. unfold act. cbn. apply act_alter. by intros [].
Qed.
Lemma act_untrack j s a :
  act (untrack_streams j s a) = act a /\ a_requested (untrack_streams j s a) = a_requested a.
Proof.
  split; [|done]. unfold act. cbn. rewrite map_map. apply map_ext. by intros [i []].
Qed.

Lemma active_count_act a : active_count (a_workers a) = length (filter (fun x => x.2 = true) (act a)).
Proof.
  unfold active_count, act. induction (a_workers a) as [|[i x] r IH]; [done|].
  cbn [map fst snd]. rewrite !filter_cons. cbn [snd].
  destruct (decide (is_active x = true)); cbn; by rewrite IH.
Qed.
Lemma active_in_act a w : active_in a w = match list_find (fun x => x.1 = w) (act a) with
  | Some (_, (_, b)) => b | None => false end.
Proof.
  unfold active_in, act. induction (a_workers a) as [|[i x] r IH]; [done|].
  cbn [map fst snd w_get list_find]. destruct (decide (i = w)) as [->|Hn].
  - rewrite bool_decide_true by done. done.
  - rewrite bool_decide_false by done. rewrite IH.
    by destruct (list_find _ _) as [[? [? ?]]|].
Qed.
Lemma known_act a w : w_get w (a_workers a) = None <-> w ∉ map fst (act a).
Proof. rewrite w_get_None. unfold act. rewrite map_map. done. Qed.

Definition count (x : w_state) (l : list (nat * w_state)) : nat := length (filter (fun ix => ix.2 = x) l).

Lemma p_set_count w x y l :
  p_get w l = Some x -> x <> y ->
  S (count x (p_set w y l)) = count x l /\ count y (p_set w y l) = S (count y l) /\
  (forall z, z <> x -> z <> y -> count z (p_set w y l) = count z l).
Proof.
  unfold count. intros Hg Hxy. induction l as [|[i u] r IH]; [done|].
  cbn [p_get p_set] in *. case_bool_decide as Ei.
  - injection Hg as ->. subst i. split_and!.
    + rewrite filter_cons_False by done. rewrite filter_cons_True by done. done.
    + rewrite filter_cons_True by done. rewrite filter_cons_False by done. done.
    + intros z Hz1 Hz2. rewrite !filter_cons_False by (cbn; congruence). done.
  - destruct (IH Hg) as (I1 & I2 & I3). split_and!.
    + rewrite !filter_cons. destruct (decide _); cbn; lia.
    + rewrite !filter_cons. destruct (decide _); cbn; lia.
    + intros z Hz1 Hz2. rewrite !filter_cons. specialize (I3 z Hz1 Hz2). destruct (decide _); cbn; lia.
Qed.
Lemma p_get_set w y w' l :
  p_get w' (p_set w y l) = if bool_decide (w' = w) then (fun _ => y) <$> p_get w l else p_get w' l.
Proof.
  induction l as [|[i u] r IH]; cbn [p_get p_set]; [by case_bool_decide|].
  destruct (decide (i = w)) as [->|Hiw].
  - rewrite (bool_decide_true (w = w)) by done. cbn [p_get].
    destruct (decide (w = w')) as [->|Hw].
    + rewrite !bool_decide_true by done. done.
    + rewrite (bool_decide_false (w = w')), (bool_decide_false (w' = w)) by congruence. done.
  - rewrite (bool_decide_false (i = w)) by done. cbn [p_get].
    destruct (decide (i = w')) as [->|Hw].
    + rewrite (bool_decide_true (w' = w')), (bool_decide_false (w' = w)) by done. done.
    + rewrite (bool_decide_false (i = w')) by done. exact IH.
Qed.
Lemma p_get_app w l i x :
  p_get w (l ++ [(i, x)]) =
  match p_get w l with Some y => Some y | None => if bool_decide (i = w) then Some x else None end.
Proof.
  induction l as [|[j u] r IH]; cbn [app p_get]; [done|].
  destruct (bool_decide (j = w)); [done|exact IH].
Qed.

(** The pool and the assigner agree on who is running; [extra] counts the workers
    that were started without being requested. *)
Record pinv (o : a_options) (initial : nat) (d : driver) : Prop := {
  v_run : forall w, active_in (d_assigner d) w = true <-> p_get w (d_pool d) = Some WRunning;
  v_new : forall w, p_get w (d_pool d) = Some WPending \/ p_get w (d_pool d) = None ->
    w_get w (a_workers (d_assigner d)) = None;
  v_next : forall w, p_get w (d_pool d) <> None -> w < d_next d;
  v_count : active_count (a_workers (d_assigner d)) = workers_in WRunning d;
  v_low : a_requested (d_assigner d) <= workers_in WPending d;
  v_high : workers_in WPending d <= a_requested (d_assigner d) + initial;
  v_max : o_max_count o <> 0 -> workers_up d <= o_max_count o + initial;
}.

Lemma pinv_frame o i d a' :
  act a' = act (d_assigner d) -> a_requested a' = a_requested (d_assigner d) ->
  pinv o i d -> pinv o i (with_assigner d a').
Proof.
  intros Ha Hr [H1 H2 H3 H4 H5 H6 H7].
  split; cbn [d_assigner d_pool d_next with_assigner]; rewrite ?Hr; try done.
  - intros w. rewrite active_in_act, Ha, <- active_in_act. apply H1.
  - intros w Hw. apply known_act. rewrite Ha. apply known_act. by apply H2.
  - rewrite active_count_act, Ha, <- active_count_act. exact H4.
Qed.

Lemma start_worker_pending d : workers_in WPending (start_worker d) = S (workers_in WPending d) /\
  workers_in WRunning (start_worker d) = workers_in WRunning d /\
  d_assigner (start_worker d) = d_assigner d.
Proof.
  unfold workers_in, start_worker. cbn [d_pool d_assigner]. rewrite !filter_app, !app_length.
  assert (length (filter (fun ix : nat * w_state => ix.2 = WPending) [(d_next d, WPending)]) = 1) as -> by done.
  assert (length (filter (fun ix : nat * w_state => ix.2 = WRunning) [(d_next d, WPending)]) = 0) as -> by done.
  split_and!; [lia|lia|done].
Qed.
Lemma iter_start_worker n d :
  workers_in WPending (Nat.iter n start_worker d) = n + workers_in WPending d /\
  workers_in WRunning (Nat.iter n start_worker d) = workers_in WRunning d /\
  d_assigner (Nat.iter n start_worker d) = d_assigner d.
Proof.
  induction n as [|n (I1 & I2 & I3)]; [done|]. cbn [Nat.iter nat_rect].
  change (nat_rect _ d (fun _ => start_worker) n) with (Nat.iter n start_worker d).
  destruct (start_worker_pending (Nat.iter n start_worker d)) as (-> & -> & ->).
  rewrite I1, I2, I3. done.
Qed.
(** The part of the invariant that does not count. *)
Definition pshape (d : driver) : Prop :=
  (forall w, active_in (d_assigner d) w = true <-> p_get w (d_pool d) = Some WRunning) /\
  (forall w, p_get w (d_pool d) = Some WPending \/ p_get w (d_pool d) = None ->
    w_get w (a_workers (d_assigner d)) = None) /\
  (forall w, p_get w (d_pool d) <> None -> w < d_next d).
Lemma start_worker_shape d : pshape d -> pshape (start_worker d).
Proof.
  intros (H1 & H2 & H3). unfold pshape, start_worker. cbn [d_pool d_assigner d_next].
  assert (p_get (d_next d) (d_pool d) = None) as Hn.
  { destruct (p_get (d_next d) (d_pool d)) eqn:E; [|done].
    assert (d_next d < d_next d) by (apply H3; congruence). lia. }
  split_and!; intros w.
  - rewrite H1, p_get_app. destruct (p_get w (d_pool d)) eqn:E; [done|].
    case_bool_decide; split; done.
  - rewrite p_get_app. intros Hw. apply H2.
    destruct (p_get w (d_pool d)) eqn:E; [done|by right].
  - rewrite p_get_app. destruct (p_get w (d_pool d)) eqn:E.
    + intros _. assert (w < d_next d) by (apply H3; congruence). lia.
    + case_bool_decide; [lia|done].
Qed.
Lemma iter_shape n d : pshape d -> pshape (Nat.iter n start_worker d).
Proof.
  intros Hd. induction n as [|n IH]; [done|]. cbn [Nat.iter nat_rect]. by apply start_worker_shape.
Qed.

Lemma scale_up_pinv o i d : pinv o i d -> pinv o i (scale_up o d).
Proof.
  intros Hd. unfold scale_up. destruct (request_workers o (d_assigner d)) as [a n] eqn:E.
  unfold request_workers in E. injection E as <- <-.
  set (n := if bool_decide (o_max_count o = 0) then _ else _).
  set (a := Assigner _ _ _ _ _ _ _ _).
  assert (o_max_count o <> 0 -> a_requested (d_assigner d) + n + active_count (a_workers (d_assigner d))
     <= o_max_count o \/ n = 0) as Hn.
  { intros Hm. unfold n. rewrite bool_decide_false by done. lia. }
  clearbody n. destruct Hd as [H1 H2 H3 H4 H5 H6 H7].
  destruct (iter_start_worker n (with_assigner d a)) as (P1 & P2 & P3).
  destruct (iter_shape n (with_assigner d a)) as (S1 & S2 & S3); [done|].
  change (workers_in WPending (with_assigner d a)) with (workers_in WPending d) in P1.
  change (workers_in WRunning (with_assigner d a)) with (workers_in WRunning d) in P2.
  split; try done; unfold workers_up in *; rewrite ?P3, ?P1, ?P2; subst a; cbn [d_assigner with_assigner a_workers a_requested].
  - exact H4.
  - lia.
  - lia.
  - intros Hm. specialize (H7 Hm). destruct (Hn Hm) as [Hle| ->]; [|lia]. rewrite H4 in Hle. lia.
Qed.

Lemma active_count_deactivate w l :
  match w_get w l with Some x => is_active x | None => false end = true ->
  S (active_count (w_alter (fun _ => Inactive) w l)) = active_count l.
Proof.
  unfold active_count. induction l as [|[i x] r IH]; cbn [w_get w_alter]; [done|].
  case_bool_decide as E; intros Ha.
  - rewrite filter_cons_False by done. rewrite filter_cons_True by done. done.
  - rewrite !filter_cons. specialize (IH Ha). destruct (decide _); cbn; lia.
Qed.

Lemma stop_deactivate_pinv o i d w :
  pinv o i d -> p_get w (d_pool d) = Some WRunning ->
  pinv o i (with_assigner (stop_worker w d) (deactivate_worker w (d_assigner (stop_worker w d)))).
Proof.
  intros [H1 H2 H3 H4 H5 H6 H7] Hg. unfold stop_worker. rewrite Hg.
  destruct (p_set_count w WRunning WCompleted _ Hg) as (C1 & C2 & C3); [done|].
  assert (C4 := C3 WPending ltac:(done) ltac:(done)).
  set (d' := with_assigner _ _).
  assert (workers_in WRunning d = S (workers_in WRunning d')) as W1 by (unfold workers_in; symmetry; exact C1).
  assert (workers_in WPending d' = workers_in WPending d) as W2 by exact C4.
  split; unfold workers_up in *; rewrite ?W2;
    try (intros Hm; specialize (H7 Hm); lia);
    subst d'; cbn [d_assigner with_assigner with_pool d_pool d_next].
  - intros w'. rewrite p_get_set. unfold active_in. cbn. rewrite w_get_alter.
    case_bool_decide as Ew; [|apply H1]. subst w'.
    destruct (w_get w (a_workers (d_assigner d))); cbn; rewrite Hg; cbn; split; done.
  - intros w'. rewrite p_get_set. unfold deactivate_worker. cbn. rewrite w_get_alter.
    case_bool_decide as Ew; [|apply H2]. subst w'. rewrite Hg. cbn. intros [?|?]; done.
  - intros w'. rewrite p_get_set. case_bool_decide as Ew; [|apply H3]. intros _. apply H3. subst; congruence.
  - cbn. apply (proj2 (H1 w)) in Hg. unfold active_in in Hg.
    pose proof (active_count_deactivate _ _ Hg) as Hc. cbn [d_pool with_pool with_assigner] in W1.
    rewrite H4, W1 in Hc. injection Hc as Hc. exact Hc.
  - exact H5.
  - exact H6.
Qed.

Lemma register_pinv o i d w : pinv o i d -> pinv o i (register_worker o w d).
Proof.
  intros Hd. unfold register_worker. destruct (p_get w (d_pool d)) as [[]|] eqn:Hg; try done.
  set (d1 := with_pool d _).
  assert (pinv o i (with_assigner d1 (activate_worker o w (d_assigner d1)))) as Hd1.
  { destruct Hd as [H1 H2 H3 H4 H5 H6 H7].
    destruct (p_set_count w WPending WRunning _ Hg) as (C1 & C2 & C3); [done|].
    assert (w_get w (a_workers (d_assigner d)) = None) as Hnone by (apply H2; by left).
    unfold activate_worker. subst d1. cbn [d_assigner with_pool failed_to_start a_workers]. rewrite Hnone.
    set (a' := with_workers _ _). set (d' := with_assigner _ _).
    assert (workers_in WPending d = S (workers_in WPending d')) as W1 by (symmetry; exact C1).
    assert (workers_in WRunning d' = S (workers_in WRunning d)) as W2 by exact C2.
    assert (a_requested (d_assigner d') = a_requested (d_assigner d) - 1) as W3 by done.
    split; unfold workers_up in *; rewrite ?W2, ?W3;
      try (intros Hm; specialize (H7 Hm); lia); try lia;
      subst d' a'; cbn [d_assigner with_assigner with_pool d_pool d_next].
    - intros w'. rewrite p_get_set. unfold active_in. cbn. rewrite w_get_app.
      case_bool_decide as Ew.
      + subst w'. rewrite Hnone, Hg. cbn. rewrite bool_decide_true by done. done.
      + rewrite <- H1. unfold active_in. destruct (w_get w' (a_workers (d_assigner d))); [done|].
        cbn. rewrite bool_decide_false by done. done.
    - intros w'. rewrite p_get_set. cbn. rewrite w_get_app. case_bool_decide as Ew.
      + subst w'. rewrite Hg. cbn. intros [?|?]; done.
      + intros Hw. rewrite (H2 w' Hw). cbn. by rewrite bool_decide_false.
    - intros w'. rewrite p_get_set. case_bool_decide as Ew; [|apply H3]. intros _. apply H3. subst; congruence.
    - cbn. unfold active_count in *. rewrite filter_app, app_length, H4.
      rewrite filter_cons_True by done. cbn. lia.
    }
  destruct (act_run (activate_worker o w (d_assigner d1))) as [A1 A2].
  exact (pinv_frame o i (with_assigner d1 (activate_worker o w (d_assigner d1))) _ A1 A2 Hd1).
Qed.

Lemma probe_pending_pinv o i d w : pinv o i d -> pinv o i (probe_pending o w d).
Proof.
  intros Hd. unfold probe_pending. destruct (p_get w (d_pool d)) as [[]|] eqn:Hg; try done.
  apply scale_up_pinv. destruct Hd as [H1 H2 H3 H4 H5 H6 H7].
  destruct (p_set_count w WPending WFailed _ Hg) as (C1 & C2 & C3); [done|].
  assert (C4 := C3 WRunning ltac:(done) ltac:(done)).
  set (d' := with_assigner _ _).
  assert (workers_in WPending d = S (workers_in WPending d')) as W1 by (symmetry; exact C1).
  assert (workers_in WRunning d' = workers_in WRunning d) as W2 by exact C4.
  split; unfold workers_up in *; rewrite ?W2.
  - intros w'. subst d'. cbn. rewrite p_get_set. case_bool_decide as Ew; [|apply H1]. subst w'.
    rewrite Hg. cbn. unfold active_in. cbn. rewrite (H2 w) by auto. split; done.
  - intros w'. subst d'. cbn. rewrite p_get_set. case_bool_decide as Ew; [|apply H2]. subst w'.
    intros _. apply H2. by left.
  - intros w'. subst d'. cbn. rewrite p_get_set. case_bool_decide as Ew; [|apply H3]. intros _. apply H3. subst; congruence.
  - exact H4.
  - subst d'. cbn [d_assigner with_assigner with_pool failed_to_start a_requested] in *. lia.
  - subst d'. cbn [d_assigner with_assigner with_pool failed_to_start a_requested] in *. lia.
  - intros Hm. specialize (H7 Hm). lia.
Qed.

Lemma driver_start_pinv o i : pinv o i (driver_start i).
Proof.
  unfold driver_start.
  destruct (iter_start_worker i (Driver 1 [] a_new)) as (P1 & P2 & P3).
  destruct (iter_shape i (Driver 1 [] a_new)) as (S1 & S2 & S3); [by split_and!|].
  cbn [d_assigner] in *.
  assert (workers_in WPending (Driver 1 [] a_new) = 0) as E1 by done.
  assert (workers_in WRunning (Driver 1 [] a_new) = 0) as E2 by done.
  assert (a_requested a_new = 0) as E3 by done.
  split; [exact S1|exact S2|exact S3|..]; unfold workers_up;
    rewrite ?P1, ?P2, ?P3, ?E1, ?E2, ?E3; try done; intros; lia.
Qed.

Lemma d_step_pinv o i d op : pinv o i d -> pinv o i (d_step o d op).
Proof.
  intros Hd. destruct op; cbn [d_step].
  - by apply register_pinv.
  - by apply probe_pending_pinv.
  - unfold probe_idle. destruct (is_worker_idle _ _ && _) eqn:E; [|done].
    apply andb_true_iff in E as [_ [Hg _]%andb_true_iff]. apply bool_decide_eq_true in Hg.
    by apply stop_deactivate_pinv.
  - unfold probe_lost. destruct (bool_decide _ && _) eqn:E; [|done].
    apply andb_true_iff in E as [Hg _]. apply bool_decide_eq_true in Hg.
    by apply stop_deactivate_pinv.
  - by apply pinv_frame.
  - by apply pinv_frame.
  - destruct (act_run (d_assigner d)). by apply pinv_frame.
  - by apply scale_up_pinv.
  - destruct (act_unassign k (d_assigner d)). by apply pinv_frame.
  - destruct (act_untrack job stage (d_assigner d)). by apply pinv_frame.
Qed.
Lemma d_run_pinv o i ops : pinv o i (d_run o i ops).
Proof.
  unfold d_run. generalize (driver_start_pinv o i). generalize (driver_start i).
  induction ops as [|op ops IH]; intros d Hd; [done|]. cbn [foldl]. apply IH. by apply d_step_pinv.
Qed.

Lemma worker_limit o i ops : o_max_count o <> 0 -> workers_up (d_run o i ops) <= o_max_count o + i.
Proof. intros Hm. exact (v_max _ _ _ (d_run_pinv o i ops) Hm). Qed.

(** * Demand *)
Lemma div_ceil_spec a b : b <> 0 -> a <= div_ceil a b * b /\ (div_ceil a b <> 0 -> (div_ceil a b - 1) * b < a).
Proof.
  intros Hb. unfold div_ceil.
  pose proof (Nat.div_mod (a + (b - 1)) b Hb) as Hd.
  pose proof (Nat.mod_upper_bound (a + (b - 1)) b Hb) as Hm.
  set (q := (a + (b - 1)) / b) in *. set (r := (a + (b - 1)) mod b) in *. clearbody q r.
  split; [nia|]. intros Hq. destruct q as [|q]; [done|]. cbn [Nat.sub]. rewrite Nat.sub_0_r. nia.
Qed.

Definition demand (a : assigner) : nat := sum_list_with region_demand (a_queue a).

Lemma request_spec o a :
  o_task_slots o <> 0 ->
  let n := (request_workers o a).2 in
  (o_max_count o = 0 \/ n < o_max_count o - a_requested a - active_count (a_workers a) ->
   demand a <= all_free a + n * o_task_slots o) /\
  (n <> 0 -> all_free a + (n - 1) * o_task_slots o < demand a) /\
  a_requested (request_workers o a).1 = a_requested a + n.
Proof.
  intros Hs. unfold request_workers. cbn [fst snd]. fold (demand a). fold (all_free a).
  cbn [a_requested].
  destruct (div_ceil_spec (demand a - all_free a) (o_task_slots o) Hs) as [D1 D2].
  set (c := div_ceil (demand a - all_free a) (o_task_slots o)) in *. clearbody c.
  split_and!; [| |done].
  - case_bool_decide as Em.
    + intros _. lia.
    + intros [?|Hlt]; [done|]. assert (c `min` (o_max_count o - a_requested a - active_count (a_workers a)) = c) as -> by lia.
      lia.
  - case_bool_decide as Em.
    + intros Hc. specialize (D2 Hc).
      generalize dependent ((c - 1) * o_task_slots o). intros; lia.
    + intros Hc. assert (c <> 0) as Hc' by lia. specialize (D2 Hc').
      set (m := c `min` _) in *. assert (m <= c) as Hmc by (unfold m; lia).
      assert ((m - 1) * o_task_slots o <= (c - 1) * o_task_slots o) by (apply Nat.mul_le_mono_r; lia).
      generalize dependent ((c - 1) * o_task_slots o).
      generalize dependent ((m - 1) * o_task_slots o). intros; lia.
Qed.

Lemma over_request slots r n :
  slots <> 0 ->
  workers_in WPending (d_run (AOptions slots 0) 0 (DEnqueue r :: replicate n DScaleUp)) =
  n * div_ceil (region_demand r) slots.
Proof.
  intros Hs. unfold d_run. cbn [foldl d_step].
  set (d0 := with_assigner _ _).
  assert (forall n d, a_queue (d_assigner d) = [r] -> a_workers (d_assigner d) = [] ->
    workers_in WPending (foldl (d_step (AOptions slots 0)) d (replicate n DScaleUp)) =
    workers_in WPending d + n * div_ceil (region_demand r) slots) as Hgen.
  { clear d0. intros m. induction m as [|m IH]; intros d Hq Hw; [cbn; lia|].
    cbn [replicate foldl d_step]. unfold scale_up.
    destruct (request_workers (AOptions slots 0) (d_assigner d)) as [a k] eqn:E.
    unfold request_workers in E. injection E as <- <-.
    rewrite Hq, Hw. cbn [o_task_slots o_max_count sum_list_with].
    rewrite Nat.sub_0_r, Nat.add_0_r.
    set (d1 := with_assigner d _).
    destruct (iter_start_worker (div_ceil (region_demand r) slots) d1) as (P1 & _ & P3).
    rewrite IH; [|rewrite P3; done..]. rewrite P1.
    change (workers_in WPending d1) with (workers_in WPending d). lia. }
  rewrite Hgen; done.
Qed.
