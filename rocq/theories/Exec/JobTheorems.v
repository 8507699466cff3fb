From stdpp Require Import prelude list relations.
From Verif.Lib Require Import ListFacts.
From Verif.Exec Require Import TaskStateModel TaskStateSpec TaskStateProofs.
From Verif.Exec Require Import GraphModel GraphSpec GraphProofs JobModel JobSpec JobProofs JobInvariants.

Lemma newest_attempts j t s : newest j t s -> attempts j t <> [].
Proof. intros (l & a & -> & _). by destruct l. Qed.

Lemma newest_is_task g j t s : wf_job g j -> newest j t s -> is_task g t.
Proof.
  intros Hwf Hn. destruct (decide (is_task g t)) as [|Hno]; [done|]. exfalso.
  apply newest_attempts in Hn. apply Hn. by apply (attempts_not_task g).
Qed.

Lemma live_not_terminal a : live a <-> is_terminal (at_state a) = false.
Proof. unfold live. destruct (at_state a); simpl; split; intros H; try done; auto; destruct H as [|[|]]; done. Qed.

Lemma terminal_or_live a : is_terminal (at_state a) = true \/ live a.
Proof. rewrite live_not_terminal. destruct (is_terminal _); auto. Qed.

Lemma attempts_bounded max g j t :
  1 <= max -> reachable max g j -> length (attempts j t) <= max.
Proof. intros Hm Hr. pose proof (ji_bound _ _ _ (reachable_inv _ _ _ Hr) t). lia. Qed.

(** Refreshing when some task ran out of attempts. *)
Lemma exhausted_fails max g j t :
  reachable max g j -> jb_state j = JRunning -> out_of_attempts max j t ->
  jb_state (refresh_job max j).1 = JFailed /\ exists c, FailJobOutput c ∈ (refresh_job max j).2.
Proof.
  intros Hr Hst Ho. apply reachable_inv in Hr as Hinv. pose proof (ji_wf _ _ _ Hinv) as Hwf.
  rewrite refresh_unfold by done. simpl.
  pose proof (prepare_in_place g j Hwf) as Hip. set (j3 := refresh_prepare j) in *.
  pose proof (in_place_wf _ _ _ Hip Hwf) as Hwf3.
  assert (is_task g t) as Ht by (destruct Ho as [_ [H|H]]; exact (newest_is_task g j t _ Hwf H)).
  destruct (wf_task_region g j3 t Hwf3 Ht) as (r & rt & Hrt & Hin).
  assert (Ho3 : out_of_attempts max j3 t).
  { destruct Ho as [Hl Ho]. split; [by rewrite (in_place_length j j3)|].
    rewrite <- !last_state_newest in *. destruct Ho; [left|right]; by eapply in_place_last. }
  destruct (existsb _ _) eqn:E1.
  - simpl. split; [done|]. eexists. apply elem_of_app. right. by apply elem_of_list_singleton.
  - exfalso. apply not_true_iff_false in E1. apply E1.
    change (existsb (fun r => bool_decide (r = RgFailed)) (jb_regions (update_task_regions max j3)) = true).
    apply exists_failed. eauto 10.
Qed.

(** The outcomes of a refresh. *)
Lemma refresh_cases max g j :
  wf_job g j -> jb_state j = JRunning ->
  let j3 := refresh_prepare j in
  let res := refresh_job max j in
  (jb_state res.1 = JFailed /\ (exists t, is_task g t /\ out_of_attempts max j3 t) /\
   (forall t, attempts res.1 t = attempts j3 t) /\
   res.2 = prepare_actions j ++ [FailJobOutput (infer_cause j3)]) \/
  (jb_state res.1 = JDraining /\ (forall t, is_task g t -> last_state j3 t = Some TSucceeded) /\
   (forall t, attempts res.1 t = attempts j3 t) /\ res.2 = prepare_actions j) \/
  (jb_state res.1 = JRunning /\ (exists t, is_task g t /\ last_state j3 t <> Some TSucceeded) /\
   (forall t, is_task g t -> ~ out_of_attempts max j3 t) /\
   res = ((schedule_task_regions (update_task_regions max j3)).1,
     prepare_actions j ++ (schedule_task_regions (update_task_regions max j3)).2)).
Proof.
  intros Hwf Hst. rewrite refresh_unfold by done. simpl.
  pose proof (prepare_in_place g j Hwf) as Hip. pose proof (prepare_state g j Hwf) as Hs3.
  set (j3 := refresh_prepare j) in *. pose proof (in_place_wf _ _ _ Hip Hwf) as Hwf3.
  destruct (existsb _ _) eqn:E1.
  - left. simpl. split_and!; try done.
    change (existsb (fun r => bool_decide (r = RgFailed)) (jb_regions (update_task_regions max j3)) = true) in E1.
    apply exists_failed in E1 as (r & rt & t & Hr & Ht & Ho). exists t. split; [|done]. by eapply (wf_region_task g j3).
  - change (existsb (fun r => bool_decide (r = RgFailed)) (jb_regions (update_task_regions max j3)) = false) in E1.
    apply not_true_iff_false in E1. rewrite exists_failed in E1.
    destruct (forallb _ _) eqn:E2.
    + right; left. simpl. split_and!; try done.
      change (forallb (fun r => bool_decide (r = RgSucceeded)) (jb_regions (update_task_regions max j3)) = true) in E2.
      rewrite all_succeeded in E2. intros t Ht.
      destruct (wf_task_region g j3 t Hwf3 Ht) as (r & rt & Hr & Hin). by eapply E2.
    + right; right. simpl.
      change (forallb (fun r => bool_decide (r = RgSucceeded)) (jb_regions (update_task_regions max j3)) = false) in E2.
      assert (Hwf4 : wf_job g (update_task_regions max j3)) by by destruct Hwf3.
      destruct (schedule_spec g _ Hwf4) as (Hf & _). split_and!; try done.
      * rewrite (sf_state _ _ Hf). simpl. congruence.
      * destruct (decide (Exists (fun t => last_state j3 t <> Some TSucceeded)
          (concat (map rt_tasks (tp_regions (jb_topo j3)))))) as [HE|HE].
        -- apply Exists_exists in HE as (t & Ht & Hl). exists t. split; [|done].
           by apply (topology_partition g (jb_topo j3) (wf_topo _ _ Hwf3)).
        -- exfalso. apply not_true_iff_false in E2. apply E2. apply all_succeeded.
           intros r rt t Hr Ht. destruct (decide (last_state j3 t = Some TSucceeded)) as [|Hne]; [done|].
           exfalso. apply HE, Exists_exists. exists t. split; [|done].
           apply elem_of_concat. exists (rt_tasks rt). split; [|done]. apply elem_of_map_iff.
           exists rt. split; [done|by eapply elem_of_list_lookup_2].
      * intros t Ht Ho. destruct (wf_task_region g j3 t Hwf3 Ht) as (r & rt & Hr & Hin). eauto 10.
Qed.

Lemma existsb_false_elem {A} (f : A -> bool) l x : existsb f l = false -> x ∈ l -> f x = false.
Proof.
  intros H Hx. destruct (f x) eqn:E; [|done]. rewrite <- H. symmetry. apply existsb_elem. eauto.
Qed.

(** States that survive the cascade were there before. *)
Lemma cascade_succeeded g j t :
  wf_job g j -> last_state (cascade_cancel j).1 t = Some TSucceeded -> last_state j t = Some TSucceeded.
Proof.
  intros Hwf H. destruct (cascade_spec g j Hwf) as (Hf & _ & Ha & _).
  pose proof (wf_frame _ _ _ Hf Hwf) as Hwf'.
  destruct (decide (is_task g t)) as [Ht|Hn].
  - destruct (wf_task_region g j t Hwf Ht) as (r & rt & Hr & Hin).
    revert H. unfold last_state. rewrite (Ha r rt t Hr Hin). destruct (region_has_failure j r rt); [|done].
    change (map cancel_attempt) with (fmap (M:=list) cancel_attempt). rewrite fmap_last.
    destruct (last (attempts j t)) as [a|]; simpl; [|done]. intros [= H]. f_equal.
    unfold cancel_attempt in H. by destruct (is_terminal (at_state a)).
  - revert H. unfold last_state. by rewrite (attempts_not_task g _ _ Hwf' Hn).
Qed.

(** Extending the output and removing data leaves attempt states alone. *)
Definition same_states (j j' : job) : Prop :=
  forall t, map at_state (attempts j' t) = map at_state (attempts j t).
Lemma same_states_last j j' t : same_states j j' -> last_state j' t = last_state j t.
Proof.
  intros H. unfold last_state. specialize (H t).
  change (map at_state) with (fmap (M:=list) at_state) in H.
  by rewrite <- !fmap_last, H.
Qed.
Lemma extend_states j : same_states j (extend_job_output j).1.
Proof.
  assert (H : forall l acc, same_states acc.1 (foldl extend_one acc l).1).
  { induction l as [|[t ch] l IH]; intros [j' acts]; cbn [foldl]; [done|].
    intros t'. rewrite IH. simpl. destruct (last (attempts j' t)); [|done].
    destruct (_ && _); [|done]. simpl. rewrite attempts_alter_task_nil by done.
    case_decide; [subst t'|done]. unfold set_last_fetched.
    generalize (length (attempts j' t) - 1). generalize (attempts j' t).
    induction l0 as [|x l0 IH0]; intros [|n]; simpl; [done|done|done|]. f_equal. apply IH0. }
  unfold extend_job_output. destruct (jb_state j); try done. apply H.
Qed.
Lemma clean_up_states j : same_states j (clean_up_by_stage j).1.
Proof.
  assert (H : forall l acc, same_states acc.1 (foldl clean_up_stage acc l).1).
  { induction l as [|s l IH]; intros [j' acts]; cbn [foldl]; [done|].
    intros t'. rewrite IH. simpl. destruct (_ && _); [|done]. cbn [fst]. by rewrite attempts_deactivate. }
  apply H.
Qed.
Lemma prepare_last j t : last_state (refresh_prepare j) t = last_state (cascade_cancel j).1 t.
Proof.
  unfold refresh_prepare. rewrite (same_states_last _ _ _ (clean_up_states _)).
  by rewrite (same_states_last _ _ _ (extend_states _)).
Qed.
Lemma prepare_succeeded g j t :
  wf_job g j -> last_state (refresh_prepare j) t = Some TSucceeded <-> last_state j t = Some TSucceeded.
Proof.
  intros Hwf. split.
  - rewrite prepare_last. by apply (cascade_succeeded g).
  - intros H. eapply in_place_last; [by eapply prepare_in_place|done|done].
Qed.

Lemma together_region g j r rt t t' :
  wf_job g j -> tp_regions (jb_topo j) !! r = Some rt -> t ∈ rt_tasks rt -> together j t t' <-> t' ∈ rt_tasks rt.
Proof.
  intros Hwf Hr Ht. split.
  - intros (rt' & Hin & Ht1 & Ht2). apply elem_of_list_lookup in Hin as [r' Hr'].
    destruct (wf_region_unique g j r r' rt rt' t) as [-> ->]; done.
  - intros Ht'. exists rt. split; [by eapply elem_of_list_lookup_2|done].
Qed.

(** A failed task's whole region is stopped... *)
Lemma failure_stops_region max g j t t' i a :
  reachable max g j -> jb_state j = JRunning -> newest j t TFailed -> together j t t' ->
  attempts j t' !! i = Some a -> live a ->
  (exists a', attempts (refresh_job max j).1 t' !! i = Some a' /\ at_state a' = TCanceled) /\
  CancelTask (TaskKey t'.1 t'.2 i) ∈ (refresh_job max j).2.
Proof.
  intros Hreach Hst Hfail Htog Hi Hlive. apply reachable_inv in Hreach as Hinv.
  pose proof (ji_wf _ _ _ Hinv) as Hwf.
  destruct (wf_task_region g j t Hwf) as (r & rt & Hr & Hin); [by eapply newest_is_task|].
  apply (together_region g j r rt t t' Hwf Hr Hin) in Htog.
  assert (Hf : region_has_failure j r rt = true).
  { apply existsb_elem. exists t. split; [done|]. apply bool_decide_eq_true. by apply last_state_newest. }
  destruct (cascade_spec g j Hwf) as (_ & _ & Ha & Hacts).
  set (j3 := refresh_prepare j).
  assert (Hs : map at_state (attempts j3 t') = map at_state (attempts (cascade_cancel j).1 t')).
  { unfold j3, refresh_prepare. by rewrite clean_up_states, extend_states. }
  rewrite (Ha r rt t' Hr Htog), Hf in Hs.
  assert (Hx : exists a', attempts j3 t' !! i = Some a' /\ at_state a' = TCanceled).
  { assert (Hc : map at_state (attempts j3 t') !! i = Some TCanceled).
    { rewrite Hs. change (map at_state) with (fmap (M:=list) at_state).
      change (map cancel_attempt) with (fmap (M:=list) cancel_attempt).
      rewrite !list_lookup_fmap, Hi. simpl. unfold cancel_attempt.
      apply live_not_terminal in Hlive. by rewrite Hlive. }
    change (map at_state) with (fmap (M:=list) at_state) in Hc. rewrite list_lookup_fmap in Hc.
    apply fmap_Some in Hc as (a' & ? & ?). eauto. }
  assert (Hact : CancelTask (TaskKey t'.1 t'.2 i) ∈ prepare_actions j).
  { apply elem_of_app. left. apply Hacts. exists r, rt. split_and!; try done.
    apply elem_of_flat_map. exists t'. split; [done|]. apply elem_of_flat_map. exists (i, a).
    split; [by apply elem_of_imap_pair|]. simpl. apply live_not_terminal in Hlive. rewrite Hlive.
    by apply elem_of_list_singleton. }
  destruct (refresh_cases max g j Hwf Hst) as [(_ & _ & Hres & Hac)|[(_ & _ & Hres & Hac)|(_ & _ & _ & Hres)]].
  - fold j3 in Hres. rewrite Hres, Hac. split; [done|]. apply elem_of_app. by left.
  - fold j3 in Hres. rewrite Hres, Hac. done.
  - fold j3 in Hres. rewrite Hres. simpl. split; [|apply elem_of_app; by left].
    pose proof (in_place_wf _ _ _ (prepare_in_place g j Hwf) Hwf) as Hwf3. fold j3 in Hwf3.
    assert (Hwf4 : wf_job g (update_task_regions max j3)) by by destruct Hwf3.
    destruct (schedule_spec g _ Hwf4) as (_ & _ & Hatt & _).
    rewrite (Hatt r rt t'); [|simpl; unfold j3; by rewrite (ip_topo _ _ (prepare_in_place g j Hwf))|done].
    destruct Hx as (a' & Ha' & Hs'). exists a'. split; [|done].
    destruct (region_ready _ r rt); [|done]. unfold push_created. by apply lookup_app_l_Some.
Qed.

(** ... and only such regions are stopped by a refresh. *)
Lemma cancel_only_failed_regions max g j k :
  reachable max g j -> CancelTask k ∈ (refresh_job max j).2 ->
  exists t, newest j t TFailed /\ together j t (tk_stage k, tk_partition k) /\
    exists a, attempts j (tk_stage k, tk_partition k) !! tk_attempt k = Some a /\ live a.
Proof.
  intros Hreach Hin. apply reachable_inv in Hreach as Hinv. pose proof (ji_wf _ _ _ Hinv) as Hwf.
  destruct (decide (jb_state j = JRunning)) as [Hst|Hst].
  2:{ unfold refresh_job in Hin. destruct (jb_state j); set_solver. }
  assert (Hnot_ext : forall l acc, CancelTask k ∈ (foldl extend_one acc l).2 -> CancelTask k ∈ acc.2).
  { induction l as [|[t ch] l IH]; intros [j' acts]; cbn [foldl]; [done|]. intros H. apply IH in H.
    revert H. simpl. destruct (last (attempts j' t)); [|done]. destruct (_ && _); [|done]. simpl.
    intros [?|H]%elem_of_app; [done|]. apply elem_of_map_iff in H as (? & ? & ?). done. }
  assert (Hnot_clean : forall l acc, CancelTask k ∈ (foldl clean_up_stage acc l).2 -> CancelTask k ∈ acc.2).
  { induction l as [|s l IH]; intros [j' acts]; cbn [foldl]; [done|]. intros H. apply IH in H.
    revert H. simpl. destruct (_ && _); [|done]. simpl. intros [?|H]%elem_of_app; [done|]. set_solver. }
  assert (Hc : CancelTask k ∈ (cascade_cancel j).2).
  { assert (Hp : CancelTask k ∈ prepare_actions j).
    { destruct (refresh_cases max g j Hwf Hst) as [(_ & _ & _ & Hac)|[(_ & _ & _ & Hac)|(_ & _ & _ & Hres)]].
      - rewrite Hac in Hin. apply elem_of_app in Hin as [|Hin]; [done|]. set_solver.
      - by rewrite Hac in Hin.
      - rewrite Hres in Hin. simpl in Hin. apply elem_of_app in Hin as [|Hin]; [done|].
        pose proof (in_place_wf _ _ _ (prepare_in_place g j Hwf) Hwf) as Hwf3.
        assert (Hwf4 : wf_job g (update_task_regions max (refresh_prepare j))) by by destruct Hwf3.
        destruct (schedule_spec g _ Hwf4) as (_ & _ & _ & Hs). apply Hs in Hin as (? & ? & ? & ? & ?). done. }
    unfold prepare_actions in Hp. apply elem_of_app in Hp as [|Hp]; [done|].
    apply elem_of_app in Hp as [Hp|Hp]; exfalso.
    - unfold extend_job_output in Hp. destruct (jb_state (cascade_cancel j).1); try set_solver.
      apply Hnot_ext in Hp. set_solver.
    - unfold clean_up_by_stage in Hp. apply Hnot_clean in Hp. set_solver. }
  destruct (cascade_spec g j Hwf) as (_ & _ & _ & Hacts). apply Hacts in Hc as (r & rt & Hr & Hf & Hc).
  unfold region_has_failure in Hf. apply existsb_elem in Hf as (t & Ht & Hf). apply bool_decide_eq_true in Hf.
  apply elem_of_flat_map in Hc as (t' & Ht' & Hc). apply elem_of_flat_map in Hc as ([i a] & Hi & Hc).
  apply elem_of_imap_pair in Hi. simpl in Hc. destruct (is_terminal (at_state a)) eqn:E; [set_solver|].
  apply elem_of_list_singleton in Hc as [= ->]. simpl. rewrite <- surjective_pairing.
  exists t. split; [by apply last_state_newest|]. split.
  - by apply (together_region g j r rt t t').
  - exists a. split; [done|]. by apply live_not_terminal.
Qed.

(** A failed task with attempts left is launched again by the next refresh. *)
Lemma failed_is_retried max g j t :
  reachable max g j -> jb_state j = JRunning -> newest j t TFailed ->
  jb_state (refresh_job max j).1 = JFailed \/
  (jb_state (refresh_job max j).1 = JRunning /\
   length (attempts (refresh_job max j).1 t) = S (length (attempts j t)) /\
   newest (refresh_job max j).1 t TCreated).
Proof.
  intros Hreach Hst Hfail. apply reachable_inv in Hreach as Hinv. pose proof (ji_wf _ _ _ Hinv) as Hwf.
  pose proof (prepare_in_place g j Hwf) as Hip. pose proof (prepare_state g j Hwf) as Hs3.
  assert (Ht : is_task g t) by by eapply newest_is_task.
  destruct (refresh_cases max g j Hwf Hst) as [(Hf & _)|[(_ & Hs & _)|(Hrun & _ & _ & Hres)]]; [by left| |].
  - exfalso. specialize (Hs t Ht). apply (proj1 (prepare_succeeded g j t Hwf)) in Hs.
    apply last_state_newest in Hfail. congruence.
  - right. split; [done|]. set (j3 := refresh_prepare j) in *. rewrite Hres. simpl.
    assert (Hinv3 : job_inv max g j3) by exact (inv_in_place max g j _ Hip (or_introl Hs3) Hinv).
    pose proof (ji_wf _ _ _ Hinv3) as Hwf3.
    assert (Hwf4 : wf_job g (update_task_regions max j3)) by by destruct Hwf3.
    destruct (schedule_spec g _ Hwf4) as (_ & _ & Hatt & _).
    destruct (wf_task_region g j3 t Hwf3 Ht) as (r & rt & Hr & Hin).
    assert (Hready : region_ready (update_task_regions max j3) r rt = true).
    { apply (region_ready_spec max j3 r rt Hr). split_and!.
      - intros Hall. specialize (Hall t Hin). apply (proj1 (prepare_succeeded g j t Hwf)) in Hall.
        apply last_state_newest in Hfail. congruence.
      - intros d Hd. destruct (topology_deps g (jb_topo j3) r rt d (wf_topo _ _ Hwf3) Hr) as [Hd1 _].
        destruct (Hd1 Hd) as (_ & rt' & _ & _ & Hrt' & _). exists rt'. split; [done|].
        intros t' Ht'. eapply (ji_deps _ _ _ Hinv3 r rt d rt' t t'); try done.
        apply newest_attempts in Hfail. intros Hnil. apply Hfail. apply nil_length_inv.
        rewrite <- (in_place_length j j3) by done. by rewrite Hnil.
      - intros t' s Ht' Hl. unfold j3 in Hl. rewrite prepare_last in Hl.
        destruct (cascade_spec g j Hwf) as (_ & _ & Ha & _).
        assert (Hr0 : tp_regions (jb_topo j) !! r = Some rt) by by rewrite <- (ip_topo _ _ Hip).
        unfold last_state in Hl. rewrite (Ha r rt t' Hr0 Ht') in Hl.
        assert (region_has_failure j r rt = true) as Hrf.
        { apply existsb_elem. exists t. split; [done|]. apply bool_decide_eq_true. by apply last_state_newest. }
        rewrite Hrf in Hl. change (map cancel_attempt) with (fmap (M:=list) cancel_attempt) in Hl.
        rewrite fmap_last in Hl. destruct (last (attempts j t')) as [a|]; simpl in Hl; [|done].
        injection Hl as <-. unfold cancel_attempt. by destruct (is_terminal (at_state a)) eqn:E. }
    specialize (Hatt r rt t Hr Hin). rewrite Hready in Hatt.
    change (attempts (update_task_regions max j3)) with (attempts j3) in Hatt.
    split.
    + rewrite Hatt. unfold push_created. rewrite app_length. simpl. rewrite (in_place_length j j3) by done. lia.
    + unfold newest. rewrite Hatt. eexists _, _. split; done.
Qed.

(** What a refresh launches. *)
Lemma bucket_entries_elem j ts k n b key m :
  (key, m) ∈ bucket_entries j ts k n b <->
  exists t, t ∈ ts /\ stage_key (jb_graph j) t.1 = k /\ bucket_of (jb_graph j) n t = b /\
    m = stage_mode (jb_graph j) t.1 /\
    attempts j t <> [] /\ key = TaskKey t.1 t.2 (length (attempts j t) - 1).
Proof.
  unfold bucket_entries. rewrite elem_of_list_omap. split.
  - intros (t & Ht & H). exists t. case_decide as Hd; [|done]. destruct Hd as [Hk Hb].
    apply fmap_Some in H as (a & Ha & [= -> ->]). unfold latest_attempt in Ha.
    destruct (attempts j t) eqn:E; [done|]. injection Ha as <-. done.
  - intros (t & Ht & Hk & Hb & -> & Hne & ->). exists t. split; [done|]. rewrite decide_True by done.
    unfold latest_attempt. by destruct (attempts j t).
Qed.

Lemma dedup_elem {A} `{EqDecision A} (l : list A) x : x ∈ dedup l <-> x ∈ l.
Proof.
  unfold dedup. assert (H : forall l acc : list A, x ∈ foldl (fun acc x => if decide (x ∈ acc) then acc else acc ++ [x]) acc l <-> x ∈ acc \/ x ∈ l).
  { clear l. induction l as [|a l IH]; intros acc; cbn [foldl]; [set_solver|]. rewrite IH. case_decide; set_solver. }
  rewrite H. set_solver.
Qed.
Lemma dedup_NoDup {A} `{EqDecision A} (l : list A) : NoDup (dedup l).
Proof.
  unfold dedup. assert (H : forall l acc : list A, NoDup acc -> NoDup (foldl (fun acc x => if decide (x ∈ acc) then acc else acc ++ [x]) acc l)).
  { clear l. induction l as [|a l IH]; intros acc Hnd; cbn [foldl]; [done|]. apply IH. case_decide; [done|].
    apply NoDup_app. split_and!; [done|set_solver|apply NoDup_singleton]. }
  apply H. constructor.
Qed.

Lemma bucket_count_ge g ts t k :
  t ∈ ts -> stage_key g t.1 = k -> partitions_of g t.1 <= bucket_count g ts k.
Proof.
  intros Ht Hk. unfold bucket_count. apply max_list_with_ge. apply elem_of_list_filter. split; [done|].
  apply dedup_elem, elem_of_map_iff. eauto.
Qed.

Lemma bucket_of_lt g n t : t.2 < partitions_of g t.1 -> 0 < n -> bucket_of g n t < n.
Proof.
  intros Hp Hn. unfold bucket_of. apply Nat.div_lt_upper_bound; [lia|]. nia.
Qed.

Lemma bucket_of_inj g n t t' :
  t.1 = t'.1 -> t.2 < partitions_of g t.1 -> t'.2 < partitions_of g t.1 ->
  partitions_of g t.1 <= n -> bucket_of g n t = bucket_of g n t' -> t = t'.
Proof.
  intros Hs Hp Hp' Hn. unfold bucket_of. rewrite <- Hs. set (q := partitions_of g t.1) in *.
  intros Heq. destruct t as [s p], t' as [s' p']; simpl in *. subst s'. f_equal.
  assert (forall x y, x < y -> x * n / q < y * n / q) as Hmono.
  { intros x y Hxy. assert ((x * n + 1 * q) / q <= y * n / q) as H by (apply Nat.div_le_mono; nia).
    rewrite Nat.div_add in H by lia. lia. }
  destruct (Nat.lt_trichotomy p p') as [H|[H|H]]; [|done|]; apply Hmono in H; lia.
Qed.

Lemma is_task_partitions_of g t : is_task g t -> t.2 < partitions_of g t.1.
Proof. intros (st & Hst & Hp). unfold partitions_of. by rewrite Hst. Qed.

Lemma bucket_of_bound g ts t :
  t ∈ ts -> is_task g t ->
  bucket_of g (bucket_count g ts (stage_key g t.1)) t < bucket_count g ts (stage_key g t.1).
Proof.
  intros Ht Hp%is_task_partitions_of. apply bucket_of_lt; [done|].
  pose proof (bucket_count_ge g ts t _ Ht eq_refl). lia.
Qed.

Lemma build_task_region_elem j ts p es :
  (p, es) ∈ build_task_region j ts <->
  exists k b, k ∈ dedup (map (stage_key (jb_graph j)) (dedup (map fst ts))) /\
    b < bucket_count (jb_graph j) ts k /\ p = k.1 /\
    es = bucket_entries j ts k (bucket_count (jb_graph j) ts k) b.
Proof.
  unfold build_task_region. rewrite elem_of_flat_map. split.
  - intros (k & Hk & H). apply elem_of_map_iff in H as (b & [= -> ->] & Hb).
    apply elem_of_seq_iff in Hb. exists k, b. split_and!; try done. lia.
  - intros (k & b & Hk & Hb & -> & ->). exists k. split; [done|]. apply elem_of_map_iff.
    exists b. split; [done|]. apply elem_of_seq_iff. lia.
Qed.

(** The task sets of a region hold each of its tasks, with its newest attempt. *)
Lemma region_entries j ts p es key m :
  (forall t, t ∈ ts -> is_task (jb_graph j) t) ->
  ((p, es) ∈ build_task_region j ts /\ (key, m) ∈ es) ->
  exists t, t ∈ ts /\ key = TaskKey t.1 t.2 (length (attempts j t) - 1) /\ attempts j t <> [] /\
    m = stage_mode (jb_graph j) t.1 /\ p = (stage_key (jb_graph j) t.1).1.
Proof.
  intros Htasks [H1 H2]. apply build_task_region_elem in H1 as (k & b & Hk & Hb & -> & ->).
  apply bucket_entries_elem in H2 as (t & Ht & <- & Hb' & -> & Hne & ->). eauto 10.
Qed.

Lemma region_keys_elem j ts key :
  (forall t, t ∈ ts -> is_task (jb_graph j) t) ->
  key ∈ region_keys (build_task_region j ts) <->
  exists t, t ∈ ts /\ attempts j t <> [] /\ key = TaskKey t.1 t.2 (length (attempts j t) - 1).
Proof.
  intros Htasks. unfold region_keys, set_keys. rewrite elem_of_flat_map. split.
  - intros ([p es] & Hp & Hk). simpl in Hk. apply elem_of_map_iff in Hk as ([key' m] & -> & Hin). simpl.
    destruct (region_entries j ts p es key' m Htasks (conj Hp Hin)) as (t & Ht & -> & Hne & _). eauto.
  - intros (t & Ht & Hne & ->). set (g := jb_graph j) in *.
    set (k := stage_key g t.1). set (n := bucket_count g ts k).
    exists (k.1, bucket_entries j ts k n (bucket_of g n t)). split.
    + apply build_task_region_elem. exists k, (bucket_of g n t). split_and!; try done.
      * apply dedup_elem, elem_of_map_iff. exists t.1. split; [done|]. apply dedup_elem, elem_of_map_iff. eauto.
      * apply bucket_of_bound; auto.
    + simpl. apply elem_of_map_iff. exists (TaskKey t.1 t.2 (length (attempts j t) - 1), stage_mode g t.1).
      split; [done|]. apply bucket_entries_elem. eauto 10.
Qed.

(** Two tasks of one stage never share a task set. *)
Lemma region_set_stages j ts p es k1 k2 m1 m2 :
  (forall t, t ∈ ts -> is_task (jb_graph j) t) ->
  (p, es) ∈ build_task_region j ts -> (k1, m1) ∈ es -> (k2, m2) ∈ es ->
  tk_stage k1 = tk_stage k2 -> k1 = k2.
Proof.
  intros Htasks Hin H1 H2 Hs. apply build_task_region_elem in Hin as (k & b & Hk & Hb & -> & ->).
  apply bucket_entries_elem in H1 as (t1 & Ht1 & Hk1 & Hb1 & _ & _ & ->).
  apply bucket_entries_elem in H2 as (t2 & Ht2 & Hk2 & Hb2 & _ & _ & ->). simpl in Hs.
  assert (t1 = t2) as ->; [|done].
  pose proof (is_task_partitions_of _ _ (Htasks t1 Ht1)) as Hp1.
  pose proof (is_task_partitions_of _ _ (Htasks t2 Ht2)) as Hp2. rewrite <- Hs in Hp2.
  eapply (bucket_of_inj (jb_graph j)); [exact Hs|exact Hp1|exact Hp2| |].
  - exact (bucket_count_ge (jb_graph j) ts t1 k Ht1 Hk1).
  - congruence.
Qed.

(** Tasks in one task set share the slot-sharing group and the placement. *)
Lemma region_set_group j ts p es k1 k2 m1 m2 :
  (p, es) ∈ build_task_region j ts -> (k1, m1) ∈ es -> (k2, m2) ∈ es ->
  stage_key (jb_graph j) (tk_stage k1) = stage_key (jb_graph j) (tk_stage k2).
Proof.
  intros Hin H1 H2. apply build_task_region_elem in Hin as (k & b & Hk & Hb & -> & ->).
  apply bucket_entries_elem in H1 as (t1 & Ht1 & Hk1 & Hb1 & _ & _ & ->).
  apply bucket_entries_elem in H2 as (t2 & Ht2 & Hk2 & Hb2 & _ & _ & ->). simpl. congruence.
Qed.

Lemma NoDup_omap {A B} (f : A -> option B) (l : list A) :
  (forall x y z, x ∈ l -> y ∈ l -> f x = Some z -> f y = Some z -> x = y) -> NoDup l -> NoDup (omap f l).
Proof.
  induction l as [|a l IH]; intros Hinj Hnd; [constructor|].
  apply NoDup_cons in Hnd as [Hni Hnd]. csimpl.
  assert (NoDup (omap f l)) by (apply IH; [|done]; intros x y z Hx Hy; apply Hinj; set_solver).
  destruct (f a) as [b|] eqn:E; [|done]. constructor; [|done].
  intros Hb. apply elem_of_list_omap in Hb as (x & Hx & Hfx).
  assert (a = x) as -> by (eapply Hinj; eauto; set_solver). done.
Qed.

Lemma region_keys_NoDup j ts : NoDup ts -> NoDup (region_keys (build_task_region j ts)).
Proof.
  intros Hnd. unfold region_keys, build_task_region. set (g := jb_graph j).
  assert (Hflat : forall {A B C} (f : A -> list B) (h : B -> list C) l,
    flat_map h (flat_map f l) = flat_map (fun x => flat_map h (f x)) l).
  { intros A B C f h. induction l as [|a l IH]; simpl; [done|]. by rewrite flat_map_app, IH. }
  rewrite Hflat. apply NoDup_flat_map; [apply dedup_NoDup| |].
  - intros k _. rewrite flat_map_concat_map, map_map, <- flat_map_concat_map. simpl.
    apply NoDup_flat_map; [apply NoDup_seq| |].
    + intros b _. unfold set_keys, bucket_entries.
      assert (Hom : forall {A B C} (f : A -> option B) (h : B -> C) (l : list A),
        map h (omap f l) = omap (fun x => h <$> f x) l).
      { intros A B C f h. induction l as [|a l IH]; [done|]. csimpl. destruct (f a); csimpl; by rewrite IH. }
      rewrite Hom. apply NoDup_omap; [|done]. intros t1 t2 z _ _ H1 H2.
      apply fmap_Some in H1 as ([k1 m1] & H1 & ->). apply fmap_Some in H2 as ([k2 m2] & H2 & Heq).
      simpl in Heq. subst k2. case_decide; [|done]. case_decide; [|done].
      apply fmap_Some in H1 as (a1 & _ & [= -> ->]). apply fmap_Some in H2 as (a2 & _ & [= H2 H3 _]).
      destruct t1, t2; simpl in *; congruence.
    + intros b1 b2 z _ _ H1 H2. unfold set_keys in *.
      apply elem_of_map_iff in H1 as ([k1 m1] & -> & H1). apply elem_of_map_iff in H2 as ([k2 m2] & Heq & H2).
      simpl in Heq. subst k2.
      apply bucket_entries_elem in H1 as (t1 & _ & _ & <- & _ & _ & ->).
      apply bucket_entries_elem in H2 as (t2 & _ & _ & <- & _ & _ & [= H2 H3 _]).
      f_equal. destruct t1, t2; simpl in *; congruence.
  - intros kx ky z _ _ H1 H2. apply elem_of_flat_map in H1 as ([p1 es1] & H1 & Hz1).
    apply elem_of_flat_map in H2 as ([p2 es2] & H2 & Hz2).
    apply elem_of_map_iff in H1 as (b1 & [= -> ->] & _). apply elem_of_map_iff in H2 as (b2 & [= -> ->] & _).
    unfold set_keys in *. simpl in *.
    apply elem_of_map_iff in Hz1 as ([k1 m1] & -> & H1). apply elem_of_map_iff in Hz2 as ([k2 m2] & Heq & H2).
    simpl in Heq. subst k2.
    apply bucket_entries_elem in H1 as (t1 & _ & <- & _ & _ & _ & ->).
    apply bucket_entries_elem in H2 as (t2 & _ & <- & _ & _ & _ & [= H2 H3 _]). by rewrite H2.
Qed.

(** * Launching *)

Lemma no_schedule_before g j tr : wf_job g j -> ScheduleTaskRegion tr ∈ prepare_actions j -> False.
Proof.
  intros Hwf. unfold prepare_actions. rewrite !elem_of_app.
  assert (Hnot_ext : forall l acc, ScheduleTaskRegion tr ∈ (foldl extend_one acc l).2 -> ScheduleTaskRegion tr ∈ acc.2).
  { induction l as [|[t ch] l IH]; intros [j' acts]; cbn [foldl]; [done|]. intros H. apply IH in H.
    revert H. simpl. destruct (last (attempts j' t)); [|done]. destruct (_ && _); [|done]. simpl.
    intros [?|H]%elem_of_app; [done|]. apply elem_of_map_iff in H as (? & ? & ?). done. }
  assert (Hnot_clean : forall l acc, ScheduleTaskRegion tr ∈ (foldl clean_up_stage acc l).2 -> ScheduleTaskRegion tr ∈ acc.2).
  { induction l as [|s l IH]; intros [j' acts]; cbn [foldl]; [done|]. intros H. apply IH in H.
    revert H. simpl. destruct (_ && _); [|done]. simpl. intros [?|H]%elem_of_app; [done|]. set_solver. }
  intros [Hc|[Hp|Hp]].
  - destruct (cascade_spec g j Hwf) as (_ & _ & _ & Hacts). apply Hacts in Hc as (r & rt & Hr & Hf & Hc).
    apply elem_of_flat_map in Hc as (t' & Ht' & Hc). apply elem_of_flat_map in Hc as ([i a] & Hi & Hc).
    simpl in Hc. destruct (is_terminal (at_state a)) eqn:E; set_solver.
  - unfold extend_job_output in Hp. destruct (jb_state (cascade_cancel j).1); try set_solver.
    apply Hnot_ext in Hp. set_solver.
  - unfold clean_up_by_stage in Hp. apply Hnot_clean in Hp. set_solver.
Qed.

Lemma refresh_launch max g j tr :
  job_inv max g j -> ScheduleTaskRegion tr ∈ (refresh_job max j).2 ->
  let j3 := refresh_prepare j in
  let j' := (refresh_job max j).1 in
  jb_state j = JRunning /\ job_inv max g j3 /\
  exists r rt, tp_regions (jb_topo j) !! r = Some rt /\
    region_ready (update_task_regions max j3) r rt = true /\
    tr = build_task_region j' (rt_tasks rt) /\
    (forall t, t ∈ rt_tasks rt -> attempts j' t = push_created (attempts j3 t)).
Proof.
  intros Hinv Hin. pose proof (ji_wf _ _ _ Hinv) as Hwf.
  destruct (decide (jb_state j = JRunning)) as [Hst|Hst].
  2:{ exfalso. unfold refresh_job in Hin. destruct (jb_state j); set_solver. }
  pose proof (prepare_in_place g j Hwf) as Hip. pose proof (prepare_state g j Hwf) as Hs3.
  simpl. split; [done|].
  assert (Hinv3 : job_inv max g (refresh_prepare j)) by exact (inv_in_place max g j _ Hip (or_introl Hs3) Hinv).
  split; [done|]. pose proof (ji_wf _ _ _ Hinv3) as Hwf3.
  destruct (refresh_cases max g j Hwf Hst) as [(_ & _ & _ & Hac)|[(_ & _ & _ & Hac)|(Hrun & _ & _ & Hres)]].
  - rewrite Hac in Hin. apply elem_of_app in Hin as [Hin|Hin]; [by apply (no_schedule_before g) in Hin|set_solver].
  - rewrite Hac in Hin. by apply (no_schedule_before g) in Hin.
  - set (j3 := refresh_prepare j) in *. rewrite Hres in Hin |- *. simpl in Hin |- *.
    apply elem_of_app in Hin as [Hin|Hin]; [by apply (no_schedule_before g) in Hin|].
    assert (Hwf4 : wf_job g (update_task_regions max j3)) by by destruct Hwf3.
    destruct (schedule_spec g _ Hwf4) as (_ & _ & Hatt & Hacts).
    apply Hacts in Hin as (r & rt & Hr & Hready & [= ->]).
    exists r, rt. split; [by rewrite <- (ip_topo _ _ Hip)|]. split; [done|]. split; [done|].
    intros t Ht. rewrite (Hatt r rt t Hr Ht), Hready. done.
Qed.

Lemma launch_exact max g j tr :
  reachable max g j -> ScheduleTaskRegion tr ∈ (refresh_job max j).2 ->
  exists rt, rt ∈ tp_regions (jb_topo j) /\
    NoDup (region_keys tr) /\
    (forall k, k ∈ region_keys tr <->
       exists t, t ∈ rt_tasks rt /\ k = TaskKey t.1 t.2 (length (attempts j t))) /\
    (forall t, t ∈ rt_tasks rt -> newest (refresh_job max j).1 t TCreated).
Proof.
  intros Hreach Hin. apply reachable_inv in Hreach as Hinv. pose proof (ji_wf _ _ _ Hinv) as Hwf.
  destruct (refresh_launch max g j tr Hinv Hin) as (Hst & Hinv3 & r & rt & Hr & Hready & -> & Hatt).
  pose proof (prepare_in_place g j Hwf) as Hip.
  exists rt. split; [by eapply elem_of_list_lookup_2|].
  assert (Hwf' : wf_job g (refresh_job max j).1) by apply (inv_refresh max g j Hinv).
  assert (Htasks : forall t, t ∈ rt_tasks rt -> is_task (jb_graph (refresh_job max j).1) t).
  { intros t Ht. rewrite (wf_graph _ _ Hwf'). by eapply (wf_region_task g j). }
  split_and!.
  - apply region_keys_NoDup.
    destruct (topology_partition g (jb_topo j) (wf_topo _ _ Hwf)) as [Hnd _].
    apply NoDup_concat_iff in Hnd as [Hnd _]. apply Hnd. apply elem_of_map_iff.
    exists rt. split; [done|by eapply elem_of_list_lookup_2].
  - intros k. rewrite region_keys_elem by done. split.
    + intros (t & Ht & Hne & ->). exists t. split; [done|]. f_equal.
      rewrite (Hatt t Ht). unfold push_created. rewrite app_length. simpl.
      rewrite (in_place_length j (refresh_prepare j)) by done. lia.
    + intros (t & Ht & ->). exists t. split; [done|]. rewrite (Hatt t Ht). unfold push_created. split.
      * by destruct (attempts (refresh_prepare j) t).
      * rewrite app_length. simpl. rewrite (in_place_length j (refresh_prepare j)) by done. f_equal. lia.
  - intros t Ht. unfold newest. rewrite (Hatt t Ht). eexists _, _. done.
Qed.

Lemma launch_sets max g j tr p es k1 m1 :
  reachable max g j -> ScheduleTaskRegion tr ∈ (refresh_job max j).2 -> (p, es) ∈ tr -> (k1, m1) ∈ es ->
  (exists st, g !! tk_stage k1 = Some st /\ p = st_placement st /\ m1 = st_mode st) /\
  (forall k2 m2, (k2, m2) ∈ es ->
     (tk_stage k1 = tk_stage k2 -> k1 = k2) /\
     (forall st1 st2, g !! tk_stage k1 = Some st1 -> g !! tk_stage k2 = Some st2 -> st_group st1 = st_group st2)).
Proof.
  intros Hreach Hin Hp H1. apply reachable_inv in Hreach as Hinv. pose proof (ji_wf _ _ _ Hinv) as Hwf.
  destruct (refresh_launch max g j tr Hinv Hin) as (Hst & Hinv3 & r & rt & Hr & Hready & -> & Hatt).
  assert (Hwf' : wf_job g (refresh_job max j).1) by apply (inv_refresh max g j Hinv).
  assert (Htasks : forall t, t ∈ rt_tasks rt -> is_task (jb_graph (refresh_job max j).1) t).
  { intros t Ht. rewrite (wf_graph _ _ Hwf'). by eapply (wf_region_task g j). }
  split.
  - destruct (region_entries _ _ p es k1 m1 Htasks (conj Hp H1)) as (t & Ht & -> & _ & -> & ->).
    rewrite (wf_graph _ _ Hwf') in *. destruct (Htasks t Ht) as (st & Hst' & _).
    exists st. simpl. unfold stage_mode, stage_key. rewrite Hst'. done.
  - intros k2 m2 H2. split.
    + by apply (region_set_stages _ _ p es k1 k2 m1 m2 Htasks Hp).
    + intros st1 st2 Hs1 Hs2. pose proof (region_set_group _ _ p es k1 k2 m1 m2 Hp H1 H2) as Hg.
      rewrite (wf_graph _ _ Hwf') in Hg. unfold stage_key in Hg. rewrite Hs1, Hs2 in Hg. congruence.
Qed.

Lemma launches_region max g j k :
  reachable max g j -> launches (refresh_job max j).2 k ->
  exists r rt, tp_regions (jb_topo j) !! r = Some rt /\ (tk_stage k, tk_partition k) ∈ rt_tasks rt /\
    tk_attempt k = length (attempts j (tk_stage k, tk_partition k)) /\
    forall t, t ∈ rt_tasks rt -> launches (refresh_job max j).2 (TaskKey t.1 t.2 (length (attempts j t))).
Proof.
  intros Hreach (tr & p & es & m & Hin & Hp & Hk).
  destruct (launch_exact max g j tr Hreach Hin) as (rt & Hrt & _ & Hkeys & _).
  apply elem_of_list_lookup in Hrt as [r Hr]. exists r, rt. split; [done|].
  assert (k ∈ region_keys tr) as Hk'.
  { apply elem_of_flat_map. exists (p, es). split; [done|]. apply elem_of_map_iff. by exists (k, m). }
  apply Hkeys in Hk' as ([s q] & Ht & ->). simpl. split_and!; [done|done|].
  intros t Ht'. assert (TaskKey t.1 t.2 (length (attempts j t)) ∈ region_keys tr) as H by (apply Hkeys; eauto).
  apply elem_of_flat_map in H as ([p' es'] & Hp' & H). apply elem_of_map_iff in H as ([k' m'] & Heq & H).
  simpl in Heq. subst k'. exists tr, p', es', m'. done.
Qed.

(** Inputs of a launched task have succeeded, or are launched with it. *)
Lemma launch_inputs max g j k t' :
  reachable max g j -> launches (refresh_job max j).2 k ->
  reads g (tk_stage k, tk_partition k) t' ->
  newest j t' TSucceeded \/
  (together j (tk_stage k, tk_partition k) t' /\
   launches (refresh_job max j).2 (TaskKey t'.1 t'.2 (length (attempts j t')))).
Proof.
  intros Hreach Hl Hr. apply reachable_inv in Hreach as Hinv. pose proof (ji_wf _ _ _ Hinv) as Hwf.
  destruct (launches_region max g j k Hreach Hl) as (r & rt & Hrt & Ht & Hatt & Hall).
  destruct (decide (t' ∈ rt_tasks rt)) as [Hin|Hni].
  - right. split; [|by apply Hall]. exists rt. split; [by eapply elem_of_list_lookup_2|done].
  - left. destruct Hl as (tr & p & es & m & Htr & Hp & Hk).
    destruct (refresh_launch max g j tr Hinv Htr) as (Hst & Hinv3 & r1 & rt1 & Hr1 & Hready & -> & Hatt1).
    assert (Hwf' : wf_job g (refresh_job max j).1) by apply (inv_refresh max g j Hinv).
    destruct (region_entries (refresh_job max j).1 (rt_tasks rt1) p es k m) as (t1 & Ht1 & -> & _).
    { intros t Ht2. rewrite (wf_graph _ _ Hwf'). by eapply (wf_region_task g j). }
    { done. }
    destruct t1 as [s1 q1]; simpl in *.
    destruct (wf_region_unique g j r r1 rt rt1 (s1, q1)) as [<- <-]; try done.
    pose proof (prepare_in_place g j Hwf) as Hip.
    assert (Hr3 : tp_regions (jb_topo (refresh_prepare j)) !! r = Some rt) by by rewrite (ip_topo _ _ Hip).
    apply (region_ready_spec max _ r rt Hr3) in Hready as (_ & Hd & _).
    assert (Htask : is_task g t') by by destruct Hr as (? & ? & ? & ?).
    destruct (wf_task_region g j t' Hwf Htask) as (d & rt' & Hd' & Hin').
    destruct (Hd d) as (rt2 & Hrt2 & Hs).
    { apply (topology_deps g (jb_topo j) r rt d (wf_topo _ _ Hwf) Hrt). split.
      - intros ->. simplify_eq. done.
      - exists rt', (s1, q1), t'. done. }
    rewrite (ip_topo _ _ Hip) in Hrt2. simplify_eq.
    apply last_state_newest. apply (prepare_succeeded g j t' Hwf). by apply Hs.
Qed.

Lemma launch_blocking_inputs max g j k t' :
  reachable max g j -> topological g -> planner_shaped g -> launches (refresh_job max j).2 k ->
  reads g (tk_stage k, tk_partition k) t' -> blocking g t'.1 -> newest j t' TSucceeded.
Proof.
  intros Hreach Htop Hsh Hl Hr Hb. apply reachable_inv in Hreach as Hinv. pose proof (ji_wf _ _ _ Hinv) as Hwf.
  destruct (launch_inputs max g j k t' Hreach Hl Hr) as [|[(rt & Hin & Ht & Ht') _]]; [done|].
  exfalso. exact (topology_blocking g (jb_topo j) rt _ t' (wf_topo _ _ Hwf) Htop Hsh Hin Ht Hr Hb Ht').

Qed.

(** No attempt of the region is live when a new one is launched. *)
Lemma launch_after_end max g j k t i a :
  reachable max g j -> launches (refresh_job max j).2 k ->
  together j (tk_stage k, tk_partition k) t ->
  attempts (refresh_job max j).1 t !! i = Some a -> i < length (attempts j t) -> ~ live a.
Proof.
  intros Hreach Hl Htog Hi Hlt. apply reachable_inv in Hreach as Hinv. pose proof (ji_wf _ _ _ Hinv) as Hwf.
  destruct (launches_region max g j k Hreach Hl) as (r & rt & Hrt & Ht & Hatt & Hall).
  apply (together_region g j r rt _ t Hwf Hrt Ht) in Htog.
  pose proof (Hall t Htog) as (tr & p & es & m & Htr & Hp & Hk).
  destruct (launch_exact max g j tr Hreach Htr) as (rt1 & Hrt1 & _ & Hkeys & Hnew).
  assert (Htr1 : t ∈ rt_tasks rt1).
  { assert (TaskKey t.1 t.2 (length (attempts j t)) ∈ region_keys tr) as H.
    { apply elem_of_flat_map. exists (p, es). split; [done|]. apply elem_of_map_iff. by exists (TaskKey t.1 t.2 (length (attempts j t)), m). }
    apply Hkeys in H as ([s q] & H & Heq). destruct t; simpl in *. congruence. }
  pose proof (ji_old _ _ _ (inv_refresh max g j Hinv) t i a Hi) as Hold.
  rewrite live_not_terminal. rewrite Hold; [done|].
  destruct (refresh_launch max g j tr Hinv Htr) as (_ & _ & r2 & rt2 & Hr2 & _ & -> & Hatt2).
  assert (t ∈ rt_tasks rt2).
  { assert (Hwf' : wf_job g (refresh_job max j).1) by apply (inv_refresh max g j Hinv).
    destruct (region_entries (refresh_job max j).1 (rt_tasks rt2) p es
      (TaskKey t.1 t.2 (length (attempts j t))) m) as (t1 & Ht1 & Heq & _).
    { intros t2 Ht2. rewrite (wf_graph _ _ Hwf'). by eapply (wf_region_task g j). }
    { done. }
    injection Heq as H1 H2 _. destruct t, t1; simpl in *; congruence. }
  rewrite (Hatt2 t) by done. unfold push_created. rewrite app_length. simpl.
  rewrite (in_place_length j (refresh_prepare j)) by by eapply prepare_in_place. lia.
Qed.

(** * Progress *)

Lemma progress max g j :
  reachable max g j -> topological g -> planner_shaped g ->
  jb_state (refresh_job max j).1 = JRunning ->
  exists t, has_live_attempt (refresh_job max j).1 t.
Proof.
  intros Hreach Htop Hsh Hrun'. apply reachable_inv in Hreach as Hinv. pose proof (ji_wf _ _ _ Hinv) as Hwf.
  destruct (decide (jb_state j = JRunning)) as [Hst|Hst].
  2:{ exfalso. apply Hst. revert Hrun'. unfold refresh_job. destruct (jb_state j) eqn:E; simpl; congruence. }
  pose proof (prepare_in_place g j Hwf) as Hip. pose proof (prepare_state g j Hwf) as Hs3.
  assert (Hinv3 : job_inv max g (refresh_prepare j)) by exact (inv_in_place max g j _ Hip (or_introl Hs3) Hinv).
  pose proof (ji_wf _ _ _ Hinv3) as Hwf3.
  destruct (refresh_cases max g j Hwf Hst) as [(H & _)|[(H & _)|(_ & (t & Ht & Hns) & _ & Hres)]];
    [congruence|congruence|]. rewrite Hres. simpl.
  set (j3 := refresh_prepare j) in *.
  assert (Hwf4 : wf_job g (update_task_regions max j3)) by by destruct Hwf3.
  destruct (schedule_spec g _ Hwf4) as (_ & _ & Hatt & _).
  change (jb_topo (update_task_regions max j3)) with (jb_topo j3) in Hatt.
  (* a region of least rank among the unfinished ones *)
  assert (Hleast : forall n r rt t, region_rank (rt_tasks rt) <= n -> tp_regions (jb_topo j3) !! r = Some rt ->
    t ∈ rt_tasks rt -> last_state j3 t <> Some TSucceeded ->
    exists r rt t, tp_regions (jb_topo j3) !! r = Some rt /\ t ∈ rt_tasks rt /\ last_state j3 t <> Some TSucceeded /\
      forall d, d ∈ rt_deps rt -> exists rt', tp_regions (jb_topo j3) !! d = Some rt' /\
        forall t', t' ∈ rt_tasks rt' -> last_state j3 t' = Some TSucceeded).
  { induction n as [n IH] using lt_wf_ind. intros r rt t0 Hn Hr Ht0 Hne.
    destruct (decide (Exists (fun d => Exists (fun rt' => Exists (fun t' => last_state j3 t' <> Some TSucceeded) (rt_tasks rt'))
      (option_list (tp_regions (jb_topo j3) !! d))) (rt_deps rt))) as [HE|HE].
    - apply Exists_exists in HE as (d & Hd & HE). apply Exists_exists in HE as (rt' & Hrt' & HE).
      apply Exists_exists in HE as (t' & Ht' & Hne').
      destruct (tp_regions (jb_topo j3) !! d) as [rt1|] eqn:Ed; [|by apply elem_of_nil in Hrt'].
      simpl in Hrt'. apply elem_of_list_singleton in Hrt' as ->.
      pose proof (topology_rank g (jb_topo j3) r rt d rt1 (wf_topo _ _ Hwf3) Htop Hsh Hr Ed Hd) as Hlt.
      apply (IH (region_rank (rt_tasks rt1)) ltac:(lia) d rt1 t'); done.
    - exists r, rt, t0. split_and!; try done. intros d Hd.
      destruct (topology_deps g (jb_topo j3) r rt d (wf_topo _ _ Hwf3) Hr) as [Hd1 _].
      destruct (Hd1 Hd) as (_ & rt' & t1 & t2 & Hrt' & _). exists rt'. split; [done|].
      intros t' Ht'. destruct (decide (last_state j3 t' = Some TSucceeded)) as [|Hx]; [done|]. exfalso.
      apply HE, Exists_exists. exists d. split; [done|]. rewrite Hrt'. simpl.
      apply Exists_exists. exists rt'. split; [by apply elem_of_list_singleton|].
      apply Exists_exists. eauto. }
  destruct (wf_task_region g j3 t Hwf3 Ht) as (r0 & rt0 & Hr0 & Hin0).
  destruct (Hleast _ r0 rt0 t (le_n _) Hr0 Hin0 Hns) as (r & rt & t1 & Hr & Ht1 & Hn1 & Hdeps).
  destruct (region_ready (update_task_regions max j3) r rt) eqn:Eready.
  - exists t1. exists (Attempt TCreated None false). split; [|by left].
    rewrite (Hatt r rt t1 Hr Ht1), Eready. unfold push_created. apply elem_of_app. right. left.
  - assert (exists t' s, t' ∈ rt_tasks rt /\ last_state j3 t' = Some s /\ is_terminal s = false) as (t' & s & Ht' & Hs & Hlive).
    { destruct (decide (Exists (fun t' => (is_terminal <$> last_state j3 t') = Some false) (rt_tasks rt))) as [HE|HE].
      - apply Exists_exists in HE as (t' & Ht' & H). apply fmap_Some in H as (s & H1 & H2). eauto 10.
      - exfalso. apply not_true_iff_false in Eready. apply Eready.
        apply (region_ready_spec max j3 r rt Hr). split_and!.
        + intros Hall. apply Hn1. auto.
        + done.
        + intros t' s Ht' Hs. destruct (is_terminal s) eqn:E; [done|]. exfalso. apply HE.
          apply Exists_exists. exists t'. split; [done|]. rewrite Hs. simpl. by rewrite E. }
    unfold last_state in Hs. apply fmap_Some in Hs as (a & Ha & ->).
    exists t', a. split; [|by apply live_not_terminal].
    rewrite (Hatt r rt t' Hr Ht'), Eready. apply last_Some in Ha as [l Hl].
    change (attempts (update_task_regions max j3) t') with (attempts j3 t'). rewrite Hl. apply elem_of_app. right. left.
Qed.

(** * Removing intermediate data *)

Lemma stage_succeeded_spec g j c :
  wf_job g j -> stage_succeeded j c = true <-> forall p, is_task g (c, p) -> last_state j (c, p) = Some TSucceeded.
Proof.
  intros Hwf. unfold stage_succeeded. rewrite (wf_graph _ _ Hwf), forallb_elem.
  setoid_rewrite bool_decide_eq_true. split.
  - intros H p Hp. apply H. apply is_task_partitions_of in Hp. simpl in Hp. apply elem_of_seq_iff. lia.
  - intros H p Hp. apply H. apply elem_of_seq_iff in Hp. unfold partitions_of in Hp.
    destruct (g !! c) as [st|] eqn:E; [|lia]. exists st. split; [done|]. simpl. lia.
Qed.

Lemma elem_of_consumers g s c : c ∈ consumers g s <-> exists m, feeds g s m c.
Proof.
  unfold consumers. rewrite elem_of_flat_map. split.
  - intros ([c' inp] & He & H). simpl in H. case_decide as Hs; [|set_solver].
    apply elem_of_list_singleton in H as ->. apply elem_of_edges in He as (st & Hst & Hin).
    exists (in_mode inp), st. split; [done|]. destruct inp; simpl in *; congruence.
  - intros (m & st & Hst & Hin). exists (c, StageInput s m). split.
    + apply elem_of_edges. eauto.
    + simpl. rewrite decide_True by done. by apply elem_of_list_singleton.
Qed.

Definition removable (j : job) (s : nat) : Prop :=
  consumers (jb_graph j) s <> [] /\ forall c, c ∈ consumers (jb_graph j) s -> stage_succeeded j c = true.

Lemma clean_up_stage_eq j acts s :
  (stage_active j s = true /\ removable j s /\
   clean_up_stage (j, acts) s = (deactivate_stage j s, acts ++ [CleanUpJob (Some s)])) \/
  (~ (stage_active j s = true /\ removable j s) /\ clean_up_stage (j, acts) s = (j, acts)).
Proof.
  unfold clean_up_stage. destruct (_ && _) eqn:E.
  - left. apply andb_true_iff in E as [E E3]. apply andb_true_iff in E as [E1 E2].
    rewrite forallb_elem in E2. apply negb_true_iff, bool_decide_eq_false in E3. done.
  - right. split; [|done]. intros (H1 & H2 & H3). apply not_true_iff_false in E. apply E.
    rewrite !andb_true_iff. split_and!; [done|by apply forallb_elem|].
    by apply negb_true_iff, bool_decide_eq_false.
Qed.

Lemma stage_active_deactivate j s s' :
  stage_active (deactivate_stage j s) s' = if decide (s = s') then false else stage_active j s'.
Proof.
  unfold stage_active, deactivate_stage. simpl. case_decide as H.
  - subst. rewrite list_lookup_alter. by destruct (jb_stages j !! s').
  - by rewrite list_lookup_alter_ne.
Qed.

Lemma stage_succeeded_deactivate j s c : stage_succeeded (deactivate_stage j s) c = stage_succeeded j c.
Proof.
  unfold stage_succeeded. simpl. apply forallb_ext_elem. intros p _. unfold last_state.
  by rewrite attempts_deactivate.
Qed.
Lemma removable_deactivate j s s' : removable (deactivate_stage j s) s' <-> removable j s'.
Proof. unfold removable. simpl. by setoid_rewrite stage_succeeded_deactivate. Qed.

Lemma removals_app l l' : removals (l ++ l') = removals l ++ removals l'.
Proof. apply omap_app. Qed.
Lemma elem_of_removals acts s : s ∈ removals acts <-> CleanUpJob (Some s) ∈ acts.
Proof.
  unfold removals. rewrite elem_of_list_omap. split.
  - intros (a & Ha & H). destruct a as [| | | |[s'|]]; simplify_eq. done.
  - intros H. exists (CleanUpJob (Some s)). done.
Qed.

Lemma clean_fold l j acts :
  NoDup l ->
  let res := foldl clean_up_stage (j, acts) l in
  (forall s, CleanUpJob (Some s) ∈ res.2 <->
     CleanUpJob (Some s) ∈ acts \/ (s ∈ l /\ stage_active j s = true /\ removable j s)).
Proof.
  revert j acts. induction l as [|x l IH]; intros j acts Hnd res s; unfold res; clear res; cbn [foldl]; [set_solver|].
  apply NoDup_cons in Hnd as [Hni Hnd].
  destruct (clean_up_stage_eq j acts x) as [(H1 & H2 & ->)|(H1 & ->)].
  - rewrite IH by done. rewrite removable_deactivate, stage_active_deactivate, elem_of_app, elem_of_list_singleton.
    rewrite elem_of_cons. split.
    + intros [[?|[= ->]]|(? & ? & ?)]; auto. right. case_decide; [done|]. auto.
    + intros [?|([->|?] & ? & ?)]; auto. right. rewrite decide_False by set_solver. auto.
  - rewrite IH by done. rewrite elem_of_cons. split; [naive_solver|].
    intros [?|([->|?] & ? & ?)]; auto. exfalso; auto.
Qed.

Lemma prepare_actions_removal g j s :
  wf_job g j -> CleanUpJob (Some s) ∈ prepare_actions j <->
  CleanUpJob (Some s) ∈ (clean_up_by_stage (extend_job_output (cascade_cancel j).1).1).2.
Proof.
  intros Hwf. unfold prepare_actions. rewrite !elem_of_app. split; [|auto].
  assert (Hnot_ext : forall l acc, CleanUpJob (Some s) ∈ (foldl extend_one acc l).2 -> CleanUpJob (Some s) ∈ acc.2).
  { induction l as [|[t ch] l IH]; intros [j' acts]; cbn [foldl]; [done|]. intros H. apply IH in H.
    revert H. simpl. destruct (last (attempts j' t)); [|done]. destruct (_ && _); [|done]. simpl.
    intros [?|H]%elem_of_app; [done|]. apply elem_of_map_iff in H as (? & ? & ?). done. }
  intros [Hc|[Hp|Hp]]; [exfalso|exfalso|done].
  - destruct (cascade_spec g j Hwf) as (_ & _ & _ & Hacts). apply Hacts in Hc as (r & rt & Hr & Hf & Hc).
    apply elem_of_flat_map in Hc as (t' & Ht' & Hc). apply elem_of_flat_map in Hc as ([i a] & Hi & Hc).
    simpl in Hc. destruct (is_terminal (at_state a)) eqn:E; set_solver.
  - unfold extend_job_output in Hp. destruct (jb_state (cascade_cancel j).1); try set_solver.
    apply Hnot_ext in Hp. set_solver.
Qed.

Lemma refresh_removal max g j s :
  wf_job g j -> jb_state j = JRunning ->
  CleanUpJob (Some s) ∈ (refresh_job max j).2 <->
  CleanUpJob (Some s) ∈ (clean_up_by_stage (extend_job_output (cascade_cancel j).1).1).2.
Proof.
  intros Hwf Hst. rewrite <- (prepare_actions_removal g) by done.
  destruct (refresh_cases max g j Hwf Hst) as [(_ & _ & _ & Hac)|[(_ & _ & _ & Hac)|(Hrun & _ & _ & Hres)]].
  - rewrite Hac, elem_of_app. set_solver.
  - by rewrite Hac.
  - rewrite Hres. simpl. rewrite elem_of_app. split; [|auto]. intros [|Hin]; [done|].
    pose proof (in_place_wf _ _ _ (prepare_in_place g j Hwf) Hwf) as Hwf3.
    assert (Hwf4 : wf_job g (update_task_regions max (refresh_prepare j))) by by destruct Hwf3.
    destruct (schedule_spec g _ Hwf4) as (_ & _ & _ & Hs). apply Hs in Hin as (? & ? & ? & ? & ?). done.
Qed.

Lemma extend_active j s : stage_active (extend_job_output j).1 s = stage_active j s.
Proof.
  assert (H : forall l acc, stage_active (foldl extend_one acc l).1 s = stage_active acc.1 s).
  { induction l as [|[t ch] l IH]; intros [j' acts]; cbn [foldl]; [done|].
    rewrite IH. simpl. destruct (last (attempts j' t)); [|done]. destruct (_ && _); [|done].
    apply stage_active_alter_task. }
  unfold extend_job_output. destruct (jb_state j); try done. apply H.
Qed.

(** When the data of a stage is removed. *)
Lemma removal_iff max g j s :
  wf_job g j -> jb_state j = JRunning ->
  CleanUpJob (Some s) ∈ (refresh_job max j).2 <->
  stage_active j s = true /\ (exists c m, feeds g s m c) /\
  (forall c m p, feeds g s m c -> is_task g (c, p) -> newest j (c, p) TSucceeded).
Proof.
  intros Hwf Hst. rewrite (refresh_removal max g) by done.
  set (j2 := (extend_job_output (cascade_cancel j).1).1).
  destruct (cascade_spec g j Hwf) as (Hf1 & Hact1 & _ & _).
  assert (Hwf2 : wf_job g j2).
  { eapply in_place_wf; [apply extend_in_place|]. by eapply wf_frame. }
  assert (Hact2 : stage_active j2 s = stage_active j s) by (unfold j2; by rewrite extend_active, Hact1).
  unfold clean_up_by_stage. rewrite (clean_fold (seq 0 (length (jb_graph j2))) j2 []) by apply NoDup_seq.
  rewrite Hact2. unfold removable. rewrite (wf_graph _ _ Hwf2).
  assert (Hl : forall t, last_state j2 t = Some TSucceeded <-> last_state j t = Some TSucceeded).
  { intros t. rewrite <- (prepare_succeeded g j t Hwf). rewrite prepare_last. unfold j2.
    by rewrite (same_states_last _ _ _ (extend_states _)). }
  split.
  - intros [|(Hs & Ha & Hne & Hall)]; [set_solver|]. split_and!; [done| |].
    + destruct (consumers g s) as [|c cs] eqn:E; [done|]. assert (c ∈ consumers g s) as Hc by (rewrite E; set_solver).
      apply elem_of_consumers in Hc as [m Hm]. eauto.
    + intros c m p Hfeeds Ht. assert (c ∈ consumers g s) as Hc by (apply elem_of_consumers; eauto).
      specialize (Hall c Hc). rewrite (stage_succeeded_spec g) in Hall by done.
      apply last_state_newest, Hl. by apply Hall.
  - intros (Ha & (c & m & Hfeeds) & Hall). right. split_and!.
    + apply elem_of_seq_iff. split; [lia|]. simpl. unfold stage_active in Ha.
      destruct (jb_stages j !! s) eqn:E; [|done]. apply lookup_lt_Some in E.
      pose proof (f_equal length (wf_shape _ _ Hwf)) as Hlen. unfold shape_of in Hlen.
      rewrite !map_length in Hlen. lia.
    + done.
    + intros Hnil. assert (c ∈ consumers g s) as Hc by (apply elem_of_consumers; eauto).
      rewrite Hnil in Hc. set_solver.
    + intros c' [m' Hc']%elem_of_consumers. apply (stage_succeeded_spec g); [done|].
      intros p Hp. apply Hl, last_state_newest. eauto.
Qed.

(** At most one removal per stage over a whole run. *)
Definition removed_inactive (j : job) (acts : list action) : Prop :=
  NoDup (removals acts) /\ forall s, s ∈ removals acts -> stage_active j s = false.

Lemma removed_clean l j acts :
  removed_inactive j acts -> removed_inactive (foldl clean_up_stage (j, acts) l).1 (foldl clean_up_stage (j, acts) l).2.
Proof.
  revert j acts. induction l as [|x l IH]; intros j acts [Hnd Hin]; cbn [foldl]; [done|].
  destruct (clean_up_stage_eq j acts x) as [(H1 & H2 & ->)|(H1 & ->)]; [|by apply IH].
  apply IH. split; rewrite removals_app.
  - apply NoDup_app. split_and!; [done| |apply NoDup_singleton].
    intros s Hs Hs'. cbn in Hs'. apply elem_of_list_singleton in Hs' as ->. specialize (Hin x Hs). congruence.
  - intros s [Hs|Hs]%elem_of_app; rewrite stage_active_deactivate; case_decide; auto.
    cbn in Hs. apply elem_of_list_singleton in Hs as ->. done.
Qed.

Lemma clean_fold_acts l j acts :
  exists new, (foldl clean_up_stage (j, acts) l).2 = acts ++ new /\
    (foldl clean_up_stage (j, []) l).2 = new /\
    (foldl clean_up_stage (j, acts) l).1 = (foldl clean_up_stage (j, []) l).1.
Proof.
  revert j acts. induction l as [|x l IH]; intros j acts; cbn [foldl]; [exists []; by rewrite app_nil_r|].
  destruct (clean_up_stage_eq j acts x) as [(H1 & H2 & ->)|(H1 & ->)];
  destruct (clean_up_stage_eq j [] x) as [(H3 & H4 & ->)|(H3 & ->)]; try (by exfalso; auto).
  - destruct (IH (deactivate_stage j x) (acts ++ [CleanUpJob (Some x)])) as (n1 & E1 & E2 & E3).
    destruct (IH (deactivate_stage j x) ([] ++ [CleanUpJob (Some x)])) as (n2 & E4 & E5 & E6).
    exists ([CleanUpJob (Some x)] ++ n1). split_and!.
    + by rewrite E1, <- app_assoc.
    + rewrite E4. by rewrite <- E2, <- E5.
    + by rewrite E3, E6.
  - apply IH.
Qed.

Lemma removals_none acts : (forall s, CleanUpJob (Some s) ∉ acts) -> removals acts = [].
Proof.
  intros H. destruct (removals acts) as [|s l] eqn:E; [done|]. exfalso. apply (H s).
  apply elem_of_removals. rewrite E. set_solver.
Qed.

Lemma removals_refresh max g j :
  wf_job g j -> jb_state j = JRunning ->
  removals (refresh_job max j).2 = removals (clean_up_by_stage (extend_job_output (cascade_cancel j).1).1).2.
Proof.
  intros Hwf Hst.
  assert (Hp : removals (prepare_actions j) = removals (clean_up_by_stage (extend_job_output (cascade_cancel j).1).1).2).
  { unfold prepare_actions. rewrite !removals_app.
    assert (Hnot_ext : forall l acc s, CleanUpJob (Some s) ∈ (foldl extend_one acc l).2 -> CleanUpJob (Some s) ∈ acc.2).
    { induction l as [|[t ch] l IH]; intros [j' acts] s; cbn [foldl]; [done|]. intros H. apply IH in H.
      revert H. simpl. destruct (last (attempts j' t)); [|done]. destruct (_ && _); [|done]. simpl.
      intros [?|H]%elem_of_app; [done|]. apply elem_of_map_iff in H as (? & ? & ?). done. }
    rewrite (removals_none (cascade_cancel j).2), (removals_none (extend_job_output (cascade_cancel j).1).2); [done| |].
    - intros s Hp. unfold extend_job_output in Hp. destruct (jb_state (cascade_cancel j).1); try set_solver.
      apply Hnot_ext in Hp. set_solver.
    - intros s Hc.
      destruct (cascade_spec g j Hwf) as (_ & _ & _ & Hacts). apply Hacts in Hc as (r & rt & Hr & Hf & Hc).
      apply elem_of_flat_map in Hc as (t' & Ht' & Hc). apply elem_of_flat_map in Hc as ([i a] & Hi & Hc).
      simpl in Hc. destruct (is_terminal (at_state a)) eqn:E; set_solver. }
  destruct (refresh_cases max g j Hwf Hst) as [(_ & _ & _ & Hac)|[(_ & _ & _ & Hac)|(Hrun & _ & _ & Hres)]].
  - rewrite Hac, removals_app, Hp. apply app_nil_r.
  - by rewrite Hac.
  - rewrite Hres. simpl. rewrite removals_app, Hp.
    rewrite (removals_none (schedule_task_regions _).2); [by rewrite app_nil_r|].
    pose proof (in_place_wf _ _ _ (prepare_in_place g j Hwf) Hwf) as Hwf3.
    assert (Hwf4 : wf_job g (update_task_regions max (refresh_prepare j))) by by destruct Hwf3.
    destruct (schedule_spec g _ Hwf4) as (_ & _ & _ & Hs). intros s Hin. apply Hs in Hin as (? & ? & ? & ? & ?). done.
Qed.

Lemma refresh_active max g j s :
  wf_job g j -> jb_state j = JRunning ->
  stage_active (refresh_job max j).1 s = stage_active (clean_up_by_stage (extend_job_output (cascade_cancel j).1).1).1 s.
Proof.
  intros Hwf Hst. rewrite refresh_unfold by done. simpl. fold (refresh_prepare j).
  destruct (existsb _ _); [done|]. destruct (forallb _ _); [done|]. simpl.
  pose proof (in_place_wf _ _ _ (prepare_in_place g j Hwf) Hwf) as Hwf3.
  assert (Hwf4 : wf_job g (update_task_regions max (refresh_prepare j))) by by destruct Hwf3.
  destruct (schedule_spec g _ Hwf4) as (_ & H & _). by rewrite H.
Qed.

Lemma removed_step max g j op acts :
  job_inv max g j -> removed_inactive j acts ->
  removed_inactive (job_step max j op).1 (acts ++ (job_step max j op).2).
Proof.
  intros Hinv [Hnd Hin]. pose proof (ji_wf _ _ _ Hinv) as Hwf. destruct op; simpl.
  - rewrite app_nil_r. split; [done|]. intros s Hs. unfold update_task. rewrite stage_active_alter_task. auto.
  - destruct (decide (jb_state j = JRunning)) as [Hst|Hst].
    2:{ assert (refresh_job max j = (j, [])) as -> by (unfold refresh_job; by destruct (jb_state j)).
        simpl. rewrite app_nil_r. done. }
    set (j2 := (extend_job_output (cascade_cancel j).1).1).
    destruct (cascade_spec g j Hwf) as (Hf1 & Hact1 & _ & _).
    assert (Hact2 : forall s, stage_active j2 s = stage_active j s).
    { intros s. unfold j2. by rewrite extend_active, Hact1. }
    destruct (clean_fold_acts (seq 0 (length (jb_graph j2))) j2 acts) as (new & E1 & E2 & E3).
    destruct (removed_clean (seq 0 (length (jb_graph j2))) j2 acts) as [R1 R2].
    { split; [done|]. intros s Hs. rewrite Hact2. auto. }
    rewrite E1, E3 in R2. rewrite E1 in R1. rewrite removals_app in R1, R2.
    unfold removed_inactive. rewrite removals_app, (removals_refresh max g) by done.
    setoid_rewrite (refresh_active max g); [|done|done]. fold j2. unfold clean_up_by_stage. rewrite E2. done.
  - unfold removed_inactive. rewrite removals_app. assert (removals (cancel_actions j (all_tasks j) ++ [CleanUpJob None]) = []) as ->.
    { apply removals_none. intros s [Hc|Hc]%elem_of_app; [|set_solver].
      apply elem_of_flat_map in Hc as (t' & Ht' & Hc). apply elem_of_flat_map in Hc as ([i a] & Hi & Hc).
      simpl in Hc. destruct (is_terminal (at_state a)) eqn:E; set_solver. }
    split; rewrite app_nil_r; [done|]. intros s Hs. unfold stage_active. simpl.
    change (map (fun sd => StageDesc (sd_tasks sd) false)) with (fmap (M:=list) (fun sd => StageDesc (sd_tasks sd) false)).
    rewrite list_lookup_fmap. by destruct (jb_stages j !! s).
  - rewrite app_nil_r. split; [done|]. intros s Hs. unfold stage_active. simpl.
    change (map (fun sd => StageDesc (map (map cancel_attempt) (sd_tasks sd)) false))
      with (fmap (M:=list) (fun sd => StageDesc (map (map cancel_attempt) (sd_tasks sd)) false)).
    rewrite list_lookup_fmap. by destruct (jb_stages j !! s).
Qed.

Lemma removed_once max g j ops :
  new_job g = Some j -> NoDup (removals (run_actions max j ops)).
Proof.
  intros Hj. assert (H : forall ops j acts, job_inv max g j -> removed_inactive j acts ->
    NoDup (removals (acts ++ run_actions max j ops))).
  { clear. induction ops as [|op ops IH]; intros j acts Hinv Hr; cbn [run_actions].
    - rewrite app_nil_r. apply Hr.
    - rewrite app_assoc. apply IH; [by apply inv_step|]. by apply (removed_step max g). }
  apply (H ops j []); [by apply inv_new|]. split; [constructor|set_solver].
Qed.

(** * Demand for slots *)

Lemma max_list_with_attained {A} (f : A -> nat) l : l <> [] -> exists x, x ∈ l /\ f x = max_list_with f l.
Proof.
  induction l as [|a l IH]; intros H; [done|]. simpl. destruct l as [|b l].
  - exists a. simpl. split; [set_solver|lia].
  - destruct IH as (x & Hx & Hm); [done|].
    destruct (decide (max_list_with f (b :: l) <= f a)).
    + exists a. split; [set_solver|]. lia.
    + exists x. split; [set_solver|]. lia.
Qed.

Lemma whole_region_sets j ts p es :
  (forall t, t ∈ ts -> is_task (jb_graph j) t /\ attempts j t <> []) ->
  (forall t q, t ∈ ts -> is_task (jb_graph j) (t.1, q) -> (t.1, q) ∈ ts) ->
  (p, es) ∈ build_task_region j ts -> es <> [].
Proof.
  intros Htasks Hwhole Hin. apply build_task_region_elem in Hin as (k & b & Hk & Hb & -> & ->).
  set (g := jb_graph j) in *. set (n := bucket_count g ts k) in *.
  destruct (max_list_with_attained (partitions_of g) (filter (fun s => stage_key g s = k) (dedup (map fst ts)))) as (s & Hs & Hmax).
  { intros Hnil. unfold n, bucket_count in Hb. rewrite Hnil in Hb. simpl in Hb. lia. }
  fold (bucket_count g ts k) in Hmax. fold n in Hmax.
  apply elem_of_list_filter in Hs as [Hsk Hs]. apply (proj1 (dedup_elem _ _)) in Hs.
  apply elem_of_map_iff in Hs as (t & -> & Ht).
  assert (Htb : is_task g (t.1, b)).
  { destruct (Htasks t Ht) as [(st & Hst & _) _]. exists st. split; [done|]. simpl.
    revert Hmax. unfold partitions_of. rewrite Hst. lia. }
  pose proof (Hwhole t b Ht Htb) as Hin. destruct (Htasks _ Hin) as [_ Hne].
  intros Hnil.
  assert ((TaskKey t.1 b (length (attempts j (t.1, b)) - 1), stage_mode g t.1) ∈ bucket_entries j ts k n b) as H.
  { apply bucket_entries_elem. exists (t.1, b). simpl. split_and!; try done.
    unfold bucket_of. simpl. fold g. rewrite Hmax. apply Nat.div_mul. lia. }
  rewrite Hnil in H. set_solver.
Qed.

Lemma whole_region_demand max g j tr :
  reachable max g j -> ScheduleTaskRegion tr ∈ (refresh_job max j).2 ->
  (forall k q, k ∈ region_keys tr -> is_task g (tk_stage k, q) ->
     exists a, TaskKey (tk_stage k) q a ∈ region_keys tr) ->
  length tr <= length (region_keys tr).
Proof.
  intros Hreach Hin Hwhole. apply reachable_inv in Hreach as Hinv. pose proof (ji_wf _ _ _ Hinv) as Hwf.
  destruct (launch_exact max g j tr Hreach Hin) as (rt0 & Hrt0 & _ & Hkeys0 & _).
  destruct (refresh_launch max g j tr Hinv Hin) as (Hst & Hinv3 & r & rt & Hr & Hready & -> & Hatt).
  assert (Hwf' : wf_job g (refresh_job max j).1) by apply (inv_refresh max g j Hinv).
  assert (Htasks : forall t, t ∈ rt_tasks rt -> is_task (jb_graph (refresh_job max j).1) t).
  { intros t Ht. rewrite (wf_graph _ _ Hwf'). by eapply (wf_region_task g j). }
  assert (Hne : forall t, t ∈ rt_tasks rt -> attempts (refresh_job max j).1 t <> []).
  { intros t Ht. rewrite (Hatt t Ht). unfold push_created. by destruct (attempts _ t). }
  assert (Hsets : forall p es, (p, es) ∈ build_task_region (refresh_job max j).1 (rt_tasks rt) -> es <> []).
  { intros p es. apply whole_region_sets; [by auto|].
    intros t q Ht Hq. rewrite (wf_graph _ _ Hwf') in Hq.
    destruct (Hwhole (TaskKey t.1 t.2 (length (attempts (refresh_job max j).1 t) - 1)) q) as (a & Ha); [|done|].
    - apply region_keys_elem; eauto.
    - simpl in Ha. apply region_keys_elem in Ha as (t' & Ht' & _ & [= H1 H2 _]); [|done].
      rewrite H1, H2. by destruct t'. }
  revert Hsets. generalize (build_task_region (refresh_job max j).1 (rt_tasks rt)) as l. clear.
  induction l as [|[p es] l IH]; intros Hs; simpl; [lia|].
  rewrite app_length. unfold set_keys at 1. rewrite map_length.
  assert (es <> []) as He by (eapply (Hs p); set_solver). destruct es; [done|]. simpl.
  assert (length l <= length (region_keys l)).
  { apply IH. intros p' es' Hin. apply (Hs p'). set_solver. }
  unfold region_keys in *. lia.
Qed.

Lemma all_succeeded_finishes max g j :
  reachable max g j -> jb_state j = JRunning -> (forall t, is_task g t -> newest j t TSucceeded) ->
  jb_state (refresh_job max j).1 = JDraining.
Proof.
  intros Hreach Hst Hall. apply reachable_inv in Hreach as Hinv. pose proof (ji_wf _ _ _ Hinv) as Hwf.
  assert (H3 : forall t, is_task g t -> last_state (refresh_prepare j) t = Some TSucceeded).
  { intros t Ht. apply (prepare_succeeded g j t Hwf). apply last_state_newest. auto. }
  destruct (refresh_cases max g j Hwf Hst) as [(_ & (t & Ht & Ho) & _)|[(H & _)|(_ & (t & Ht & Hn) & _)]]; [|done|].
  - apply out_of_attempts_last in Ho. rewrite (H3 t Ht) in Ho. destruct Ho; done.
  - by rewrite (H3 t Ht) in Hn.
Qed.
