From stdpp Require Import prelude list relations.
From Verif.Lib Require Import ListFacts.
From Verif.Exec Require Import TaskStateModel TaskStateSpec TaskStateProofs.
From Verif.Exec Require Import GraphModel GraphSpec GraphProofs JobModel JobSpec JobProofs.

(** * Attempt lists *)

(** Changing attempts in place without touching a terminal state. *)
Definition keeps (a a' : attempt) : Prop :=
  is_terminal (at_state a) = true -> at_state a' = at_state a.

Lemma keeps_refl a : keeps a a.
Proof. done. Qed.
Lemma Forall2_keeps_refl l : Forall2 keeps l l.
Proof. apply Forall_Forall2_diag, Forall_true. done. Qed.
Lemma Forall2_keeps_trans l1 l2 l3 : Forall2 keeps l1 l2 -> Forall2 keeps l2 l3 -> Forall2 keeps l1 l3.
Proof.
  intros H12 H23. revert l3 H23. induction H12 as [|a b l1 l2 Hab H12 IH]; intros l3 H23; inversion H23; subst;
    constructor; auto.
  intros Ht. assert (at_state b = at_state a) as Hb by auto. rewrite <- Hb in *. auto.
Qed.

Lemma keeps_report st c a : keeps a (report_attempt st c a).
Proof. intros H. simpl. by apply consolidate_terminal. Qed.
Lemma keeps_cancel a : keeps a (cancel_attempt a).
Proof. intros H. unfold cancel_attempt. by rewrite H. Qed.

Lemma Forall2_keeps_alter f i l : (forall a, keeps a (f a)) -> Forall2 keeps l (alter f i l).
Proof.
  intros Hf. revert i. induction l as [|a l IH]; intros [|i]; simpl; constructor;
    auto using Forall2_keeps_refl, keeps_refl. apply IH.
Qed.
Lemma Forall2_keeps_map f l : (forall a, keeps a (f a)) -> Forall2 keeps l (map f l).
Proof. intros Hf. induction l; simpl; constructor; auto. Qed.

(** All attempts but the newest have ended. *)
Definition old_ended (l : list attempt) : Prop :=
  forall i a, l !! i = Some a -> S i < length l -> is_terminal (at_state a) = true.

Lemma old_ended_keeps l l' : Forall2 keeps l l' -> old_ended l -> old_ended l'.
Proof.
  intros Hk Ho i a' Hi' Hlt. destruct (Forall2_lookup_r _ _ _ _ _ Hk Hi') as (a & Hi & Hka).
  pose proof (Forall2_length _ _ _ Hk). pose proof (Ho i a Hi ltac:(lia)) as Ht.
  by rewrite (Hka Ht).
Qed.

Lemma last_keeps l l' s :
  Forall2 keeps l l' -> is_terminal s = true -> at_state <$> last l = Some s -> at_state <$> last l' = Some s.
Proof.
  intros Hk Hs Hl. rewrite !last_lookup in *. rewrite <- (Forall2_length _ _ _ Hk).
  apply fmap_Some in Hl as (a & Ha & ->).
  destruct (Forall2_lookup_l _ _ _ _ _ Hk Ha) as (a' & Ha' & Hka). rewrite Ha'. simpl.
  by rewrite (Hka Hs).
Qed.

Lemma last_state_newest j t s : last_state j t = Some s <-> newest j t s.
Proof.
  unfold last_state, newest. split.
  - intros H. apply fmap_Some in H as (a & Ha & ->). apply last_Some in Ha as [l Hl]. eauto.
  - intros (l & a & -> & <-). by rewrite last_snoc.
Qed.

Lemma last_state_None j t : last_state j t = None <-> attempts j t = [].
Proof. unfold last_state. rewrite fmap_None. apply last_None. Qed.

Lemma old_ended_push l :
  old_ended l -> (forall a, last l = Some a -> is_terminal (at_state a) = true) -> old_ended (push_created l).
Proof.
  intros Ho Hl i a Hi Hlt. unfold push_created in *. rewrite app_length in Hlt. simpl in Hlt.
  rewrite lookup_app_l in Hi by lia.
  destruct (decide (S i < length l)) as [|Hge]; [by eapply Ho|].
  apply Hl. rewrite last_lookup. replace (pred (length l)) with i by lia. done.
Qed.

(** * In-place steps *)

(** From [j] to [j'] only attempts change, in place. *)
Record in_place (j j' : job) : Prop := {
  ip_graph : jb_graph j' = jb_graph j;
  ip_topo : jb_topo j' = jb_topo j;
  ip_shape : shape_of j' = shape_of j;
  ip_att : forall t, Forall2 keeps (attempts j t) (attempts j' t);
}.

Lemma in_place_refl j : in_place j j.
Proof. split; try done. intros. apply Forall2_keeps_refl. Qed.
Lemma in_place_trans j1 j2 j3 : in_place j1 j2 -> in_place j2 j3 -> in_place j1 j3.
Proof. intros [? ? ? H1] [? ? ? H2]. split; try congruence. intros t. by eapply Forall2_keeps_trans. Qed.

Lemma in_place_wf g j j' : in_place j j' -> wf_job g j -> wf_job g j'.
Proof. intros [] []. split; congruence. Qed.

Lemma in_place_length j j' t : in_place j j' -> length (attempts j' t) = length (attempts j t).
Proof. intros H. symmetry. eapply Forall2_length, H. Qed.

Lemma in_place_last j j' t s :
  in_place j j' -> is_terminal s = true -> last_state j t = Some s -> last_state j' t = Some s.
Proof. intros H Hs. unfold last_state. apply last_keeps; [apply H|done]. Qed.

Lemma in_place_alter f j t :
  f [] = [] -> (forall l, Forall2 keeps l (f l)) -> in_place j (alter_task f j t).
Proof.
  intros Hn Hf. split; try done; [apply alter_task_shape|].
  intros t'. rewrite attempts_alter_task_nil by done.
  case_decide; subst; auto using Forall2_keeps_refl.
Qed.

Lemma update_task_in_place j k st c : in_place j (update_task j k st c).
Proof.
  apply in_place_alter; [done|]. intros l. apply Forall2_keeps_alter. intros. apply keeps_report.
Qed.

Lemma existsb_ext_elem {A} (f g : A -> bool) l :
  (forall x, x ∈ l -> f x = g x) -> existsb f l = existsb g l.
Proof.
  induction l as [|a l IH]; intros H; simpl; [done|]. rewrite H by set_solver. f_equal. apply IH. set_solver.
Qed.
Lemma forallb_ext_elem {A} (f g : A -> bool) l :
  (forall x, x ∈ l -> f x = g x) -> forallb f l = forallb g l.
Proof.
  induction l as [|a l IH]; intros H; simpl; [done|]. rewrite H by set_solver. f_equal. apply IH. set_solver.
Qed.
Lemma existsb_elem {A} (f : A -> bool) l : existsb f l = true <-> exists x, x ∈ l /\ f x = true.
Proof. rewrite existsb_exists. by setoid_rewrite elem_of_list_In. Qed.
Lemma flat_map_ext_elem {A B} (f g : A -> list B) l :
  (forall x, x ∈ l -> f x = g x) -> flat_map f l = flat_map g l.
Proof.
  induction l as [|a l IH]; intros H; simpl; [done|]. rewrite H by set_solver. f_equal. apply IH. set_solver.
Qed.

Lemma cascade_spec g j :
  wf_job g j ->
  let res := cascade_cancel j in
  same_frame j res.1 /\
  (forall s, stage_active res.1 s = stage_active j s) /\
  (forall r rt t, tp_regions (jb_topo j) !! r = Some rt -> t ∈ rt_tasks rt ->
     attempts res.1 t = if region_has_failure j r rt then map cancel_attempt (attempts j t) else attempts j t) /\
  (forall a, a ∈ res.2 <-> exists r rt, tp_regions (jb_topo j) !! r = Some rt /\
     region_has_failure j r rt = true /\ a ∈ cancel_actions j (rt_tasks rt)).
Proof.
  intros Hwf. unfold cascade_cancel.
  edestruct (region_loop_spec g region_has_failure (map cancel_attempt)
    (fun j rt => cancel_actions j (rt_tasks rt)) (fun _ _ => []) j) as (H1 & H2 & H3 & H4); try done.
  - intros j1 j2 r rt Hf Ha. unfold region_has_failure. apply existsb_ext_elem.
    intros t Ht. unfold last_state. by rewrite Ha.
  - intros j1 j2 rt Hf Ha. unfold cancel_actions. apply flat_map_ext_elem. intros t Ht. by rewrite Ha.
  - split_and!; try done. intros a. rewrite H4. by setoid_rewrite app_nil_r.
Qed.

Global Instance is_task_dec g t : Decision (is_task g t).
Proof.
  unfold is_task. destruct (g !! t.1) as [st|] eqn:E.
  - destruct (decide (t.2 < st_partitions st)).
    + left. eauto.
    + right. intros (st' & [= <-] & ?). done.
  - right. intros (st' & ? & ?). done.
Defined.

Lemma cascade_in_place g j : wf_job g j -> in_place j (cascade_cancel j).1.
Proof.
  intros Hwf. destruct (cascade_spec g j Hwf) as (Hf & _ & H & _).
  pose proof (wf_frame g _ _ Hf Hwf) as Hwf'.
  destruct Hf. split; try done. intros t.
  destruct (decide (is_task g t)) as [Ht|Hn].
  - destruct (wf_task_region g j t Hwf Ht) as (r & rt & Hr & Hin).
    rewrite (H r rt t Hr Hin). destruct (region_has_failure j r rt); [|apply Forall2_keeps_refl].
    apply Forall2_keeps_map. intros. apply keeps_cancel.
  - rewrite !(attempts_not_task g) by done. constructor.
Qed.

Lemma extend_one_in_place acc tc : in_place acc.1 (extend_one acc tc).1.
Proof.
  destruct acc as [j acts], tc as [t ch]. simpl.
  destruct (last (attempts j t)); [|apply in_place_refl].
  destruct (_ && _); [|apply in_place_refl]. simpl. apply in_place_alter; [done|].
  intros l. apply Forall2_keeps_alter. done.
Qed.
Lemma extend_in_place j : in_place j (extend_job_output j).1.
Proof.
  unfold extend_job_output. destruct (jb_state j); try apply in_place_refl.
  change j with (j, @nil action).1 at 1. generalize (j, @nil action).
  induction (final_tasks (jb_graph j)) as [|tc l IH]; intros acc; simpl; [apply in_place_refl|].
  eapply in_place_trans; [apply extend_one_in_place|apply IH].
Qed.

Lemma attempts_deactivate j s t : attempts (deactivate_stage j s) t = attempts j t.
Proof.
  unfold attempts, deactivate_stage. simpl. destruct (decide (s = t.1)) as [->|].
  - rewrite list_lookup_alter. by destruct (jb_stages j !! t.1).
  - by rewrite list_lookup_alter_ne.
Qed.
Lemma deactivate_shape j s : shape_of (deactivate_stage j s) = shape_of j.
Proof.
  apply list_eq. intros i. rewrite !shape_lookup. unfold deactivate_stage. simpl.
  destruct (decide (s = i)) as [->|].
  - rewrite list_lookup_alter. by destruct (jb_stages j !! i).
  - by rewrite list_lookup_alter_ne.
Qed.
Lemma clean_up_stage_in_place acc s : in_place acc.1 (clean_up_stage acc s).1.
Proof.
  destruct acc as [j acts]. simpl. destruct (_ && _); [|apply in_place_refl]. simpl.
  split; try done; [apply deactivate_shape|]. intros t. rewrite attempts_deactivate. apply Forall2_keeps_refl.
Qed.
Lemma clean_up_by_stage_in_place j : in_place j (clean_up_by_stage j).1.
Proof.
  unfold clean_up_by_stage.
  change j with (j, @nil action).1 at 1. generalize (j, @nil action).
  induction (seq 0 (length (jb_graph j))) as [|s l IH]; intros acc; cbn [foldl]; [apply in_place_refl|].
  eapply in_place_trans; [apply clean_up_stage_in_place|apply IH].
Qed.

(** States are untouched by these sub-steps. *)
Lemma extend_state j : jb_state (extend_job_output j).1 = jb_state j.
Proof.
  assert (H : forall l acc, jb_state (foldl extend_one acc l).1 = jb_state acc.1).
  { induction l as [|[t ch] l IH]; intros [j' acts]; cbn [foldl]; [done|].
    rewrite IH. simpl. destruct (last (attempts j' t)); [|done]. by destruct (_ && _). }
  unfold extend_job_output. destruct (jb_state j) eqn:Ej; try done. by rewrite H.
Qed.
Lemma clean_up_by_stage_state j : jb_state (clean_up_by_stage j).1 = jb_state j.
Proof.
  assert (H : forall l acc, jb_state (foldl clean_up_stage acc l).1 = jb_state acc.1).
  { induction l as [|s l IH]; intros [j' acts]; cbn [foldl]; [done|].
    rewrite IH. simpl. by destruct (_ && _). }
  unfold clean_up_by_stage. by rewrite H.
Qed.

(** * Region status *)

Lemma task_exhausted_spec max j t : task_exhausted max j t = true <-> out_of_attempts max j t.
Proof.
  unfold task_exhausted, out_of_attempts. rewrite andb_true_iff, orb_true_iff, !bool_decide_eq_true.
  rewrite Nat.leb_le, <- !last_state_newest. tauto.
Qed.

Lemma region_status_failed max j rt :
  region_status max j rt = RgFailed <-> exists t, t ∈ rt_tasks rt /\ out_of_attempts max j t.
Proof.
  unfold region_status. setoid_rewrite <- task_exhausted_spec. rewrite <- existsb_elem.
  destruct (existsb _ _); [done|]. destruct (forallb _ _); split; done.
Qed.

Lemma region_status_succeeded max j rt :
  region_status max j rt = RgSucceeded <-> forall t, t ∈ rt_tasks rt -> last_state j t = Some TSucceeded.
Proof.
  unfold region_status. split.
  - destruct (existsb _ _); [done|]. destruct (forallb _ _) eqn:E; [|done].
    intros _ t Ht. rewrite forallb_elem in E. specialize (E t Ht). by apply bool_decide_eq_true in E.
  - intros H. assert (existsb (task_exhausted max j) (rt_tasks rt) = false) as ->.
    { apply not_true_is_false. rewrite existsb_elem. intros (t & Ht & Hx).
      apply task_exhausted_spec in Hx as [_ [Hx|Hx]]; apply last_state_newest in Hx; rewrite H in Hx; done. }
    assert (forallb (fun t => bool_decide (last_state j t = Some TSucceeded)) (rt_tasks rt) = true) as ->; [|done].
    apply forallb_elem. intros t Ht. apply bool_decide_eq_true. auto.
Qed.

Lemma regions_lookup max j d :
  jb_regions (update_task_regions max j) !! d = region_status max j <$> tp_regions (jb_topo j) !! d.
Proof. apply list_lookup_fmap. Qed.

(** * Scheduling *)

Lemma attempts_update_regions max j t : attempts (update_task_regions max j) t = attempts j t.
Proof. done. Qed.
Lemma last_state_update_regions max j t : last_state (update_task_regions max j) t = last_state j t.
Proof. done. Qed.

Lemma region_ready_spec max j r rt :
  tp_regions (jb_topo j) !! r = Some rt ->
  region_ready (update_task_regions max j) r rt = true <->
  ~ (forall t, t ∈ rt_tasks rt -> last_state j t = Some TSucceeded) /\
  (forall d, d ∈ rt_deps rt -> exists rt', tp_regions (jb_topo j) !! d = Some rt' /\
     forall t, t ∈ rt_tasks rt' -> last_state j t = Some TSucceeded) /\
  (forall t s, t ∈ rt_tasks rt -> last_state j t = Some s -> is_terminal s = true).
Proof.
  intros Hr. unfold region_ready. rewrite !andb_true_iff, !negb_true_iff.
  rewrite bool_decide_eq_false, forallb_elem, <- not_true_iff_false, existsb_elem.
  setoid_rewrite bool_decide_eq_true. setoid_rewrite regions_lookup. rewrite Hr. simpl.
  rewrite <- (region_status_succeeded max). split.
  - intros [[H1 H2] H3]. split_and!.
    + congruence.
    + intros d Hd. specialize (H2 d Hd). apply fmap_Some in H2 as (rt' & -> & H).
      exists rt'. split; [done|]. by apply (region_status_succeeded max).
    + intros t s Ht Hs. destruct (is_terminal s) eqn:E; [done|]. exfalso. apply H3. exists t.
      split; [done|]. rewrite last_state_update_regions, Hs, E. done.
  - intros (H1 & H2 & H3). split_and!.
    + congruence.
    + intros d Hd. destruct (H2 d Hd) as (rt' & -> & H). simpl. f_equal. by apply region_status_succeeded.
    + intros (t & Ht & H). rewrite last_state_update_regions in H.
      destruct (last_state j t) as [s|] eqn:E; [|done]. rewrite (H3 t s Ht E) in H. done.
Qed.

Lemma omap_ext_elem {A B} (f g : A -> option B) (l : list A) :
  (forall x, x ∈ l -> f x = g x) -> omap f l = omap g l.
Proof.
  intros H. apply list_omap_ext. apply Forall_Forall2_diag, Forall_forall. done.
Qed.

Lemma build_task_region_ext j j' ts :
  same_frame j j' -> (forall t, t ∈ ts -> attempts j' t = attempts j t) ->
  build_task_region j' ts = build_task_region j ts.
Proof.
  intros Hf Ha. unfold build_task_region. rewrite (sf_graph _ _ Hf).
  apply flat_map_ext_elem. intros k _. apply map_ext_in. intros b _. f_equal.
  unfold bucket_entries. rewrite (sf_graph _ _ Hf).
  apply omap_ext_elem. intros t Ht. unfold latest_attempt. by rewrite (Ha t).
Qed.

Lemma schedule_spec g j :
  wf_job g j ->
  let res := schedule_task_regions j in
  same_frame j res.1 /\
  (forall s, stage_active res.1 s = stage_active j s) /\
  (forall r rt t, tp_regions (jb_topo j) !! r = Some rt -> t ∈ rt_tasks rt ->
     attempts res.1 t = if region_ready j r rt then push_created (attempts j t) else attempts j t) /\
  (forall a, a ∈ res.2 <-> exists r rt, tp_regions (jb_topo j) !! r = Some rt /\ region_ready j r rt = true /\
     a = ScheduleTaskRegion (build_task_region res.1 (rt_tasks rt))).
Proof.
  intros Hwf. unfold schedule_task_regions.
  edestruct (region_loop_spec g region_ready push_created (fun _ _ => [])
    (fun j rt => [ScheduleTaskRegion (build_task_region j (rt_tasks rt))]) j) as (H1 & H2 & H3 & H4); try done.
  - intros j1 j2 r rt Hf Ha. unfold region_ready. rewrite (sf_regions _ _ Hf).
    f_equal. f_equal. apply existsb_ext_elem. intros t Ht. unfold last_state. by rewrite Ha.
  - intros j1 j2 rt Hf Ha. do 2 f_equal. by apply build_task_region_ext.
  - split_and!; try done. intros a. rewrite H4. simpl. by setoid_rewrite elem_of_list_singleton.
Qed.

(** * Refresh *)

(** A refresh of a running job, cut in two: in-place changes, then the decision. *)
Definition refresh_prepare (j : job) : job :=
  (clean_up_by_stage (extend_job_output (cascade_cancel j).1).1).1.
Definition prepare_actions (j : job) : list action :=
  (cascade_cancel j).2 ++ (extend_job_output (cascade_cancel j).1).2 ++
  (clean_up_by_stage (extend_job_output (cascade_cancel j).1).1).2.

Lemma refresh_unfold max j :
  jb_state j = JRunning ->
  refresh_job max j =
  let j3 := refresh_prepare j in
  let j4 := update_task_regions max j3 in
  if existsb (fun r => bool_decide (r = RgFailed)) (jb_regions j4) then
    (with_state j4 JFailed, prepare_actions j ++ [FailJobOutput (infer_cause j4)])
  else if forallb (fun r => bool_decide (r = RgSucceeded)) (jb_regions j4) then
    (with_state j4 JDraining, prepare_actions j)
  else ((schedule_task_regions j4).1, prepare_actions j ++ (schedule_task_regions j4).2).
Proof.
  intros Hj. unfold refresh_job, refresh_prepare, prepare_actions. rewrite Hj.
  destruct (cascade_cancel j) as [j1 a1]. simpl.
  destruct (extend_job_output j1) as [j2 a2]. simpl.
  destruct (clean_up_by_stage j2) as [j3 a3]. simpl.
  destruct (existsb _ _); [by rewrite <- !app_assoc|].
  destruct (forallb _ _); [by rewrite <- ?app_assoc|].
  destruct (schedule_task_regions _) as [j5 a4]. simpl. by rewrite <- !app_assoc.
Qed.

Lemma prepare_in_place g j : wf_job g j -> in_place j (refresh_prepare j).
Proof.
  intros Hwf. unfold refresh_prepare.
  eapply in_place_trans; [by eapply cascade_in_place|].
  eapply in_place_trans; [apply extend_in_place|]. apply clean_up_by_stage_in_place.
Qed.
Lemma prepare_state g j : wf_job g j -> jb_state (refresh_prepare j) = jb_state j.
Proof.
  intros Hwf. unfold refresh_prepare. rewrite clean_up_by_stage_state, extend_state.
  destruct (cascade_spec g j Hwf) as ([] & _). done.
Qed.

Lemma exists_failed max j :
  existsb (fun r => bool_decide (r = RgFailed)) (jb_regions (update_task_regions max j)) = true <->
  exists r rt t, tp_regions (jb_topo j) !! r = Some rt /\ t ∈ rt_tasks rt /\ out_of_attempts max j t.
Proof.
  rewrite existsb_elem. setoid_rewrite bool_decide_eq_true. split.
  - intros (? & Hin & ->). apply elem_of_list_lookup in Hin as [r Hr]. rewrite regions_lookup in Hr.
    apply fmap_Some in Hr as (rt & Hr & Hs). symmetry in Hs. apply region_status_failed in Hs as (t & Ht & Ho).
    eauto 10.
  - intros (r & rt & t & Hr & Ht & Ho). exists RgFailed. split; [|done].
    apply elem_of_list_lookup. exists r. rewrite regions_lookup, Hr. simpl. f_equal.
    apply region_status_failed. eauto.
Qed.

Lemma all_succeeded max j :
  forallb (fun r => bool_decide (r = RgSucceeded)) (jb_regions (update_task_regions max j)) = true <->
  forall r rt t, tp_regions (jb_topo j) !! r = Some rt -> t ∈ rt_tasks rt -> last_state j t = Some TSucceeded.
Proof.
  rewrite forallb_elem. setoid_rewrite bool_decide_eq_true. split.
  - intros H r rt t Hr Ht. assert (region_status max j rt = RgSucceeded) as Hs.
    { apply H, elem_of_list_lookup. exists r. by rewrite regions_lookup, Hr. }
    rewrite region_status_succeeded in Hs. auto.
  - intros H x (r & Hr)%elem_of_list_lookup. rewrite regions_lookup in Hr.
    apply fmap_Some in Hr as (rt & Hr & ->). apply region_status_succeeded. eauto.
Qed.

(** * The invariant *)

Record job_inv (max : nat) (g : graph) (j : job) : Prop := {
  ji_wf : wf_job g j;
  (** all attempts but the newest have ended *)
  ji_old : forall t, old_ended (attempts j t);
  (** tasks of one region have had the same number of attempts *)
  ji_same : forall r rt t t', tp_regions (jb_topo j) !! r = Some rt -> t ∈ rt_tasks rt -> t' ∈ rt_tasks rt ->
    length (attempts j t) = length (attempts j t');
  ji_bound : forall t, length (attempts j t) <= Nat.max 1 max;
  (** a region is only ever launched after the regions it depends on succeeded *)
  ji_deps : forall r rt d rt' t t', tp_regions (jb_topo j) !! r = Some rt -> d ∈ rt_deps rt ->
    tp_regions (jb_topo j) !! d = Some rt' -> t ∈ rt_tasks rt -> attempts j t <> [] ->
    t' ∈ rt_tasks rt' -> last_state j t' = Some TSucceeded;
  ji_done : jb_state j = JDraining \/ jb_state j = JSucceeded ->
    forall t, is_task g t -> last_state j t = Some TSucceeded;
  ji_failed : jb_state j = JFailed -> exists t, is_task g t /\ out_of_attempts max j t;
}.

Lemma inv_in_place max g j j' :
  in_place j j' -> (jb_state j' = jb_state j \/ (jb_state j = JDraining /\ jb_state j' = JSucceeded) \/ jb_state j' = JCanceled) ->
  job_inv max g j -> job_inv max g j'.
Proof.
  intros Hip Hst [Hwf Hold Hsame Hb Hdeps Hdone Hfailed].
  split.
  - by eapply in_place_wf.
  - intros t. eapply old_ended_keeps; [apply Hip|done].
  - intros r rt t t'. rewrite (ip_topo _ _ Hip), !(in_place_length j j') by done. apply Hsame.
  - intros t. rewrite (in_place_length j j') by done. apply Hb.
  - intros r rt d rt' t t' Hr Hd Hrt' Ht Hne Ht'. rewrite (ip_topo _ _ Hip) in *.
    eapply in_place_last; [done|done|]. eapply (Hdeps r rt d rt' t t'); try done.
    intros Hnil. apply Hne. apply nil_length_inv. rewrite (in_place_length j j') by done. by rewrite Hnil.
  - intros Hs t Ht. eapply in_place_last; [done|done|]. apply Hdone; [|done].
    destruct Hst as [Hst|[[Hst Hst']|Hst]]; [rewrite <- Hst; done|auto|]. destruct Hs; congruence.
  - intros Hs. destruct Hfailed as (t & Ht & Hlen & Hout).
    { destruct Hst as [Hst|[[Hst Hst']|Hst]]; congruence. }
    exists t. split; [done|]. split; [by rewrite (in_place_length j j')|].
    rewrite <- !last_state_newest in *. destruct Hout; [left|right]; by eapply in_place_last.
Qed.

Lemma out_of_attempts_last max j t :
  out_of_attempts max j t -> last_state j t = Some TFailed \/ last_state j t = Some TCanceled.
Proof. intros [_ H]. by rewrite <- !last_state_newest in H. Qed.

Lemma inv_schedule max g j :
  job_inv max g j -> jb_state j = JRunning ->
  (forall r rt t, tp_regions (jb_topo j) !! r = Some rt -> t ∈ rt_tasks rt -> ~ out_of_attempts max j t) ->
  job_inv max g (schedule_task_regions (update_task_regions max j)).1.
Proof.
  intros [Hwf Hold Hsame Hb Hdeps Hdone Hfailed] Hst Hno.
  assert (Hwf4 : wf_job g (update_task_regions max j)) by by destruct Hwf.
  destruct (schedule_spec g _ Hwf4) as (Hf & _ & Hatt & _).
  set (j5 := (schedule_task_regions (update_task_regions max j)).1) in *.
  assert (Htp : jb_topo j5 = jb_topo j) by apply Hf.
  pose proof (wf_frame g _ _ Hf Hwf4) as Hwf5.
  change (jb_topo (update_task_regions max j)) with (jb_topo j) in Hatt.
  assert (Hsucc : forall r rt, tp_regions (jb_topo j) !! r = Some rt ->
    (forall t, t ∈ rt_tasks rt -> last_state j t = Some TSucceeded) ->
    forall t, t ∈ rt_tasks rt -> last_state j5 t = Some TSucceeded).
  { intros r rt Hr Hall t Ht. unfold last_state. rewrite (Hatt r rt t Hr Ht).
    destruct (region_ready _ r rt) eqn:E; [|by apply Hall].
    apply (region_ready_spec max j r rt Hr) in E as [E _]. done. }
  split.
  - done.
  - intros t. destruct (decide (is_task g t)) as [Ht|Hn].
    2:{ rewrite (attempts_not_task g) by done. intros i a. done. }
    destruct (wf_task_region g j t Hwf Ht) as (r & rt & Hr & Hin).
    rewrite (Hatt r rt t Hr Hin). destruct (region_ready _ r rt) eqn:E; [|apply Hold].
    apply (region_ready_spec max j r rt Hr) in E as (_ & _ & E).
    apply old_ended_push; [apply Hold|]. intros a Ha. apply (E t); [done|].
    unfold last_state. change (attempts j t) with (attempts (update_task_regions max j) t). by rewrite Ha.
  - intros r rt t t' Hr Ht Ht'. rewrite Htp in Hr.
    rewrite (Hatt r rt t Hr Ht), (Hatt r rt t' Hr Ht').
    pose proof (Hsame r rt t t' Hr Ht Ht') as Hl.
    destruct (region_ready _ r rt); [|done]. unfold push_created. rewrite !app_length.
    change (attempts (update_task_regions max j)) with (attempts j). lia.
  - intros t. destruct (decide (is_task g t)) as [Ht|Hn].
    2:{ rewrite (attempts_not_task g) by done. simpl. lia. }
    destruct (wf_task_region g j t Hwf Ht) as (r & rt & Hr & Hin).
    rewrite (Hatt r rt t Hr Hin). destruct (region_ready _ r rt) eqn:E; [|apply Hb].
    apply (region_ready_spec max j r rt Hr) in E as (E1 & _ & E).
    assert (exists t0, t0 ∈ rt_tasks rt /\ last_state j t0 <> Some TSucceeded) as (t0 & Ht0 & Hl0).
    { destruct (decide (Forall (fun t => last_state j t = Some TSucceeded) (rt_tasks rt))) as [HF|HF].
      - exfalso. apply E1. by rewrite Forall_forall in HF.
      - apply not_Forall_Exists in HF; [|solve_decision]. apply Exists_exists in HF as (t0 & ? & ?). eauto. }
    unfold push_created. rewrite app_length. simpl.
    change (attempts (update_task_regions max j)) with (attempts j).
    rewrite (Hsame r rt t t0 Hr Hin Ht0).
    destruct (last_state j t0) as [s|] eqn:Els.
    + pose proof (E t0 s Ht0 Els) as Hterm.
      destruct (decide (max <= length (attempts j t0))) as [Hge|]; [|lia].
      exfalso. apply (Hno r rt t0 Hr Ht0). split; [done|]. rewrite <- !last_state_newest, Els.
      destruct s; try done; auto.
    + apply last_state_None in Els. rewrite Els. simpl. lia.
  - intros r rt d rt' t t' Hr Hd Hrt' Ht Hne Ht'. rewrite Htp in Hr, Hrt'.
    apply (Hsucc d rt' Hrt'); [|done]. clear t' Ht'. intros t' Ht'.
    rewrite (Hatt r rt t Hr Ht) in Hne.
    destruct (region_ready _ r rt) eqn:E.
    + apply (region_ready_spec max j r rt Hr) in E as (_ & E & _).
      destruct (E d Hd) as (rt1 & Hrt1 & Hs). simplify_eq. auto.
    + eapply (Hdeps r rt d rt' t t'); done.
  - rewrite (sf_state _ _ Hf). simpl. rewrite Hst. intros [|]; done.
  - rewrite (sf_state _ _ Hf). simpl. rewrite Hst. done.
Qed.

Lemma inv_refresh max g j : job_inv max g j -> job_inv max g (refresh_job max j).1.
Proof.
  intros Hinv. destruct (decide (jb_state j = JRunning)) as [Hst|Hst].
  2:{ unfold refresh_job. by destruct (jb_state j). }
  rewrite refresh_unfold by done. simpl.
  pose proof (ji_wf _ _ _ Hinv) as Hwf.
  pose proof (prepare_in_place g j Hwf) as Hip. pose proof (prepare_state g j Hwf) as Hs3.
  set (j3 := refresh_prepare j) in *.
  assert (Hinv3 : job_inv max g j3) by (eapply inv_in_place; eauto).
  rewrite Hst in Hs3. clear Hinv Hip.
  destruct (existsb _ _) eqn:E1.
  - change (existsb (fun r => bool_decide (r = RgFailed)) (jb_regions (update_task_regions max j3)) = true) in E1.
    apply exists_failed in E1 as (r & rt & t & Hr & Ht & Ho).
    destruct Hinv3 as [Hwf3 Hold Hsame Hb Hdeps Hdone Hfailed].
    split; try done; [by destruct Hwf3|intros [|]; done|].
    intros _. exists t. split; [|done]. by eapply (wf_region_task g j3).
  - change (existsb (fun r => bool_decide (r = RgFailed)) (jb_regions (update_task_regions max j3)) = false) in E1.
    destruct (forallb _ _) eqn:E2.
    + change (forallb (fun r => bool_decide (r = RgSucceeded)) (jb_regions (update_task_regions max j3)) = true) in E2.
      rewrite all_succeeded in E2.
      destruct Hinv3 as [Hwf3 Hold Hsame Hb Hdeps Hdone Hfailed].
      split; try done; [by destruct Hwf3|].
      intros _ t Ht. destruct (wf_task_region g j3 t Hwf3 Ht) as (r & rt & Hr & Hin). by eapply E2.
    + simpl. apply inv_schedule; [done|done|].
      intros r rt t Hr Ht Ho. apply not_true_iff_false in E1. apply E1. apply exists_failed. eauto 10.
Qed.

Lemma clean_up_job_in_place j : in_place j (clean_up_job j).1.
Proof.
  split; try done.
  - apply list_eq. intros i. rewrite !shape_lookup. simpl.
    change (map (fun sd => StageDesc (sd_tasks sd) false)) with (fmap (M:=list) (fun sd => StageDesc (sd_tasks sd) false)).
    rewrite list_lookup_fmap. by destruct (jb_stages j !! i).
  - intros t. unfold attempts. simpl.
    change (map (fun sd => StageDesc (sd_tasks sd) false)) with (fmap (M:=list) (fun sd => StageDesc (sd_tasks sd) false)).
    rewrite list_lookup_fmap. destruct (jb_stages j !! t.1); simpl; apply Forall2_keeps_refl.
Qed.
Lemma stop_job_in_place j : in_place j (stop_job j).
Proof.
  split; try done.
  - apply list_eq. intros i. rewrite !shape_lookup. simpl.
    change (map (fun sd => StageDesc (map (map cancel_attempt) (sd_tasks sd)) false))
      with (fmap (M:=list) (fun sd => StageDesc (map (map cancel_attempt) (sd_tasks sd)) false)).
    rewrite list_lookup_fmap. destruct (jb_stages j !! i); simpl; [|done].
    unfold stage_shape. simpl. by rewrite map_length.
  - intros t. unfold attempts. simpl.
    change (map (fun sd => StageDesc (map (map cancel_attempt) (sd_tasks sd)) false))
      with (fmap (M:=list) (fun sd => StageDesc (map (map cancel_attempt) (sd_tasks sd)) false)).
    rewrite list_lookup_fmap. destruct (jb_stages j !! t.1) as [sd|]; simpl; [|constructor].
    change (map (map cancel_attempt)) with (fmap (M:=list) (map cancel_attempt)).
    rewrite list_lookup_fmap. destruct (sd_tasks sd !! t.2); simpl; [|constructor].
    apply Forall2_keeps_map. intros. apply keeps_cancel.
Qed.

Lemma inv_step max g j op : job_inv max g j -> job_inv max g (job_step max j op).1.
Proof.
  intros Hinv. destruct op; simpl.
  - eapply inv_in_place; [apply update_task_in_place|by left|done].
  - by apply inv_refresh.
  - eapply inv_in_place; [apply clean_up_job_in_place| |done]. simpl.
    destruct (jb_state j); auto.
  - eapply inv_in_place; [apply stop_job_in_place| |done]. simpl.
    destruct (jb_state j); auto.
Qed.

Lemma attempts_new_job g j t : new_job g = Some j -> attempts j t = [].
Proof.
  unfold new_job. destruct (build_topology g); [|done]. intros [= <-]. unfold attempts. simpl.
  change (map (fun st => StageDesc (replicate (st_partitions st) []) true))
    with (fmap (M:=list) (fun st => StageDesc (replicate (st_partitions st) []) true)).
  rewrite list_lookup_fmap. destruct (g !! t.1) as [st|] eqn:E; setoid_rewrite E; simpl; [|done].
  destruct (replicate _ _ !! t.2) as [l|] eqn:El; [|done]. by apply lookup_replicate in El as [-> _].
Qed.

Lemma inv_new max g j : new_job g = Some j -> job_inv max g j.
Proof.
  intros Hj. assert (Ha : forall t, attempts j t = []) by (intros; by eapply attempts_new_job).
  split.
  - revert Hj. unfold new_job. destruct (build_topology g) as [tp|] eqn:E; [|done]. intros [= <-].
    split; simpl; [done|done|]. apply list_eq. intros i. rewrite shape_lookup. simpl.
    rewrite partitions_lookup.
    change (map (fun st => StageDesc (replicate (st_partitions st) []) true))
      with (fmap (M:=list) (fun st => StageDesc (replicate (st_partitions st) []) true)).
    rewrite list_lookup_fmap. destruct (g !! i) as [st|] eqn:Ei; setoid_rewrite Ei; simpl; [|done].
    unfold stage_shape. simpl. by rewrite replicate_length.
  - intros t. rewrite Ha. intros i a. done.
  - intros. by rewrite !Ha.
  - intros. rewrite Ha. simpl. lia.
  - intros r rt d rt' t t' _ _ _ _ H. by rewrite Ha in H.
  - revert Hj. unfold new_job. destruct (build_topology g); [|done]. intros [= <-]. simpl. intros [|]; done.
  - revert Hj. unfold new_job. destruct (build_topology g); [|done]. intros [= <-]. done.
Qed.

Lemma inv_run max g j ops : job_inv max g j -> job_inv max g (run_job max j ops).
Proof.
  unfold run_job. revert j. induction ops as [|op ops IH]; intros j Hinv; simpl; [done|].
  apply IH. by apply inv_step.
Qed.

Lemma reachable_inv max g j : reachable max g j -> job_inv max g j.
Proof. intros (j0 & ops & Hj & ->). apply inv_run. by apply inv_new. Qed.
