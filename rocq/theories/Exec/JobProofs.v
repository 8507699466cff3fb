From stdpp Require Import prelude list relations.
From Verif.Lib Require Import ListFacts.
From Verif.Exec Require Import TaskStateModel GraphModel GraphSpec GraphProofs JobModel JobSpec.

(** * Views *)

Definition valid (j : job) (t : nat * nat) : Prop :=
  exists sd l, jb_stages j !! t.1 = Some sd /\ sd_tasks sd !! t.2 = Some l.

Definition stage_shape (sd : stage_desc) : nat := length (sd_tasks sd).

Definition shape_of (j : job) : list nat := map stage_shape (jb_stages j).

Lemma shape_lookup j s : shape_of j !! s = stage_shape <$> jb_stages j !! s.
Proof. unfold shape_of. change (map stage_shape) with (fmap (M:=list) stage_shape). apply list_lookup_fmap. Qed.

Lemma valid_shape j t : valid j t <-> exists n, shape_of j !! t.1 = Some n /\ t.2 < n.
Proof.
  unfold valid. rewrite shape_lookup. split.
  - intros (sd & l & -> & Hl). simpl. exists (stage_shape sd). split; [done|].
    by eapply lookup_lt_Some.
  - intros (n & Hn & Ht). apply fmap_Some in Hn as (sd & -> & ->).
    destruct (lookup_lt_is_Some_2 (sd_tasks sd) t.2 Ht) as [l Hl]. eauto.
Qed.

Lemma alter_task_shape f j t : shape_of (alter_task f j t) = shape_of j.
Proof.
  apply list_eq. intros s. rewrite !shape_lookup. unfold alter_task. simpl.
  destruct (decide (t.1 = s)) as [<-|Hne].
  - rewrite list_lookup_alter. destruct (jb_stages j !! t.1) as [sd|]; simpl; [|done].
    unfold stage_shape. simpl. by rewrite alter_length.
  - by rewrite list_lookup_alter_ne.
Qed.

Lemma attempts_alter_task f j t t' :
  valid j t ->
  attempts (alter_task f j t) t' = if decide (t = t') then f (attempts j t) else attempts j t'.
Proof.
  intros (sd & l & Hsd & Hl). unfold attempts, alter_task. simpl.
  case_decide as Heq.
  - subst t'. rewrite list_lookup_alter, Hsd. simpl. rewrite list_lookup_alter, Hl. done.
  - destruct (decide (t.1 = t'.1)) as [H1|H1].
    + rewrite <- H1, list_lookup_alter, Hsd. simpl.
      rewrite list_lookup_alter_ne; [done|]. intros H2. apply Heq. destruct t, t'; simpl in *; congruence.
    + by rewrite list_lookup_alter_ne.
Qed.

Lemma attempts_alter_task_nil f j t t' :
  f [] = [] ->
  attempts (alter_task f j t) t' = if decide (t = t') then f (attempts j t) else attempts j t'.
Proof.
  intros Hf. unfold attempts, alter_task. simpl.
  case_decide as Heq.
  - subst t'. rewrite list_lookup_alter. destruct (jb_stages j !! t.1) as [sd|]; simpl; [|done].
    rewrite list_lookup_alter. by destruct (sd_tasks sd !! t.2).
  - destruct (decide (t.1 = t'.1)) as [H1|H1].
    + rewrite <- H1, list_lookup_alter. destruct (jb_stages j !! t.1) as [sd|]; simpl; [|done].
      rewrite list_lookup_alter_ne; [done|]. intros H2. apply Heq. destruct t, t'; simpl in *; congruence.
    + by rewrite list_lookup_alter_ne.
Qed.

Lemma stage_active_alter_task f j t s : stage_active (alter_task f j t) s = stage_active j s.
Proof.
  unfold stage_active, alter_task. simpl. destruct (decide (t.1 = s)) as [<-|].
  - rewrite list_lookup_alter. by destruct (jb_stages j !! t.1).
  - by rewrite list_lookup_alter_ne.
Qed.

(** Everything but the attempts is unchanged. *)
Record same_frame (j j' : job) : Prop := {
  sf_graph : jb_graph j' = jb_graph j;
  sf_topo : jb_topo j' = jb_topo j;
  sf_regions : jb_regions j' = jb_regions j;
  sf_state : jb_state j' = jb_state j;
  sf_shape : shape_of j' = shape_of j;
}.
Lemma same_frame_refl j : same_frame j j.
Proof. by split. Qed.
Lemma same_frame_trans j1 j2 j3 : same_frame j1 j2 -> same_frame j2 j3 -> same_frame j1 j3.
Proof. intros [] []. split; congruence. Qed.
Lemma alter_task_frame f j t : same_frame j (alter_task f j t).
Proof. split; try done. apply alter_task_shape. Qed.

Lemma foldl_alter_frame f ts j : same_frame j (foldl (alter_task f) j ts).
Proof.
  revert j. induction ts as [|t ts IH]; intros j; simpl; [apply same_frame_refl|].
  eapply same_frame_trans; [apply alter_task_frame|apply IH].
Qed.
Lemma foldl_alter_active f ts j s : stage_active (foldl (alter_task f) j ts) s = stage_active j s.
Proof.
  revert j. induction ts as [|t ts IH]; intros j; simpl; [done|].
  by rewrite IH, stage_active_alter_task.
Qed.

Lemma valid_frame j j' t : shape_of j' = shape_of j -> valid j t -> valid j' t.
Proof. rewrite !valid_shape. by intros ->. Qed.

Lemma foldl_alter_attempts f ts j t' :
  NoDup ts -> (forall t, t ∈ ts -> valid j t) ->
  attempts (foldl (alter_task f) j ts) t' =
  if decide (t' ∈ ts) then f (attempts j t') else attempts j t'.
Proof.
  revert j. induction ts as [|t ts IH]; intros j Hnd Hv; cbn [foldl].
  - case_decide; [set_solver|done].
  - apply NoDup_cons in Hnd as [Hni Hnd].
    rewrite IH; [|done|].
    2:{ intros t1 Ht1. eapply valid_frame; [apply alter_task_shape|]. apply Hv. set_solver. }
    rewrite attempts_alter_task by (apply Hv; set_solver).
    destruct (decide (t = t')) as [->|Hne].
    + rewrite decide_False by done. rewrite decide_True by set_solver. done.
    + destruct (decide (t' ∈ ts)); [rewrite decide_True by set_solver; done|].
      rewrite decide_False by set_solver. done.
Qed.

(** * The region loop *)

Section region_loop.
  Context (cond : job -> nat -> region_topo -> bool) (f : list attempt -> list attempt).
  Context (act_b act_a : job -> region_topo -> list action).
  (** [cond] and the actions look only at the tasks of the region. *)
  Context (Hcond : forall j j' r rt, same_frame j j' ->
    (forall t, t ∈ rt_tasks rt -> attempts j' t = attempts j t) -> cond j' r rt = cond j r rt).
  Context (Hact_b : forall j j' rt, same_frame j j' ->
    (forall t, t ∈ rt_tasks rt -> attempts j' t = attempts j t) -> act_b j' rt = act_b j rt).
  Context (Hact_a : forall j j' rt, same_frame j j' ->
    (forall t, t ∈ rt_tasks rt -> attempts j' t = attempts j t) -> act_a j' rt = act_a j rt).

  Lemma region_loop_gen rrs j acts :
    NoDup (concat (map (fun rr => rt_tasks rr.2) rrs)) ->
    (forall rr t, rr ∈ rrs -> t ∈ rt_tasks rr.2 -> valid j t) ->
    let res := foldl (region_loop_step cond f act_b act_a) (j, acts) rrs in
    same_frame j res.1 /\
    (forall s, stage_active res.1 s = stage_active j s) /\
    (forall r rt t, (r, rt) ∈ rrs -> t ∈ rt_tasks rt ->
       attempts res.1 t = if cond j r rt then f (attempts j t) else attempts j t) /\
    (forall t, (forall rr, rr ∈ rrs -> t ∉ rt_tasks rr.2) -> attempts res.1 t = attempts j t) /\
    res.2 = acts ++ flat_map (fun rr =>
       if cond j rr.1 rr.2 then act_b j rr.2 ++ act_a res.1 rr.2 else []) rrs.
  Proof.
    revert j acts. induction rrs as [|[r rt] rrs IH]; intros j acts Hnd Hv; simpl.
    - split_and!; try done; [intros ? ? ? H; by apply elem_of_nil in H|by rewrite app_nil_r].
    - simpl in Hnd. apply NoDup_app in Hnd as (Hnd1 & Hdisj & Hnd2).
      assert (Hv1 : forall t, t ∈ rt_tasks rt -> valid j t).
      { intros t Ht. apply (Hv (r, rt) t); [set_solver|done]. }
      assert (Hother : forall r' rt' t, (r', rt') ∈ rrs -> t ∈ rt_tasks rt' -> t ∉ rt_tasks rt).
      { intros r' rt' t Hin Ht Ht'. apply (Hdisj t Ht'). apply elem_of_concat.
        exists (rt_tasks rt'). split; [|done]. apply elem_of_map_iff. by exists (r', rt'). }
      destruct (cond j r rt) eqn:Ec.
      + set (j1 := foldl (alter_task f) j (rt_tasks rt)).
        set (acts1 := acts ++ act_b j rt ++ act_a j1 rt).
        destruct (IH j1 acts1 Hnd2) as (G1 & G2 & G3 & G4 & G5).
        { intros [r' rt'] t Hin Ht. eapply valid_frame; [apply foldl_alter_frame|].
          apply (Hv (r', rt')); [set_solver|done]. }
        assert (Hf1 : same_frame j j1) by apply foldl_alter_frame.
        assert (Hatt : forall t, attempts j1 t = if decide (t ∈ rt_tasks rt) then f (attempts j t) else attempts j t).
        { intros t. apply foldl_alter_attempts; done. }
        assert (Hc' : forall r' rt', (r', rt') ∈ rrs -> cond j1 r' rt' = cond j r' rt').
        { intros r' rt' Hin. apply Hcond; [done|]. intros t Ht. rewrite Hatt, decide_False; [done|].
          by eapply Hother. }
        simpl. split_and!.
        * eapply same_frame_trans; done.
        * intros s. rewrite G2. apply foldl_alter_active.
        * intros r' rt' t [[= -> ->]|Hin]%elem_of_cons Ht.
          -- rewrite G4.
             ++ rewrite Ec, Hatt, decide_True by done. done.
             ++ intros [r2 rt2] Hin2 Ht2. eapply Hother; eauto.
          -- rewrite (G3 r' rt' t Hin Ht), Hc' by done.
             rewrite Hatt, decide_False by by eapply Hother. done.
        * intros t Ht. rewrite G4.
          -- rewrite Hatt, decide_False; [done|]. apply (Ht (r, rt)). set_solver.
          -- intros rr Hrr. apply Ht. set_solver.
        * rewrite G5. unfold acts1. rewrite <- !app_assoc. do 2 f_equal.
          f_equal.
          -- symmetry. apply Hact_a; [done|]. intros t Ht. apply G4.
             intros [r2 rt2] Hin2 Ht2. eapply Hother; eauto.
          -- rewrite !flat_map_concat_map. f_equal. apply map_ext_in.
             intros [r' rt'] Hin%elem_of_list_In. simpl.
             rewrite Hc' by done. destruct (cond j r' rt'); [|done]. f_equal.
             apply Hact_b; [done|]. intros t Ht. rewrite Hatt, decide_False; [done|].
             by eapply Hother.
      + destruct (IH j acts Hnd2) as (G1 & G2 & G3 & G4 & G5).
        { intros [r' rt'] t Hin Ht. apply (Hv (r', rt')); [set_solver|done]. }
        split_and!; try done.
        * intros r' rt' t [[= -> ->]|Hin]%elem_of_cons Ht; [|by apply G3].
          rewrite Ec. apply G4. intros [r2 rt2] Hin2 Ht2. eapply Hother; eauto.
        * intros t Ht. apply G4. intros rr Hrr. apply Ht. set_solver.
  Qed.
End region_loop.

Lemma elem_of_imap_pair {A} (l : list A) i x : (i, x) ∈ imap pair l <-> l !! i = Some x.
Proof.
  rewrite elem_of_list_lookup. setoid_rewrite list_lookup_imap. split.
  - intros (k & H). apply fmap_Some in H as (y & Hy & [= -> ->]). done.
  - intros H. exists i. by rewrite H.
Qed.

Lemma imap_pair_tasks (l : list region_topo) :
  map (fun rr : nat * region_topo => rt_tasks rr.2) (imap pair l) = map rt_tasks l.
Proof.
  change (map (fun rr : nat * region_topo => rt_tasks rr.2)) with (fmap (M:=list) (fun rr : nat * region_topo => rt_tasks rr.2)).
  change (map rt_tasks) with (fmap (M:=list) rt_tasks).
  apply list_eq. intros i. rewrite !list_lookup_fmap, list_lookup_imap. by destruct (l !! i).
Qed.

(** * Well-formed jobs: the parts that never change *)

Record wf_job (g : graph) (j : job) : Prop := {
  wf_graph : jb_graph j = g;
  wf_topo : build_topology g = Some (jb_topo j);
  wf_shape : shape_of j = map st_partitions g;
}.

Lemma wf_frame g j j' : same_frame j j' -> wf_job g j -> wf_job g j'.
Proof. intros [] []. split; congruence. Qed.

Lemma partitions_lookup (g : graph) s : map st_partitions g !! s = st_partitions <$> g !! s.
Proof. apply list_lookup_fmap. Qed.

Lemma wf_valid g j t : wf_job g j -> is_task g t -> valid j t.
Proof.
  intros Hwf (st & Hst & Hp). apply valid_shape. rewrite (wf_shape g j Hwf).
  exists (st_partitions st). split; [|done].
  by rewrite partitions_lookup, Hst.
Qed.

Lemma attempts_not_task g j t : wf_job g j -> ~ is_task g t -> attempts j t = [].
Proof.
  intros Hwf Hn. unfold attempts.
  destruct (jb_stages j !! t.1) as [sd|] eqn:E; [|done].
  destruct (sd_tasks sd !! t.2) as [l|] eqn:El; [|done]. exfalso. apply Hn.
  assert (Hs : shape_of j !! t.1 = Some (stage_shape sd)) by by rewrite shape_lookup, E.
  rewrite (wf_shape g j Hwf) in Hs.
  rewrite partitions_lookup in Hs. apply fmap_Some in Hs as (st & Hst & Heq).
  exists st. split; [done|]. rewrite <- Heq. by eapply lookup_lt_Some.
Qed.

Lemma wf_region_task g j r rt t :
  wf_job g j -> tp_regions (jb_topo j) !! r = Some rt -> t ∈ rt_tasks rt -> is_task g t.
Proof.
  intros Hwf Hr Ht. destruct (topology_partition g (jb_topo j) (wf_topo g j Hwf)) as [_ H].
  apply H, elem_of_concat. exists (rt_tasks rt). split; [|done].
  apply elem_of_map_iff. exists rt. split; [done|by eapply elem_of_list_lookup_2].
Qed.

Lemma wf_task_region g j t :
  wf_job g j -> is_task g t -> exists r rt, tp_regions (jb_topo j) !! r = Some rt /\ t ∈ rt_tasks rt.
Proof.
  intros Hwf Ht. destruct (topology_partition g (jb_topo j) (wf_topo g j Hwf)) as [_ H].
  apply H in Ht. apply elem_of_concat in Ht as (ts & Hts & Ht).
  apply elem_of_map_iff in Hts as (rt & -> & Hrt). apply elem_of_list_lookup in Hrt as [r Hr]. eauto.
Qed.

Lemma wf_region_unique g j r r' rt rt' t :
  wf_job g j -> tp_regions (jb_topo j) !! r = Some rt -> tp_regions (jb_topo j) !! r' = Some rt' ->
  t ∈ rt_tasks rt -> t ∈ rt_tasks rt' -> r = r' /\ rt = rt'.
Proof.
  intros Hwf Hr Hr' Ht Ht'. destruct (topology_partition g (jb_topo j) (wf_topo g j Hwf)) as [H _].
  apply NoDup_concat_iff in H as [_ H].
  assert (r = r') as ->; [|by simplify_eq].
  eapply (H r r' (rt_tasks rt) (rt_tasks rt') t); try done;
    change (map rt_tasks (tp_regions (jb_topo j))) with (rt_tasks <$> tp_regions (jb_topo j));
    rewrite list_lookup_fmap; [rewrite Hr|rewrite Hr']; done.
Qed.

Lemma region_loop_spec g cond f act_b act_a j :
  (forall j j' r rt, same_frame j j' ->
    (forall t, t ∈ rt_tasks rt -> attempts j' t = attempts j t) -> cond j' r rt = cond j r rt) ->
  (forall j j' rt, same_frame j j' ->
    (forall t, t ∈ rt_tasks rt -> attempts j' t = attempts j t) -> act_b j' rt = act_b j rt) ->
  (forall j j' rt, same_frame j j' ->
    (forall t, t ∈ rt_tasks rt -> attempts j' t = attempts j t) -> act_a j' rt = act_a j rt) ->
  wf_job g j ->
  let res := region_loop cond f act_b act_a j in
  same_frame j res.1 /\
  (forall s, stage_active res.1 s = stage_active j s) /\
  (forall r rt t, tp_regions (jb_topo j) !! r = Some rt -> t ∈ rt_tasks rt ->
     attempts res.1 t = if cond j r rt then f (attempts j t) else attempts j t) /\
  (forall a, a ∈ res.2 <-> exists r rt, tp_regions (jb_topo j) !! r = Some rt /\ cond j r rt = true /\
     a ∈ act_b j rt ++ act_a res.1 rt).
Proof.
  intros H1 H2 H3 Hwf. unfold region_loop.
  destruct (topology_partition g (jb_topo j) (wf_topo g j Hwf)) as [Hnd Hall].
  edestruct (region_loop_gen cond f act_b act_a H1 H2 H3 (imap pair (tp_regions (jb_topo j))) j [])
    as (G1 & G2 & G3 & G4 & G5).
  - by rewrite imap_pair_tasks.
  - intros [r rt] t Hr%elem_of_imap_pair Ht. apply (wf_valid g); [done|].
    by eapply wf_region_task.
  - split_and!; try done.
    + intros r rt t Hr Ht. apply G3; [by apply elem_of_imap_pair|done].
    + intros a. rewrite G5. simpl. rewrite elem_of_flat_map. split.
      * intros ([r rt] & Hr%elem_of_imap_pair & Ha). simpl in Ha.
        destruct (cond j r rt) eqn:E; [|set_solver]. eauto.
      * intros (r & rt & Hr & Hc & Ha). exists (r, rt). split; [by apply elem_of_imap_pair|].
        simpl. by rewrite Hc.
Qed.
