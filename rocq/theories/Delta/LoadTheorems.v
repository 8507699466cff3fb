(** Loading a version of a log. *)
From Coq Require Import NArith ZArith ZifyN Lia.
From stdpp Require Import prelude list gmap sorting.
From Verif.Lib Require Import Text Sort ListFacts.
From Verif.Delta Require Import ActionModel LogModel ReplaySpec ReplayProofs CompactSpec CompactProofs
  SegmentSpec SegmentProofs LoadProofs LogStepModel LogStepSpec LogStepProofs.
Local Open Scope Z_scope.

Lemma log_good_compactions ops : good_compactions (lg_files (log_run ops)).
Proof.
  intros f s e Hf Hk. destruct (log_ok_run ops) as [_ Hok]. apply Hok in Hf. unfold file_ok in Hf. rewrite Hk in Hf. lia.
Qed.
Lemma is_live_of_table cuts acts st : is_table_upto cuts acts st -> is_live_table cuts acts st.
Proof. intros (H1 & H2 & H3 & _ & H5 & H6). split_and!; done. Qed.
Lemma is_live_replay cuts l l' st : is_live_table cuts l st -> is_live_table cuts (l ++ l') (replay st l').
Proof.
  intros (H1 & H2 & H3 & H5 & H6). split_and!; intros.
  - rewrite replay_protocol, H1. unfold table_protocol. by rewrite omap_app, last_app_or.
  - rewrite replay_metadata, H2. unfold table_metadata. by rewrite omap_app, last_app_or.
  - rewrite replay_adds, H3. unfold live_file. rewrite omap_app, last_app_or.
    by destruct (last (omap (file_event k) l')) as [[]|].
  - rewrite replay_domains, H5. unfold live_domain. rewrite omap_app, last_app_or.
    by destruct (last (omap (domain_event n) l')).
  - rewrite replay_txns. specialize (H6 a). unfold live_txn in *. rewrite omap_app, last_app_or.
    destruct (last (omap (txn_event a) l')); auto.
Qed.
Lemma is_live_compacted cuts before acts min_ts st :
  is_live_table cuts before st ->
  (forall k, ~ drops_removal before acts min_ts k) -> (forall n, ~ drops_domain before acts n) ->
  is_live_table cuts (before ++ acts) (replay st (compacted_rows min_ts (replay rs_empty acts))).
Proof.
  intros Hl Hr Hd. pose proof (is_live_replay cuts before acts st Hl) as (R1 & R2 & R3 & R4 & R5).
  destruct Hl as (H1 & H2 & H3 & H4 & H5).
  destruct (compacted_replay st acts min_ts) as (C1 & C2 & C3 & C4 & C5).
  split_and!.
  - by rewrite C1.
  - by rewrite C2.
  - intros k. rewrite C5, <- R3, replay_adds, live_file_split, H3.
    destruct (live_file acts k) as [x|]; [done|].
    destruct (tombstone acts k) as [r|] eqn:Et; [|done]. cbn. unfold keep_compacted.
    destruct (rm_ts r) as [ts|] eqn:Ets; [|done]. destruct (min_ts <=? ts) eqn:E; [done|].
    destruct (live_file before k) as [a|] eqn:El; [|done].
    exfalso. apply (Hr k). exists a, r, ts. split_and!; [done..|lia].
  - intros n. rewrite C4, <- R4, replay_domains, H4. unfold live_domain at 1.
    destruct (last (omap (domain_event n) acts)) as [d|] eqn:El; [|done].
    destruct (dom_removed d) eqn:Er; [|done].
    destruct (live_domain before n) as [d0|] eqn:Eb; [|done]. exfalso. apply (Hd n). exists d0, d. done.
  - intros a. rewrite C3. apply R5.
Qed.

(** The base of a segment. *)
Lemma base_ok ops sg :
  let lg := log_run ops in from_log [] (lg_files lg) sg ->
  0 <= segment_start (sg_checkpoint sg) <= Z.of_nat (length (history ops)) /\
  is_table_upto (cuts_used ops) (acts_between (history ops) 0 (segment_start (sg_checkpoint sg) - 1))
    (replay rs_empty (base_rows sg)).
Proof.
  intros lg (Hcp & _). destruct (log_ok_run ops) as [_ Hok]. fold lg in Hok. unfold base_rows.
  destruct (sg_checkpoint sg) as [[c f]|].
  - destruct (Hcp c f eq_refl) as (Hf & Hk & _). apply Hok in Hf. unfold file_ok in Hf. rewrite Hk in Hf.
    cbn [segment_start]. replace (c + 1 - 1) with c by lia. split; [lia|tauto].
  - cbn [segment_start]. split; [lia|]. rewrite acts_between_nil by lia. apply (is_table_upto_refl _ []).
Qed.
Lemma commit_entries_rows ops sg ents :
  from_log [] (lg_files (log_run ops)) sg -> sg_compactions sg = [] -> Forall (entry_in sg) ents ->
  flat_map entry_rows ents = flat_map (acts_at (history ops)) (flat_map entry_versions ents).
Proof.
  intros (_ & Hk & _) Hn. destruct (log_ok_run ops) as [_ Hok].
  induction 1 as [|x ents Hx _ IH]; cbn; [done|]. rewrite flat_map_app, IH. f_equal.
  destruct x as [v f|s e f]; cbn in *.
  - apply Hk in Hx as [[Hf Hkd]|Hx]; [|set_solver]. apply Hok in Hf. unfold file_ok in Hf. rewrite Hkd in Hf.
    rewrite app_nil_r. tauto.
  - rewrite Hn in Hx. set_solver.
Qed.
Lemma load_version_bound ops sg v :
  complete sg -> from_log [] (lg_files (log_run ops)) sg -> sg_target sg = v -> v < Z.of_nat (length (history ops)).
Proof.
  intros Hc Hf Ht. destruct (base_ok ops sg Hf) as [Hs _]. destruct (log_ok_run ops) as [_ Hok].
  pose proof (cm_start sg Hc). destruct (decide (v < segment_start (sg_checkpoint sg))); [lia|].
  assert (v ∈ versions_of sg) as Hv. { rewrite (cm_cover sg Hc). apply zrange_elem. lia. }
  destruct Hf as (_ & Hk & Hcm). unfold versions_of in Hv. apply elem_of_app in Hv as [Hv|Hv].
  - apply elem_of_list_fmap in Hv as ([w f] & -> & Hx). apply Hk in Hx as [[Hf Hkd]|Hx]; [|set_solver].
    apply Hok in Hf. unfold file_ok in Hf. rewrite Hkd in Hf. cbn. lia.
  - apply elem_of_flat_map in Hv as ([[s e] f] & Hx & Hv%zrange_elem). apply Hcm in Hx as [Hf Hkd].
    apply Hok in Hf. unfold file_ok in Hf. rewrite Hkd in Hf. cbn in Hv. lia.
Qed.

(** Without compacted files. *)
Lemma load_state_plain ops v st ts :
  let lg := log_run ops in
  no_compacted_file (lg_files lg) -> load_state (lg_hint lg) [] (lg_files lg) v = Some (st, ts) ->
  0 <= v < Z.of_nat (length (history ops)) /\ is_table_upto (cuts_used ops) (acts_between (history ops) 0 v) st.
Proof.
  intros lg Hnc. unfold load_state. destruct (v <? 0) eqn:Ev; [done|].
  destruct (resolve_full _ _ _ _) as [sg|] eqn:Er; cbn [mbind option_bind]; [|done]. intros Hl.
  pose proof (log_good_compactions ops) as Hg. fold lg in Hg.
  assert (complete sg) as Hc by (eapply resolve_full_complete_segment; [exact Hg| |exact Er]; lia).
  destruct (resolve_full_sound _ _ _ _ _ Hg Er) as (Ht & _ & Hf & _).
  assert (sg_compactions sg = []) as Hn.
  { apply elem_of_nil_inv. intros [[s e] f] Hx. apply Hf in Hx as [Hx Hk]. by apply (Hnc f s e). }
  assert (v < Z.of_nat (length (history ops))) as Hv by by eapply load_version_bound.
  split; [lia|].
  apply load_segment_reads in Hl as (acts & (ents & Hin & Hvs & ->) & ->); [|done|by left].
  destruct (base_ok ops sg Hf) as [Hs Hb]. rewrite replay_app.
  pose proof (cm_start sg Hc).
  rewrite (acts_between_app _ 0 (segment_start (sg_checkpoint sg) - 1) v) by lia.
  replace (segment_start (sg_checkpoint sg) - 1 + 1) with (segment_start (sg_checkpoint sg)) by lia.
  rewrite (commit_entries_rows ops sg ents Hf Hn Hin), Hvs, Ht. by apply is_table_upto_replay.
Qed.

(** With compacted files that dropped nothing needed. *)
Lemma chain_live ops sg ents a b st cuts :
  from_log [] (lg_files (log_run ops)) sg -> faithful_compactions ops -> Forall (entry_in sg) ents ->
  0 <= a -> contiguous_from a (entry_iv <$> ents) = Some (b + 1) ->
  is_live_table cuts (acts_between (history ops) 0 (a - 1)) st ->
  is_live_table cuts (acts_between (history ops) 0 b) (replay st (flat_map entry_rows ents)).
Proof.
  intros (_ & Hk & Hcm) Hfc Hin. destruct (log_ok_run ops) as [_ Hok]. revert a st.
  induction Hin as [|x ents Hx Hin IH]; intros a st Ha Hch Hl; cbn in *.
  - injection Hch as ->. by replace (b + 1 - 1) with b in Hl by lia.
  - rewrite replay_app. destruct x as [v f|s e f]; cbn in Hch.
    + destruct (Z.eqb_spec v a) as [->|]; [|done]. apply (IH (a + 1)); [lia|done|].
      apply Hk in Hx as [[Hf Hkd]|Hx]; [|set_solver]. apply Hok in Hf. unfold file_ok in Hf. rewrite Hkd in Hf.
      cbn [entry_rows]. destruct Hf as [_ ->]. replace (a + 1 - 1) with a by lia.
      rewrite (acts_between_app _ 0 (a - 1) a) by lia. replace (a - 1 + 1) with a by lia.
      rewrite acts_between_one. by apply is_live_replay.
    + destruct (Z.eqb_spec s a) as [->|]; [|done].
      apply Hcm in Hx as [Hf Hkd]. apply Hok in Hf. unfold file_ok in Hf. rewrite Hkd in Hf.
      cbn [entry_rows]. destruct Hf as (Hse & He & min_ts & loc & mtime & Hop & ->).
      apply (IH (e + 1)); [lia|done|]. replace (e + 1 - 1) with e by lia.
      rewrite (acts_between_app _ 0 (a - 1) e) by lia. replace (a - 1 + 1) with a by lia.
      destruct (Hfc _ _ _ _ _ Hop He) as [H1 H2]. by apply is_live_compacted.
Qed.
Lemma load_state_compacted ops v st ts sg :
  let lg := log_run ops in
  faithful_compactions ops -> 0 <= v ->
  resolve_full (lg_hint lg) [] (lg_files lg) v = Some sg -> starts_after_checkpoint sg ->
  load_segment sg = Some (st, ts) ->
  v < Z.of_nat (length (history ops)) /\ is_live_table (cuts_used ops) (acts_between (history ops) 0 v) st.
Proof.
  intros lg Hfc Hv0 Er Hs Hl.
  pose proof (log_good_compactions ops) as Hg. fold lg in Hg.
  assert (complete sg) as Hc by (eapply resolve_full_complete_segment; [exact Hg| |exact Er]; lia).
  destruct (resolve_full_sound _ _ _ _ _ Hg Er) as (Ht & _ & Hf & _).
  split; [by eapply load_version_bound|].
  rewrite (load_segment_entries sg Hc (or_intror Hs)) in Hl.
  destruct (replay_entries _ _) as [s|] eqn:E; cbn in Hl; [|done].
  assert (s = (st, ts)) as ->. { destruct (rs_protocol s.1), (rs_metadata s.1); by simplify_eq. }
  apply replay_entries_state in E. cbn in E. subst st.
  destruct (base_ok ops sg Hf) as [Hst Hb].
  eapply chain_live; [exact Hf|done|apply entries_in|apply Hst| |by apply is_live_of_table].
  rewrite (entries_chain sg Hc). by rewrite Ht.
Qed.

(** ** Loading succeeds when the files are there *)
Lemma last_metadata_table acts : last_metadata acts = table_metadata acts.
Proof. done. Qed.
Lemma replay_commit_some ops s v f cuts :
  times_recorded ops -> 0 <= v < Z.of_nat (length (history ops)) -> lf_rows f = acts_at (history ops) v ->
  is_live_table cuts (acts_between (history ops) 0 (v - 1)) s.1 ->
  exists s', replay_commit s v f = Some s' /\ is_live_table cuts (acts_between (history ops) 0 v) s'.1.
Proof.
  intros Ht Hv Hf Hl. unfold replay_commit.
  assert (exists t, commit_time v (lf_mtime f) (rs_protocol s.1) (rs_metadata s.1) (lf_rows f) = Some t) as [t ->].
  { unfold commit_time, effective. destruct (or_else (last_protocol _) _) as [p|]; cbn; [|eauto].
    destruct (or_else (last_metadata (lf_rows f)) (rs_metadata s.1)) as [m|] eqn:Em; cbn; [|eauto].
    destruct (uses_ict v p m) eqn:Eu; [|eauto].
    assert (table_metadata (acts_between (history ops) 0 v) = Some m) as Htm.
    { rewrite (acts_between_app _ 0 (v - 1) v) by lia. replace (v - 1 + 1) with v by lia.
      rewrite acts_between_one. unfold table_metadata. rewrite omap_app, last_app_or.
      fold (table_metadata (acts_at (history ops) v)) (table_metadata (acts_between (history ops) 0 (v - 1))).
      rewrite <- Hf, <- last_metadata_table. destruct Hl as (_ & <- & _). exact Em. }
    rewrite Hf. specialize (Ht v m Hv Htm). destruct (ict_of (acts_at (history ops) v)); [eauto|].
    exfalso. apply Ht; [|done]. unfold uses_ict, ict_enabled in Eu. destruct (md_ict m); [done|].
    by rewrite andb_false_r in Eu. }
  cbn. eexists. split; [done|]. cbn. rewrite Hf.
  rewrite (acts_between_app _ 0 (v - 1) v) by lia. replace (v - 1 + 1) with v by lia.
  rewrite acts_between_one. by apply is_live_replay.
Qed.
Lemma replay_entries_some ops sg ents a b s cuts :
  from_log [] (lg_files (log_run ops)) sg -> times_recorded ops -> sg_compactions sg = [] ->
  Forall (entry_in sg) ents ->
  0 <= a -> contiguous_from a (entry_iv <$> ents) = Some (b + 1) ->
  is_live_table cuts (acts_between (history ops) 0 (a - 1)) s.1 ->
  exists s', replay_entries s ents = Some s' /\ is_live_table cuts (acts_between (history ops) 0 b) s'.1.
Proof.
  intros (_ & Hk & _) Ht Hn Hin. destruct (log_ok_run ops) as [_ Hok]. revert a s.
  induction Hin as [|x ents Hx Hin IH]; intros a s Ha Hch Hl; cbn in *.
  - injection Hch as ->. exists s. split; [done|]. by replace (b + 1 - 1) with b in Hl by lia.
  - destruct x as [v f|s0 e f]; cbn in *; [|rewrite Hn in Hx; set_solver].
    destruct (Z.eqb_spec v a) as [->|]; [|done].
    apply Hk in Hx as [[Hf Hkd]|Hx]; [|set_solver]. apply Hok in Hf. unfold file_ok in Hf. rewrite Hkd in Hf.
    destruct Hf as [Hr Hf].
    destruct (replay_commit_some ops s a f cuts Ht Hr Hf Hl) as (s1 & -> & Hl1). cbn.
    apply (IH (a + 1)); [lia|done|]. by replace (a + 1 - 1) with a by lia.
Qed.
Lemma load_state_succeeds ops c v :
  let lg := log_run ops in
  no_compacted_file (lg_files lg) -> 0 <= v -> readable_from (lg_files lg) c v -> hint_upto (lg_files lg) (lg_hint lg) c ->
  times_recorded ops ->
  table_protocol (acts_between (history ops) 0 v) <> None -> table_metadata (acts_between (history ops) 0 v) <> None ->
  exists st ts, load_state (lg_hint lg) [] (lg_files lg) v = Some (st, ts).
Proof.
  intros lg Hnc Hv Hr Hh Ht Hp Hm.
  pose proof (log_good_compactions ops) as Hg. fold lg in Hg.
  destruct (resolve_full_readable (lg_hint lg) [] (lg_files lg) c v Hg Hr Hh) as (sg & Er & _).
  assert (complete sg) as Hc by (eapply resolve_full_complete_segment; [exact Hg| |exact Er]; lia).
  destruct (resolve_full_sound _ _ _ _ _ Hg Er) as (Htg & _ & Hf & _).
  assert (sg_compactions sg = []) as Hn.
  { apply elem_of_nil_inv. intros [[s e] f] Hx. apply Hf in Hx as [Hx Hk]. by apply (Hnc f s e). }
  destruct (base_ok ops sg Hf) as [Hs Hb].
  destruct (replay_entries_some ops sg (entries sg) (segment_start (sg_checkpoint sg)) v
    (replay rs_empty (base_rows sg), ∅) (cuts_used ops)) as (s' & He & Hl); [done|done|done|apply entries_in|lia| | |].
  { rewrite (entries_chain sg Hc). by rewrite Htg. }
  { by apply is_live_of_table. }
  unfold load_state. replace (v <? 0) with false by lia. rewrite Er. cbn [mbind option_bind].
  rewrite (load_segment_entries sg Hc (or_introl Hn)), He. cbn.
  destruct Hl as (H1 & H2 & _). rewrite H1, H2.
  destruct (table_protocol _); [|done]. destruct (table_metadata _); [|done]. destruct s'. eauto.
Qed.
