(** Log clean-up. *)
From Coq Require Import NArith ZArith ZifyN Lia.
From stdpp Require Import prelude list gmap.
From Verif.Delta Require Import ActionModel LogModel SegmentSpec SegmentProofs CleanupSpec.
Local Open Scope Z_scope.

(** The largest element that passes a test. *)
Lemma foldl_max_some (P : Z -> bool) l acc m :
  foldl (fun acc v => if P v then Some (match acc with Some c => Z.max c v | None => v end) else acc) acc l = Some m ->
  (Some m = acc \/ m ∈ l /\ P m = true).
Proof.
  revert acc. induction l as [|x l IH]; intros acc; cbn; [by left|].
  intros H%IH. destruct H as [H|[H1 H2]]; [|right; set_solver].
  destruct (P x) eqn:E; [|by left]. injection H as ->. destruct acc as [c|]; [|right; set_solver].
  destruct (Z.max_spec c x) as [[? ->]|[? ->]]; [right; set_solver|by left].
Qed.
Lemma foldl_max_ge (P : Z -> bool) l acc x :
  (exists c, acc = Some c /\ x <= c) \/ (x ∈ l /\ P x = true) ->
  exists m, foldl (fun acc v => if P v then Some (match acc with Some c => Z.max c v | None => v end) else acc) acc l = Some m /\ x <= m.
Proof.
  revert acc. induction l as [|y l IH]; intros acc H; cbn.
  - destruct H as [(c & -> & Hc)|[H _]]; [eauto|set_solver].
  - apply IH. destruct H as [(c & -> & Hc)|[[->|H]%elem_of_cons HP]].
    + left. destruct (P y); [|eauto]. eexists; split; [done|]. lia.
    + left. rewrite HP. destruct acc as [c|]; eexists; (split; [done|]); lia.
    + by right.
Qed.
Lemma retention_checkpoint_spec time latest cutoff files b :
  retention_checkpoint time latest cutoff files = Some b ->
  b <= latest /\ (exists f, f ∈ files /\ lf_kind f = KCheckpoint b) /\
  exists c f, b <= c <= latest /\ f ∈ files /\ lf_kind f = KCommit c /\ time c <= cutoff.
Proof.
  unfold retention_checkpoint. destruct (cutoff_commit time latest cutoff files) as [c|] eqn:Ec; cbn [mbind option_bind]; [|done].
  intros H. unfold cutoff_commit in Ec. apply (foldl_max_some (fun v => (v <=? latest) && (time v <=? cutoff))) in Ec as [?|[Hc Hp]]; [done|].
  apply (foldl_max_some (fun v => (v <=? latest) && (v <=? c))) in H as [?|[Hb Hq]]; [done|].
  apply elem_of_list_omap in Hc as (f & Hf & Hk). apply elem_of_list_omap in Hb as (g & Hg & Hkg).
  destruct (lf_kind f) eqn:Ef; try done. destruct (lf_kind g) eqn:Eg; try done.
  injection Hk as ->. injection Hkg as ->. split_and!; [lia|eauto|]. exists c, f. split_and!; [lia|lia|done|done|lia].
Qed.
Lemma cleanup_elem time latest cutoff files b f :
  retention_checkpoint time latest cutoff files = Some b ->
  f ∈ cleanup time latest cutoff files <-> f ∈ files /\ expires_before b f = false.
Proof. intros H. unfold cleanup. rewrite H, elem_of_list_filter. tauto. Qed.
Lemma readable_mono files files' c v :
  (forall f, f ∈ files -> f ∈ files') -> readable_from files c v -> readable_from files' c v.
Proof.
  intros Hs (H1 & H2 & H3). split_and!; [lia|lia|..].
  - destruct H2 as [?|(? & f & ? & ?)]; [by left|]. right. eauto.
  - intros w Hw. destruct (H3 w Hw) as (f & ? & ?). eauto.
Qed.
Lemma hint_upto_mono files files' h c :
  (forall f, f ∈ files -> f ∈ files') -> hint_upto files h c -> hint_upto files' h c.
Proof.
  intros Hs. destruct h as [[hv loc]|]; cbn; [|done]. intros [H1 H2]. split; [done|].
  intros l Hl. destruct (H2 l Hl) as [?|(f & ? & ?)]; [by left|]. right. eauto.
Qed.
Lemma cleanup_keeps time latest cutoff files h c v :
  monotone_times time latest -> retained time latest cutoff v ->
  readable_from files c v -> hint_upto files h c ->
  exists c', c <= c' /\ readable_from (cleanup time latest cutoff files) c' v /\
             hint_upto (cleanup time latest cutoff files) h c'.
Proof.
  intros Hm [Hv Hr] Hrd Hh.
  destruct (retention_checkpoint time latest cutoff files) as [b|] eqn:E.
  2:{ exists c. unfold cleanup. rewrite E. split_and!; [lia|done|done]. }
  pose proof E as (Hb & (fb & Hfb & Hkb) & cc & fc & Hcc & Hfc & Hkc & Ht)%retention_checkpoint_spec.
  assert (b <= v) as Hbv.
  { destruct Hr as [Hr| ->]; [|done]. destruct (decide (b <= v)); [done|].
    specialize (Hm v cc). lia. }
  pose proof (fun f => cleanup_elem time latest cutoff files b f E) as Hcl.
  assert (forall w f, f ∈ files -> lf_kind f = KCommit w \/ lf_kind f = KCheckpoint w -> b <= w ->
            f ∈ cleanup time latest cutoff files) as Hkeep.
  { intros w f Hf Hk Hw. apply Hcl. split; [done|]. unfold expires_before, lf_first. destruct Hk as [-> | ->]; lia. }
  destruct Hrd as (H1 & H2 & H3).
  exists (Z.max c b). split; [lia|]. split.
  - split_and!; [lia|lia|..].
    + destruct (decide (b <= c)) as [Hbc|Hbc].
      * replace (Z.max c b) with c by lia. destruct H2 as [?|(? & f & ? & ?)]; [by left|]. right. split; [done|].
        exists f. split; [|done]. apply (Hkeep c); auto.
      * right. replace (Z.max c b) with b by lia. split; [lia|]. exists fb. split; [|done]. apply (Hkeep b); auto. lia.
    + intros w Hw. destruct (H3 w) as (f & ? & ?); [lia|]. exists f. split; [|done]. apply (Hkeep w); auto. lia.
  - destruct h as [[hv loc]|]; cbn in *; [|done]. destruct Hh as [Hhv Hl]. split; [lia|].
    intros l Hl'. destruct (decide (hv < Z.max c b)) as [|Hge]; [by left|]. right.
    destruct (Hl l Hl') as [?|(f & ? & ? & ?)]; [lia|]. exists f. split; [|done]. apply (Hkeep hv); auto. lia.
Qed.

Lemma cleanup_deletes_older time latest cutoff files f :
  f ∈ files -> f ∉ cleanup time latest cutoff files ->
  exists b g, g ∈ cleanup time latest cutoff files /\ lf_kind g = KCheckpoint b /\ b <= latest /\
    last_version f < b /\
    exists c h, b <= c <= latest /\ h ∈ files /\ lf_kind h = KCommit c /\ time c <= cutoff.
Proof.
  intros Hf Hn. destruct (retention_checkpoint time latest cutoff files) as [b|] eqn:E.
  2:{ unfold cleanup in Hn. by rewrite E in Hn. }
  pose proof E as (Hb & (g & Hg & Hk) & Hc)%retention_checkpoint_spec.
  pose proof (fun f => cleanup_elem time latest cutoff files b f E) as Hcl.
  exists b, g. split_and!; [|done|done| |done].
  - apply Hcl. split; [done|]. unfold expires_before, lf_first. rewrite Hk. lia.
  - destruct (expires_before b f) eqn:Ee.
    + unfold expires_before in Ee. unfold last_version. destruct (lf_kind f); lia.
    + exfalso. apply Hn, Hcl. done.
Qed.

(** ** After a clean-up, complete or not *)
From Verif.Delta Require Import ReplaySpec LogStepModel LogStepSpec LogStepProofs LoadTheorems.
Lemma cuts_used_delete ops gone : cuts_used (ops ++ [LDelete gone]) = cuts_used ops.
Proof. unfold cuts_used. rewrite history_snoc, app_nil_r, omap_app. cbn. by rewrite app_nil_r. Qed.
Lemma cleanup_then_load ops gone time latest cutoff c v :
  let lg := log_run ops in
  (forall f, gone f = true -> f ∉ cleanup time latest cutoff (lg_files lg)) ->
  monotone_times time latest -> retained time latest cutoff v -> 0 <= v ->
  readable_from (lg_files lg) c v -> hint_upto (lg_files lg) (lg_hint lg) c ->
  no_compacted_file (lg_files lg) -> times_recorded ops ->
  table_protocol (acts_between (history ops) 0 v) <> None -> table_metadata (acts_between (history ops) 0 v) <> None ->
  exists st ts, load_state (lg_hint lg) [] (filter (fun f => gone f = false) (lg_files lg)) v = Some (st, ts) /\
    is_table_upto (cuts_used ops) (acts_between (history ops) 0 v) st.
Proof.
  intros lg Hgone Hm Hr Hv Hrd Hh Hnc Ht Hp Hmd.
  destruct (cleanup_keeps time latest cutoff (lg_files lg) (lg_hint lg) c v Hm Hr Hrd Hh) as (c' & _ & Hrd' & Hh').
  set (ops' := ops ++ [LDelete gone]).
  assert (lg_files (log_run ops') = filter (fun f => gone f = false) (lg_files lg) /\ lg_hint (log_run ops') = lg_hint lg) as [Hfiles Hhint].
  { unfold ops'. rewrite log_run_snoc. fold lg. by destruct lg as [files h n]. }
  assert (history ops' = history ops) as Hhist by (unfold ops'; by rewrite history_snoc, app_nil_r).
  assert (forall f, f ∈ cleanup time latest cutoff (lg_files lg) -> f ∈ filter (fun f => gone f = false) (lg_files lg)) as Hsub.
  { intros f Hf. apply elem_of_list_filter. split.
    - destruct (gone f) eqn:E; [|done]. by apply Hgone in E.
    - unfold cleanup in Hf. destruct (retention_checkpoint _ _ _ _); [|done]. apply elem_of_list_filter in Hf. tauto. }
  assert (no_compacted_file (lg_files (log_run ops'))) as Hnc'.
  { intros f s e Hf. rewrite Hfiles in Hf. apply elem_of_list_filter in Hf as [_ Hf]. by apply Hnc. }
  destruct (load_state_succeeds ops' c' v) as (st & ts & Hl); [done|done|..].
  - rewrite Hfiles. by eapply readable_mono.
  - rewrite Hfiles, Hhint. by eapply hint_upto_mono.
  - unfold times_recorded. rewrite Hhist. exact Ht.
  - by rewrite Hhist.
  - by rewrite Hhist.
  - exists st, ts. pose proof Hl as [_ Htab]%load_state_plain; [|done].
    rewrite Hfiles, Hhint in Hl. split; [done|]. rewrite Hhist in Htab. unfold ops' in Htab. by rewrite cuts_used_delete in Htab.
Qed.

(** ** Nothing deleted: every version from the last checkpoint on loads *)
Definition never_deletes (ops : list lop) : Prop := forall gone, LDelete gone ∉ ops.
Definition never_compacts (ops : list lop) : Prop := forall s e m loc t, LCompact s e m loc t ∉ ops.
Lemma log_complete ops :
  never_deletes ops ->
  let lg := log_run ops in
  (forall w, 0 <= w < Z.of_nat (length (history ops)) -> exists f, f ∈ lg_files lg /\ lf_kind f = KCommit w) /\
  (forall h, lg_hint lg = Some h -> 0 <= h_version h < Z.of_nat (length (history ops)) /\
     exists f, f ∈ lg_files lg /\ lf_kind f = KCheckpoint (h_version h) /\
       forall loc, h_v2 h = Some loc -> lf_loc f = loc).
Proof.
  induction ops as [|op ops IH] using rev_ind; [cbn; split; [intros; lia|done]|].
  intros Hnd. assert (never_deletes ops) as Hnd' by (intros g Hg; apply (Hnd g); set_solver).
  specialize (IH Hnd'). pose proof (log_ok_run ops) as Hok.
  rewrite log_run_snoc. destruct (log_run ops) as [files h n] eqn:Er. cbn in IH. destruct IH as [H1 H2].
  destruct op as [acts mtime|v now v2 loc mtime sh|s e min_ts loc mtime|gone]; cbn [log_step]; rewrite history_snoc.
  - cbn [lg_files lg_hint]. rewrite app_length. cbn [length]. destruct Hok as [Hn _]. cbn in Hn. split.
    + intros w Hw. destruct (decide (w = n)) as [->|].
      * eexists. split; [apply elem_of_cons; by left|done].
      * destruct (H1 w) as (f & ? & ?); [lia|]. exists f. split; [set_solver|done].
    + intros h' Hh. destruct (H2 h' Hh) as (? & f & ? & ?). split; [lia|]. exists f. split; [set_solver|done].
  - rewrite app_nil_r. destruct (checkpoint_content h files v now v2) as [rows|] eqn:Ec; [|done].
    destruct (checkpoint_content_ok ops (TLog files h n) v now v2 rows loc mtime sh Hok Ec) as [Hv _].
    cbn [lg_files lg_hint]. set (nf := LFile (KCheckpoint v) loc mtime rows).
    assert (forall f, f ∈ files -> lf_kind f <> KCheckpoint v \/ lf_loc f <> loc -> f ∈ put_file nf files) as Hold.
    { intros f Hf Hne. unfold put_file. apply elem_of_cons. right. apply elem_of_list_filter. split; [|done].
      unfold same_file. apply andb_false_iff. cbn. destruct Hne as [Hne|Hne]; [left|right]; apply bool_decide_eq_false; congruence. }
    split.
    + intros w Hw. destruct (H1 w Hw) as (f & Hf & Hk). exists f. split; [|done]. apply Hold; [done|]. left. congruence.
    + intros h' Hh. destruct sh; cbn in Hh.
      * injection Hh as <-. cbn. split; [done|]. exists nf. split; [unfold put_file; set_solver|]. split; [done|].
        intros l Hl. destruct v2; [|done]. by injection Hl as ->.
      * destruct (H2 h' Hh) as (Hr & f & Hf & Hk & Hl). split; [done|].
        destruct (decide (lf_kind f = KCheckpoint v /\ lf_loc f = loc)) as [[Hkv Hlc]|Hne].
        -- exists nf. split; [unfold put_file; set_solver|]. cbn. split; [congruence|]. intros l Hl'. rewrite <- (Hl l Hl'). done.
        -- exists f. split; [|done]. apply Hold; [done|]. destruct (decide (lf_kind f = KCheckpoint v)); [right|by left]. tauto.
  - rewrite app_nil_r. destruct (_ && _); [|done]. destruct (compaction_content files s e min_ts); [|done].
    cbn [lg_files lg_hint]. split.
    + intros w Hw. destruct (H1 w Hw) as (f & ? & ?). exists f. split; [set_solver|done].
    + intros h' Hh. destruct (H2 h' Hh) as (? & f & ? & ?). split; [done|]. exists f. split; [set_solver|done].
  - exfalso. apply (Hnd gone). set_solver.
Qed.
Lemma never_compacts_files ops : never_compacts ops -> no_compacted_file (lg_files (log_run ops)).
Proof.
  intros Hn f s e Hf Hk. destruct (log_ok_run ops) as [_ Hok]. apply Hok in Hf. unfold file_ok in Hf. rewrite Hk in Hf.
  destruct Hf as (_ & _ & m & loc & t & Hin & _). by apply (Hn s e m loc t).
Qed.
Lemma load_recent ops v :
  let lg := log_run ops in
  never_deletes ops -> never_compacts ops -> times_recorded ops ->
  0 <= v < Z.of_nat (length (history ops)) ->
  (forall h, lg_hint lg = Some h -> h_version h <= v) ->
  table_protocol (acts_between (history ops) 0 v) <> None -> table_metadata (acts_between (history ops) 0 v) <> None ->
  exists st ts, load_state (lg_hint lg) [] (lg_files lg) v = Some (st, ts) /\
    is_table_upto (cuts_used ops) (acts_between (history ops) 0 v) st.
Proof.
  intros lg Hd Hc Ht Hv Hh Hp Hm. destruct (log_complete ops Hd) as [H1 H2]. fold lg in H1, H2.
  pose proof (never_compacts_files ops Hc) as Hnc. fold lg in Hnc.
  assert (exists c, readable_from (lg_files lg) c v /\ hint_upto (lg_files lg) (lg_hint lg) c) as (c & Hrd & Hhu).
  { destruct (lg_hint lg) as [h|] eqn:Eh.
    - destruct (H2 h eq_refl) as (Hr & f & Hf & Hk & Hl). exists (h_version h). specialize (Hh h eq_refl). split.
      + split_and!; [lia|lia|right; split; [lia|eauto]|]. intros w Hw. apply H1. lia.
      + cbn. split; [lia|]. intros loc Hloc. right. exists f. auto.
    - exists (-1). split; [|done]. split_and!; [lia|lia|by left|]. intros w Hw. apply H1. lia. }
  destruct (load_state_succeeds ops c v) as (st & ts & Hl); [done|lia|done..|].
  exists st, ts. split; [done|]. by apply load_state_plain in Hl as [_ ?].
Qed.
