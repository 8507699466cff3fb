(** What holds of every run of the commit loop. *)
From Coq Require Import NArith ZArith ZifyN Lia.
From stdpp Require Import prelude list gmap.
From Verif.Lib Require Import Text ListFacts.
From Verif.Delta Require Import ActionModel LogModel CommitModel CommitSpec ConflictProofs CommitProofs.
Local Open Scope Z_scope.

Lemma sys_run_snoc ops op :
  sys_run (ops ++ [op]) = (let '(y', ev) := sys_step (sys_run ops).1 op in (y', (sys_run ops).2 ++ ev)).
Proof. unfold sys_run. rewrite foldl_app. done. Qed.

Lemma timely_snoc ops op : timely_cleanup (ops ++ [op]) ->
  timely_cleanup ops /\
  (forall b, op = SClean b -> forall id w v, writer_of ops id = Some w -> may_write w = Some v -> b <= v).
Proof.
  intros H. split.
  - intros before b after -> id w v. apply (H before b (after ++ [op])). rewrite <- app_assoc. done.
  - intros b -> id w v. apply (H ops b []). done.
Qed.

Lemma state_at_clean first s h b v st :
  store_ok first s h -> st_base s = Some (v, st) -> b <= v ->
  store_ok (Z.max first b) (Store (filter (fun kf => b <= kf.1) (st_files s)) (st_base s)) h.
Proof.
  intros (H0 & H & Hb) Eb Hle. rewrite Eb in Hb. split; [lia|]. split; cbn.
  - intros x. destruct (Z.max first b <=? x) eqn:Em.
    + destruct (commit_at h x) as [f|] eqn:Ec.
      * apply map_filter_lookup_Some. cbn. split; [|lia]. rewrite H. by replace (first <=? x) with true by lia.
      * apply map_filter_lookup_None. left. rewrite H. by destruct (first <=? x).
    + apply map_filter_lookup_None. destruct (decide (b <= x)).
      * left. rewrite H. by replace (first <=? x) with false by lia.
      * right. intros f _. cbn. lia.
  - rewrite Eb. destruct Hb. split; [lia|done].
Qed.

Definition sys_ok (ops : list sop) : Prop :=
  exists first,
    store_ok first (store_of ops) (hist ops) /\
    (forall id w, writer_of ops id = Some w -> writer_ok first (hist ops) w) /\
    ev_version <$> written ops = Z.of_nat <$> seq 0 (length (written ops)).

Lemma sys_ok_step ops op : timely_cleanup (ops ++ [op]) -> sys_ok ops -> sys_ok (ops ++ [op]).
Proof.
  intros [_ Hclean]%timely_snoc (first & Hs & Hw & Hv).
  unfold sys_ok, store_of, writer_of, hist, written in *. rewrite sys_run_snoc.
  destruct (sys_run ops) as [[s ws] evs]. cbn [fst snd y_store y_writers] in *.
  assert (exists first0, store_ok first0 s (ev_file <$> evs ++ []) /\
     (forall id w, ws !! id = Some w -> writer_ok first0 (ev_file <$> evs ++ []) w) /\
     ev_version <$> evs ++ [] = Z.of_nat <$> seq 0 (length (evs ++ []))) as Hsame.
  { exists first. rewrite app_nil_r. done. }
  destruct op as [id req|id req v src|id e|v|b]; cbn [sys_step].
  - destruct (ws !! id) eqn:E; [exact Hsame|]. exists first. cbn. rewrite app_nil_r. split; [done|]. split; [|done].
    intros id' w'. destruct (decide (id = id')) as [<-|Hne].
    + rewrite lookup_insert. intros [= <-]. by apply new_writer_ok.
    + rewrite lookup_insert_ne by done. apply Hw.
  - destruct (ws !! id) eqn:E; [exact Hsame|]. destruct (load s v src) as [sn|] eqn:El; [|exact Hsame].
    exists first. cbn. rewrite app_nil_r. split; [done|]. split; [|done].
    intros id' w'. destruct (decide (id = id')) as [<-|Hne].
    + rewrite lookup_insert. intros [= <-]. apply new_writer_ok. destruct (load_ok _ _ _ _ _ _ Hs El) as (H1 & H2 & H3). split; [done|lia].
    + rewrite lookup_insert_ne by done. apply Hw.
  - destruct (ws !! id) as [w|] eqn:E; [|exact Hsame].
    destruct (writer_step s id w e) as [[s' w'] ev] eqn:Es. cbn.
    destruct (step_writer_ok _ _ _ _ _ _ _ _ _ Hs (Hw _ _ E) Es) as [(-> & -> & Hw')|(f & -> & -> & Hs' & Hw' & _)].
    + exists first. rewrite app_nil_r. split; [done|]. split; [|done]. intros id' w2. destruct (decide (id = id')) as [<-|Hne].
      * rewrite lookup_insert. by intros [= <-].
      * rewrite lookup_insert_ne by done. apply Hw.
    + exists first. rewrite fmap_app. split; [done|]. split.
      * intros id' w2. destruct (decide (id = id')) as [<-|Hne].
        -- rewrite lookup_insert. by intros [= <-].
        -- rewrite lookup_insert_ne by done. intros H. by apply writer_ok_app, Hw in H || apply writer_ok_app, (Hw _ _ H).
      * rewrite fmap_app, app_length, seq_app, fmap_app, Hv. cbn. by rewrite fmap_length.
  - destruct (state_at s v) as [st|] eqn:E; [|exact Hsame]. cbn. exists first. rewrite app_nil_r. split; [|done].
    destruct (state_at_ok _ _ _ _ _ Hs E) as (-> & Hv1 & Hv2). destruct Hs as (H0 & H & _). split; [done|]. split; [done|]. cbn. split; [lia|done].
  - destruct (st_base s) as [[v st]|] eqn:Eb; [|exact Hsame]. destruct (b <=? v) eqn:El; [|exact Hsame]. cbn.
    exists (Z.max first b). rewrite app_nil_r. split; [rewrite <- Eb; eapply state_at_clean; [done|done|lia]|]. split; [|done].
    intros id w H. destruct (Hw _ _ H) as [H1 H2 H3 H4 H5 H6]. split; try done.
    intros x Hx. specialize (H6 _ Hx). specialize (Hclean b eq_refl _ _ _ H Hx). lia.
Qed.
Lemma sys_ok_run ops : timely_cleanup ops -> sys_ok ops.
Proof.
  induction ops as [|op ops IH] using rev_ind; intros Ht.
  - exists 0. split; [split; [done|split; [|done]]|split; [|done]].
    + intros v. cbn. rewrite lookup_empty. unfold commit_at. destruct (0 <=? v); [|done]. by destruct (v <? 0).
    + intros id w H. done.
  - apply sys_ok_step; [done|]. apply IH. by apply timely_snoc in Ht as [? _].
Qed.

(** ** Versions *)
Lemma prefix_snoc (l k : list event) : l `prefix_of` l ++ k.
Proof. by exists k. Qed.
Theorem versions_in_order ops :
  timely_cleanup ops ->
  ev_version <$> written ops = Z.of_nat <$> seq 0 (length (written ops)) /\
  (forall v f, st_files (store_of ops) !! v = Some f -> commit_at (hist ops) v = Some f) /\
  (hist ops <> [] -> is_Some (st_files (store_of ops) !! (zlen (hist ops) - 1))) /\
  (forall more, written ops `prefix_of` written (ops ++ more)).
Proof.
  intros Ht. destruct (sys_ok_run _ Ht) as (first & Hs & _ & Hv). split; [done|]. split_and!.
  - intros v f H. by apply (store_file _ _ _ _ _ Hs) in H as [? _].
  - intros Hh. pose proof (store_first _ _ _ Hs Hh) as Hlt. destruct Hs as (H0 & H & _). rewrite H.
    replace (first <=? zlen (hist ops) - 1) with true by lia. apply commit_at_is_Some. lia.
  - intros more. clear. induction more as [|op more IH] using rev_ind; [by rewrite app_nil_r|].
    etrans; [exact IH|]. unfold written. rewrite app_assoc, sys_run_snoc. destruct (sys_step _ _). cbn. by eexists.
Qed.
Lemma never_cleaned_timely ops : never_cleaned ops -> timely_cleanup ops.
Proof. intros H before b after -> id w v. exfalso. apply (H b). set_solver. Qed.
Theorem all_versions_kept ops v : never_cleaned ops -> st_files (store_of ops) !! v = commit_at (hist ops) v.
Proof.
  intros Hn. assert (exists s h, store_ok 0 s h /\ s = store_of ops /\ h = hist ops) as (s & h & (_ & Hs & _) & -> & ->).
  2: { rewrite Hs. destruct (0 <=? v) eqn:E; [done|]. unfold commit_at. by replace (v <? 0) with true by lia. }
  eexists _, _. split; [|done]. revert Hn. induction ops as [|op ops IH] using rev_ind; intros Hn.
  { split; [done|]. split; [|done]. intros x. cbn. rewrite lookup_empty. unfold commit_at. destruct (0 <=? x); [|done]. by destruct (x <? 0). }
  assert (never_cleaned ops) as Hn' by (intros b Hb; apply (Hn b); set_solver). specialize (IH Hn').
  destruct (sys_ok_run ops (never_cleaned_timely _ Hn')) as (first & Hs & Hw & _).
  assert (forall id w, writer_of ops id = Some w -> writer_ok 0 (hist ops) w) as Hw0.
  { intros id w H. destruct (Hw _ _ H) as [H1 H2 H3 H4 H5 H6]. split; try done. intros x Hx. destruct Hs as [? _].
    specialize (H6 _ Hx). lia. }
  clear Hw Hs first. unfold store_of, hist, written, writer_of in *. rewrite sys_run_snoc.
  destruct (sys_run ops) as [[s ws] evs]. cbn [fst snd y_store y_writers] in *.
  destruct op as [id req|id req w src|id e|w|b]; cbn [sys_step].
  - destruct (ws !! id); cbn; by rewrite app_nil_r.
  - destruct (ws !! id); [cbn; by rewrite app_nil_r|]. destruct (load s w src); cbn; by rewrite app_nil_r.
  - destruct (ws !! id) as [w|] eqn:E; [|cbn; by rewrite app_nil_r].
    destruct (writer_step s id w e) as [[s' w'] ev] eqn:Es. cbn.
    destruct (step_writer_ok _ _ _ _ _ _ _ _ _ IH (Hw0 _ _ E) Es) as [(-> & -> & _)|(f & -> & -> & Hs' & _)].
    + by rewrite app_nil_r.
    + by rewrite fmap_app.
  - destruct (state_at s w) as [st|] eqn:E; [|cbn; by rewrite app_nil_r]. cbn. rewrite app_nil_r.
    destruct (state_at_ok _ _ _ _ _ IH E) as (-> & H1 & H2). destruct IH as (? & ? & _). split; [done|]. split; [done|]. cbn. split; [lia|done].
  - exfalso. apply (Hn b). set_solver.
Qed.

(** ** What is written is what was asked for *)
Lemma set_ict_unstamp t acts : unstamp <$> set_ict t acts = unstamp <$> acts.
Proof. destruct acts as [|[] ?]; done. Qed.
Lemma set_enablement_unstamp v t acts : unstamp <$> set_enablement v t acts = unstamp <$> acts.
Proof. induction acts as [|a acts IH]; [done|]. destruct a; cbn; [by f_equal..]. Qed.
Lemma finalize_requested acts sn v prev now : as_requested acts (finalize acts sn v prev now).
Proof.
  unfold as_requested, finalize. destruct (match effective _ _ _ with Some (p, m) => _ | None => false end).
  - destruct sn as [s|]; [destruct (snap_ict s)|]; rewrite ?set_enablement_unstamp, ?set_ict_unstamp; done.
  - apply set_ict_unstamp.
Qed.

(** The state a writer based its commit on, if it got through. *)
Lemma done_facts ops id w v :
  timely_cleanup ops -> writer_of ops id = Some w -> w_phase w = PDone v ->
  writer_ok 0 (hist ops) w /\
  exists f, commit_at (hist ops) v = Some f /\ as_requested (w_acts w) (cf_acts f) /\ v = read_version w + 1.
Proof.
  intros Ht Hw Hp. destruct (sys_ok_run _ Ht) as (first & Hs & Hall & _). pose proof (Hall _ _ Hw) as Hok.
  split.
  { destruct Hok as [H1 H2 H3 H4 H5 H6]. split; try done. intros x Hx. destruct Hs as [? _]. specialize (H6 _ Hx). lia. }
  pose proof (wk_phase _ _ _ Hok) as Hph. unfold phase_ok in Hph. rewrite Hp in Hph.
  destruct Hph as [Haim (f & prev & now & Hc & Hf)]. exists f. split; [done|]. split; [|done]. rewrite Hf. apply finalize_requested.
Qed.

Theorem commit_content ops id w v :
  timely_cleanup ops -> writer_of ops id = Some w -> w_phase w = PDone v ->
  exists f, commit_at (hist ops) v = Some f /\
    as_requested (match w_table w with
                  | None => if v =? 0 then t_acts (w_req w) else strip (t_acts (w_req w))
                  | Some _ => t_acts (w_req w)
                  end) (cf_acts f).
Proof.
  intros Ht Hw Hp. destruct (done_facts _ _ _ _ Ht Hw Hp) as (Hok & f & Hc & Hr & Hv). exists f. split; [done|].
  rewrite (wk_acts _ _ _ Hok) in Hr. unfold w_creation in Hr. destruct (w_table w) as [r|] eqn:Et.
  - destruct (wk_table _ _ _ Hok _ Et) as (_ & (sn & Hsn & _) & _). rewrite Hsn in Hr. done.
  - unfold read_version in Hv. destruct (w_snap w) as [sn|] eqn:Es.
    + destruct (wk_snap _ _ _ Hok _ Es) as [? _]. replace (v =? 0) with false by lia. done.
    + replace (v =? 0) with true by lia. done.
Qed.

(** ** What happened between reading and writing *)
Theorem next_version_only ops id w v r :
  timely_cleanup ops -> writer_of ops id = Some w -> w_phase w = PDone v ->
  w_table w = Some r -> ~ declared_blind (t_acts (w_req w)) ->
  v = sn_version r + 1 /\ sn_state r = table_at (hist ops) (sn_version r) /\
  exists f, commit_at (hist ops) v = Some f /\ as_requested (t_acts (w_req w)) (cf_acts f) /\
    table_at (hist ops) v = replay (sn_state r) (cf_acts f).
Proof.
  intros Ht Hw Hp Htab Hb. rewrite <- is_blind_spec in Hb. apply not_true_is_false in Hb.
  destruct (done_facts _ _ _ _ Ht Hw Hp) as (Hok & _ & _ & _ & Hv).
  destruct (commit_content _ _ _ _ Ht Hw Hp) as (f & Hc & Hr). rewrite Htab in Hr.
  destruct (wk_table _ _ _ Hok _ Htab) as ((_ & Hst) & _ & Heff).
  rewrite Heff in Hv || idtac. unfold read_version in Hv. rewrite Heff in Hv.
  2: { unfold effective_retries, w_creation. rewrite Htab, Hb. done. }
  split; [done|]. split; [done|]. exists f. split; [done|]. split; [done|].
  rewrite (table_at_next _ _ _ Hc). rewrite Hst. by replace (v - 1) with (sn_version r) by lia.
Qed.

Theorem between_harmless ops id w v r :
  timely_cleanup ops -> writer_of ops id = Some w -> w_phase w = PDone v -> w_table w = Some r ->
  sn_version r < v /\ sn_state r = table_at (hist ops) (sn_version r) /\
  forall u f, sn_version r < u < v -> commit_at (hist ops) u = Some f ->
    exists k, sn_version r <= k < u /\ harmless (table_at (hist ops) k) (w_req w) (t_acts (w_req w)) (cf_acts f).
Proof.
  intros Ht Hw Hp Htab. destruct (done_facts _ _ _ _ Ht Hw Hp) as (Hok & _ & _ & _ & Hv).
  destruct (wk_table _ _ _ Hok _ Htab) as ((_ & Hst) & (sn & Hsn & Hle) & _).
  unfold read_version in Hv. rewrite Hsn in Hv. split; [lia|]. split; [done|].
  destruct (wk_checked _ _ _ Hok _ Hsn) as (k0 & Hk & Hs & Hch). unfold start_ok in Hs. rewrite Htab in Hs. subst k0.
  intros u f Hu Hc. destruct (Hch u f) as (k & Hkk & Hcc); [|done|].
  { unfold checked_upto. rewrite Hp. lia. }
  exists k. split; [done|]. apply check_conflicts_iff. rewrite (wk_acts _ _ _ Hok), Hsn in Hcc. unfold w_creation in Hcc. by rewrite Htab in Hcc.
Qed.

(** A commit without protocol or metadata actions keeps both. *)
Lemma replay_protocol st acts : ~ changes_protocol acts -> rs_protocol (replay st acts) = rs_protocol st.
Proof.
  revert st. induction acts as [|a acts IH]; intros st H; [done|]. cbn. unfold replay in IH. rewrite IH.
  - destruct st, a; cbn; try done. exfalso. apply H. eexists. left.
  - intros (p & Hp). apply H. exists p. by right.
Qed.
Lemma replay_metadata st acts : ~ changes_metadata acts -> rs_metadata (replay st acts) = rs_metadata st.
Proof.
  revert st. induction acts as [|a acts IH]; intros st H; [done|]. cbn. unfold replay in IH. rewrite IH.
  - destruct st, a; cbn; try done. exfalso. apply H. eexists. left.
  - intros (p & Hp). apply H. exists p. by right.
Qed.
Lemma keep_between h r v :
  r <= v < zlen h -> 0 <= r -> (forall u f, r < u <= v -> commit_at h u = Some f -> ~ changes_protocol (cf_acts f) /\ ~ changes_metadata (cf_acts f)) ->
  rs_protocol (table_at h v) = rs_protocol (table_at h r) /\ rs_metadata (table_at h v) = rs_metadata (table_at h r).
Proof.
  intros Hr H0. remember (Z.to_nat (v - r)) as n eqn:Hn. revert v Hn Hr. induction n as [|n IH]; intros v Hn Hr Hall.
  - by replace v with r by lia.
  - destruct (commit_at_is_Some h v) as (f & Hf); [lia|]. rewrite (table_at_next _ _ _ Hf).
    destruct (Hall v f) as [H1 H2]; [lia|done|]. rewrite replay_protocol, replay_metadata by done.
    apply IH; [lia|lia|]. intros u g Hu. apply Hall. lia.
Qed.
Lemma blind_no_protocol req : blind_request req -> protocols (t_acts req) = [] /\ metadatas (t_acts req) = [].
Proof.
  unfold blind_request. induction 1 as [|a l Ha Hl [IH1 IH2]]; [done|]. destruct a; try done.
Qed.

Theorem blind_append_safe ops id w v r :
  timely_cleanup ops -> writer_of ops id = Some w -> w_phase w = PDone v -> w_table w = Some r -> blind_request (w_req w) ->
  (forall u f, sn_version r < u < v -> commit_at (hist ops) u = Some f ->
     ~ changes_protocol (cf_acts f) /\ ~ changes_metadata (cf_acts f) /\
     (forall a, uses_app (t_acts (w_req w)) a -> ~ uses_app (cf_acts f) a)) /\
  rs_protocol (table_at (hist ops) (v - 1)) = rs_protocol (sn_state r) /\
  rs_metadata (table_at (hist ops) (v - 1)) = rs_metadata (sn_state r).
Proof.
  intros Ht Hw Hp Htab Hb. destruct (between_harmless _ _ _ _ _ Ht Hw Hp Htab) as (Hlt & Hst & Hbet).
  destruct (blind_no_protocol _ Hb) as [Hnp Hnm].
  assert (forall u f, sn_version r < u < v -> commit_at (hist ops) u = Some f ->
     ~ changes_protocol (cf_acts f) /\ ~ changes_metadata (cf_acts f) /\
     (forall a, uses_app (t_acts (w_req w)) a -> ~ uses_app (cf_acts f) a)) as Hall.
  { intros u f Hu Hc. destruct (Hbet u f Hu Hc) as (k & _ & [h1 h2 h3 h4 h5 h6]). split_and!; [| |done].
    - intros Hx. destruct (h1 Hx) as (own & Ho & _). by rewrite Hnp in Ho.
    - intros Hx. destruct (h2 Hx) as (own & Ho & _). by rewrite Hnm in Ho. }
  split; [done|]. rewrite Hst. destruct (done_facts _ _ _ _ Ht Hw Hp) as (Hok & f & Hc & _).
  apply commit_at_Some in Hc. destruct (wk_table _ _ _ Hok _ Htab) as ((Hrange & _) & _). apply keep_between; [lia|lia|].
  intros u g Hu Hg. destruct (Hall u g) as (? & ? & _); [lia|done|done].
Qed.

Theorem creation_safe ops id w v :
  timely_cleanup ops -> writer_of ops id = Some w -> w_phase w = PDone v -> w_table w = None ->
  v = 0 \/
  exists k0, 0 <= k0 < v /\
    (forall p, head (protocols (t_acts (w_req w))) = Some p -> rs_protocol (table_at (hist ops) k0) = Some p) /\
    (forall m, head (metadatas (t_acts (w_req w))) = Some m ->
       exists m', rs_metadata (table_at (hist ops) k0) = Some m' /\
         m = Metadata (md_file_retention m') (md_log_retention m') (md_ict m') (md_ict_version m')
               (md_ict_time m') (md_isolation m') (md_id m) (md_rest m')) /\
    forall u f, k0 < u < v -> commit_at (hist ops) u = Some f ->
      exists k, k0 <= k < u /\ harmless (table_at (hist ops) k) (w_req w) (strip (t_acts (w_req w))) (cf_acts f).
Proof.
  intros Ht Hw Hp Htab. destruct (done_facts _ _ _ _ Ht Hw Hp) as (Hok & _ & _ & _ & Hv).
  unfold read_version in Hv. destruct (w_snap w) as [sn|] eqn:Hsn; [right|left; lia].
  destruct (wk_checked _ _ _ Hok _ Hsn) as (k0 & Hk & Hs & Hch). unfold start_ok in Hs. rewrite Htab in Hs.
  exists k0. split; [lia|]. unfold creation_ok in Hs. apply andb_true_iff in Hs as [Hs1 Hs2]. split_and!.
  - intros p Hpr. rewrite Hpr in Hs1. by apply bool_decide_eq_true in Hs1.
  - intros m Hm. rewrite Hm in Hs2. destruct (rs_metadata _) as [m'|]; [|done]. exists m'. split; [done|]. by apply bool_decide_eq_true in Hs2.
  - intros u f Hu Hc. destruct (Hch u f) as (k & Hkk & Hcc); [|done|].
    { unfold checked_upto. rewrite Hp. lia. }
    exists k. split; [done|]. apply check_conflicts_iff. rewrite (wk_acts _ _ _ Hok), Hsn in Hcc. unfold w_creation in Hcc. by rewrite Htab in Hcc.
Qed.

(** ** Each writer writes at most once *)
Lemma put_once ops : no_echo ops ->
  NoDup (ev_writer <$> written ops) /\
  (forall id, id ∈ ev_writer <$> written ops -> exists w, writer_of ops id = Some w /\ finished w).
Proof.
  induction ops as [|op ops IH] using rev_ind; intros He.
  { split; [constructor|]. intros id H. by apply elem_of_nil in H. }
  destruct IH as [Hnd Hfin]; [intros id e H; apply (He id); set_solver|].
  unfold written, writer_of in *. rewrite sys_run_snoc. destruct (sys_run ops) as [[s ws] evs]. cbn [fst snd y_writers] in *.
  assert (Hsame : forall ws' : gmap nat writer, (forall id w, ws !! id = Some w -> finished w -> ws' !! id = Some w) ->
     NoDup (ev_writer <$> evs ++ []) /\
     (forall id, id ∈ ev_writer <$> evs ++ [] -> exists w, ws' !! id = Some w /\ finished w)).
  { intros ws' H. rewrite app_nil_r. split; [done|]. intros id Hid. destruct (Hfin id Hid) as (w & Hw & Hf). exists w. split; [|done]. by apply H. }
  destruct op as [id req|id req v src|id e|v|b]; cbn [sys_step].
  - destruct (ws !! id) eqn:E; cbn; apply Hsame; [done|]. intros id' w' H Hf. rewrite lookup_insert_ne; [done|]. intros ->. congruence.
  - destruct (ws !! id) eqn:E; [by apply Hsame|]. destruct (load s v src); [|by apply Hsame]. cbn. apply Hsame.
    intros id' w' H Hf. rewrite lookup_insert_ne; [done|]. intros ->. congruence.
  - destruct (ws !! id) as [w|] eqn:E; [|by apply Hsame].
    destruct (writer_step s id w e) as [[s' w'] ev] eqn:Es. cbn.
    assert ((ev = [] /\ (finished w -> w' = w)) \/ (exists v f, ev = [EWrote id v f] /\ finished w' /\ ~ finished w)) as Hcase.
    { assert (e_put e <> PutEcho) as Hne by (apply (He id); set_solver).
      revert Es. unfold writer_step. destruct (e_error e).
      - destruct (w_phase w) eqn:Ep; intros [= <- <- <-]; left; (split; [done|]); intros [Hf|[x Hf]]; try congruence.
        destruct w; cbn in *; by subst.
      - destruct (w_phase w) eqn:Ep.
        + destruct (get_latest _ _); [destruct (w_snap w)|]; intros [= <- <- <-]; left; (split; [done|]); intros [Hf|[x Hf]]; congruence.
        + destruct (load _ _ _); intros [= <- <- <-]; left; (split; [done|]); intros [Hf|[x Hf]]; congruence.
        + destruct (st_files s !! v) as [f|]; [destruct (w_snap w); [destruct (check_conflicts _ _ _ _)|]|];
            intros [= <- <- <-]; left; (split; [done|]); intros [Hf|[x Hf]]; congruence.
        + destruct (load _ _ _); intros [= <- <- <-]; left; (split; [done|]); intros [Hf|[x Hf]]; congruence.
        + destruct (w_snap w); [destruct (resolve_time _ _)|]; intros [= <- <- <-]; left; (split; [done|]); intros [Hf|[x Hf]]; congruence.
        + destruct (e_put e) eqn:Epu, (st_files s !! version) as [f|]; try done; intros [= <- <- <-];
            try (left; split; [done|]; intros [Hf|[x Hf]]; congruence);
            right; eexists _, _; (split; [done|]); (split; [|intros [Hf|[x Hf]]; congruence]).
          * right. by eexists.
          * by left.
        + intros [= <- <- <-]. by left.
        + intros [= <- <- <-]. by left. }
    destruct Hcase as [[-> Hk]|(v & f & -> & Hf & Hnf)].
    + apply Hsame. intros id' w2 H Hf. destruct (decide (id = id')) as [<-|Hne]; [|by rewrite lookup_insert_ne].
      rewrite lookup_insert. rewrite E in H. injection H as <-. by rewrite Hk.
    + rewrite fmap_app. cbn. split.
      * apply NoDup_app. split; [done|]. split; [|apply NoDup_singleton]. intros id' Hid Heq. apply elem_of_list_singleton in Heq as ->.
        destruct (Hfin _ Hid) as (w2 & Hw2 & Hf2). rewrite E in Hw2. injection Hw2 as <-. done.
      * intros id' Hid. destruct (decide (id = id')) as [<-|Hne]; [rewrite lookup_insert; eauto|]. rewrite lookup_insert_ne by done.
        apply Hfin. apply elem_of_app in Hid as [?|Hid]; [done|]. apply elem_of_list_singleton in Hid. done.
  - destruct (state_at s v); by apply Hsame.
  - destruct (st_base s) as [[v st]|]; [destruct (b <=? v)|]; by apply Hsame.
Qed.

(** ** Checking the assumption on concrete runs *)
Fixpoint timely_b (y : sys) (ops : list sop) : bool :=
  match ops with
  | [] => true
  | op :: l =>
      match op with
      | SClean b => forallb (fun kw => match may_write kw.2 with Some v => b <=? v | None => true end) (map_to_list (y_writers y))
      | _ => true
      end && timely_b (sys_step y op).1 l
  end.
Lemma timely_b_sound ops : timely_b sys_empty ops = true -> timely_cleanup ops.
Proof.
  intros H before b after -> id w v Hw Hm.
  assert (forall y evs before, timely_b y (before ++ SClean b :: after) = true ->
    timely_b (foldl (fun ye op => let '(y', ev) := sys_step ye.1 op in (y', ye.2 ++ ev)) (y, evs) before).1 (SClean b :: after) = true) as Hgen.
  { clear. intros y evs before. revert y evs. induction before as [|op l IH]; intros y evs H; [done|].
    cbn [app timely_b] in H. apply andb_true_iff in H as [_ H]. cbn [foldl]. cbn [fst snd]. destruct (sys_step y op) as [y' ev]. by apply IH. }
  specialize (Hgen sys_empty [] before H). cbn [timely_b] in Hgen. apply andb_true_iff in Hgen as [Hall _].
  rewrite forallb_forall in Hall. specialize (Hall (id, w)). cbn in Hall. rewrite Hm in Hall. apply Z.leb_le, Hall, elem_of_list_In, elem_of_map_to_list.
  exact Hw.
Qed.
