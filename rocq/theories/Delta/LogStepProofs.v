(** The files of the log always say what the commits said. *)
From Coq Require Import NArith ZArith ZifyN Lia.
From stdpp Require Import prelude list gmap sorting.
From Verif.Lib Require Import Text Sort ListFacts.
From Verif.Delta Require Import ActionModel LogModel ReplaySpec ReplayProofs CompactSpec CompactProofs
  SegmentSpec SegmentProofs LoadProofs LogStepModel LogStepSpec.
Local Open Scope Z_scope.

Lemma history_snoc ops op :
  history (ops ++ [op]) = history ops ++ match op with LCommit acts _ => [acts] | _ => [] end.
Proof. unfold history. rewrite omap_app. by destruct op. Qed.
Lemma log_run_snoc ops op : log_run (ops ++ [op]) = log_step (log_run ops) op.
Proof. unfold log_run. by rewrite foldl_app. Qed.
Lemma acts_at_app hist l v : v < Z.of_nat (length hist) -> 0 <= v -> acts_at (hist ++ l) v = acts_at hist v.
Proof. intros H1 H2. unfold acts_at. rewrite lookup_app_l by lia. done. Qed.
Lemma flat_map_ext_elem' {A B} (f g : A -> list B) (l : list A) :
  (forall x, x ∈ l -> f x = g x) -> flat_map f l = flat_map g l.
Proof.
  induction l as [|x l IH]; intros H; cbn; [done|]. rewrite (H x) by set_solver. f_equal. apply IH. set_solver.
Qed.
Lemma acts_between_app_hist hist l s e :
  0 <= s -> e < Z.of_nat (length hist) -> acts_between (hist ++ l) s e = acts_between hist s e.
Proof.
  intros H1 H2. unfold acts_between. apply flat_map_ext_elem'. intros v Hv%zrange_elem. apply acts_at_app; lia.
Qed.
Lemma acts_between_app hist s m e :
  s <= m + 1 -> m <= e -> acts_between hist s e = acts_between hist s m ++ acts_between hist (m + 1) e.
Proof. intros. unfold acts_between. rewrite (zrange_app s m e) by lia. apply flat_map_app. Qed.
Lemma acts_between_one hist v : acts_between hist v v = acts_at hist v.
Proof. unfold acts_between. rewrite zrange_one. cbn. by rewrite app_nil_r. Qed.
Lemma acts_between_nil hist s e : e < s -> acts_between hist s e = [].
Proof. intros. unfold acts_between. by rewrite zrange_nil by lia. Qed.

Lemma cuts_used_mono ops op : cuts_used ops ⊆ cuts_used (ops ++ [op]).
Proof.
  intros c (x & Hx & Hc)%elem_of_list_omap. unfold cuts_used. apply elem_of_list_omap. exists x.
  split; [set_solver|]. destruct x as [|v now v2 loc mtime sh| |]; try done.
  revert Hc. rewrite history_snoc. destruct ((0 <=? v) && (v <? Z.of_nat (length (history ops)))) eqn:E; [|done].
  rewrite app_length. set (k := length (match op with LCommit acts _ => [acts] | _ => [] end)). clearbody k.
  apply andb_true_iff in E as [E1%Z.leb_le E2%Z.ltb_lt].
  assert ((0 <=? v) && (v <? Z.of_nat (length (history ops) + k)) = true) as ->.
  { apply andb_true_iff. split; [by apply Z.leb_le|apply Z.ltb_lt]. lia. }
  by rewrite acts_between_app_hist by lia.
Qed.

(** What each file of the log holds. *)
Definition file_ok (ops : list lop) (f : lfile) : Prop :=
  let hist := history ops in
  match lf_kind f with
  | KCommit v => 0 <= v < Z.of_nat (length hist) /\ lf_rows f = acts_at hist v
  | KCheckpoint v => 0 <= v < Z.of_nat (length hist) /\
      is_table_upto (cuts_used ops) (acts_between hist 0 v) (replay rs_empty (lf_rows f))
  | KCompacted s e => 0 <= s < e /\ e < Z.of_nat (length hist) /\
      exists min_ts loc mtime, LCompact s e min_ts loc mtime ∈ ops /\
        lf_rows f = compacted_rows min_ts (replay rs_empty (acts_between hist s e))
  | KChecksum _ => True
  end.
Definition log_ok (ops : list lop) (lg : tlog) : Prop :=
  lg_next lg = Z.of_nat (length (history ops)) /\ forall f, f ∈ lg_files lg -> file_ok ops f.

Lemma file_ok_mono ops op f : file_ok ops f -> file_ok (ops ++ [op]) f.
Proof.
  unfold file_ok. rewrite history_snoc, app_length. destruct (lf_kind f) as [v|v|v|s e]; [..|done|].
  - intros [H1 H2]. split; [lia|]. by rewrite acts_at_app by lia.
  - intros [H1 H2]. split; [lia|]. rewrite acts_between_app_hist by lia.
    eapply is_table_upto_weaken; [apply cuts_used_mono|done].
  - intros (H1 & H2 & min_ts & loc & mtime & Hin & Hr). split; [done|]. split; [lia|]. exists min_ts, loc, mtime.
    split; [set_solver|]. by rewrite acts_between_app_hist by lia.
Qed.

(** Commits in the order of their versions say what the history says. *)
Lemma rows_between ops (l : list (Z * lfile)) a b :
  (forall k, k ∈ l -> lf_rows k.2 = acts_at (history ops) k.1) ->
  l.*1 = zrange a b -> flat_map (fun k => lf_rows k.2) l = acts_between (history ops) a b.
Proof.
  intros Hl Hv. unfold acts_between. rewrite <- Hv. clear Hv.
  induction l as [|k l IH]; cbn; [done|]. rewrite Hl by set_solver. f_equal. apply IH. set_solver.
Qed.
Lemma replay_commits_success commits start last expected s x s' :
  replay_commits commits start last expected s = Some (x, s') ->
  let used := filter (fun k => start <= k.1 <= last) commits in
  expected <= x /\ used.*1 = zrange expected (x - 1) /\ s'.1 = replay s.1 (flat_map (fun k => lf_rows k.2) used).
Proof.
  revert expected s. induction commits as [|[v f] l IH]; intros expected s H used; cbn in H.
  - injection H as -> ->. split; [lia|]. cbn. by rewrite zrange_nil by lia.
  - unfold used. destruct ((v <? start) || (last <? v)) eqn:E.
    + rewrite filter_cons_False by (cbn; lia). by apply IH.
    + rewrite filter_cons_True by (cbn; lia). destruct (Z.eqb_spec v expected) as [->|]; [|done].
      destruct (replay_commit s expected f) as [s1|] eqn:Er; cbn in H; [|done].
      destruct (IH _ _ H) as (H1 & H2 & H3). split; [lia|]. cbn [fmap list_fmap fst flat_map]. split.
      * rewrite (zrange_cons expected) by lia. f_equal. exact H2.
      * rewrite H3. cbn [snd]. rewrite replay_app. f_equal. unfold replay_commit in Er.
        destruct (commit_time _ _ _ _ _); cbn in Er; [|done]. by injection Er as <-.
Qed.
Lemma replay_plain_success ops commits start last s s' :
  start <= last + 1 -> (forall k, k ∈ commits -> lf_rows k.2 = acts_at (history ops) k.1) ->
  replay_plain commits start last s = Some s' -> s'.1 = replay s.1 (acts_between (history ops) start last).
Proof.
  intros Hs Hk. unfold replay_plain. destruct (last <? start) eqn:E.
  - intros [= ->]. by rewrite acts_between_nil by lia.
  - destruct (replay_commits _ _ _ _ _) as [[x s1]|] eqn:Er; cbn; [|done].
    destruct (x - 1 =? last) eqn:Ex; [|done]. intros [= <-].
    apply replay_commits_success in Er as (_ & Hv & ->). f_equal.
    replace last with (x - 1) by lia. replace (x - 1) with last in Hv by lia.
    replace (x - 1) with last by lia. eapply rows_between; [|exact Hv].
    intros k [_ H]%elem_of_list_filter. by apply Hk.
Qed.
Lemma checkpoint_content_ok ops lg v now v2 rows loc mtime sh :
  log_ok ops lg -> checkpoint_content (lg_hint lg) (lg_files lg) v now v2 = Some rows ->
  0 <= v < Z.of_nat (length (history ops)) /\
  is_table_upto (cuts_used (ops ++ [LCheckpoint v now v2 loc mtime sh])) (acts_between (history ops) 0 v) (replay rs_empty rows).
Proof.
  intros [Hn Hok]. unfold checkpoint_content. destruct (v <? 0) eqn:Ev; [done|].
  set (offset := match lg_hint lg with Some h => Z.min (h_version h) v - 1 | None => 0 end).
  set (commits := sort_asc fst (omap (commit_of v) (list_entries offset (lg_files lg)))).
  set (cps := sort_asc fst (omap (checkpoint_of v) (list_entries offset (lg_files lg)))).
  assert (forall k, k ∈ commits -> 0 <= k.1 < Z.of_nat (length (history ops)) /\ lf_rows k.2 = acts_at (history ops) k.1) as Hcm.
  { intros [w f] Hk. unfold commits in Hk. rewrite sort_asc_perm in Hk. apply commit_of_elem in Hk as (Hf & Hk & _).
    apply Hok in Hf. unfold file_ok in Hf. by rewrite Hk in Hf. }
  assert (exists st start, (match last cps with Some (cv, f) => (replay rs_empty (lf_rows f), cv + 1) | None => (rs_empty, 0) end) = (st, start)
     /\ rs_ok st /\ 0 <= start <= v + 1 /\ start <= Z.of_nat (length (history ops)) /\
     is_table_upto (cuts_used ops) (acts_between (history ops) 0 (start - 1)) st) as (st & start & -> & Hst & Hs & Hs' & Ht).
  { destruct (last cps) as [[cv f]|] eqn:El.
    - assert ((cv, f) ∈ cps) as Hin. { apply last_Some in El as [l' ->]. set_solver. }
      unfold cps in Hin. rewrite sort_asc_perm in Hin. apply checkpoint_of_elem in Hin as (Hf & Hk & Hr).
      apply Hok in Hf. unfold file_ok in Hf. rewrite Hk in Hf. destruct Hf as [Hcv Ht].
      exists (replay rs_empty (lf_rows f)), (cv + 1). split; [done|]. split; [apply rs_ok_replay, rs_ok_empty|].
      split_and!; [lia|lia|lia|]. by replace (cv + 1 - 1) with cv by lia.
    - exists rs_empty, 0. split; [done|]. split; [apply rs_ok_empty|]. split_and!; [lia|lia|lia|].
      rewrite acts_between_nil by lia. apply (is_table_upto_refl _ []). }
  destruct (replay_plain commits start v (st, ∅)) as [s|] eqn:Er; cbn [mbind option_bind]; [|done].
  assert (v < Z.of_nat (length (history ops))) as Hv.
  { destruct (decide (v < start)); [lia|]. unfold replay_plain in Er. replace (v <? start) with false in Er by lia.
    destruct (replay_commits _ _ _ _ _) as [[x s1]|] eqn:Ec; cbn in Er; [|done].
    destruct (x - 1 =? v) eqn:Ex; [|done].
    apply replay_commits_success in Ec as (_ & Hvs & _).
    assert (v ∈ zrange start (x - 1)) as Hin by (apply zrange_elem; lia). rewrite <- Hvs in Hin.
    apply elem_of_list_fmap in Hin as (k & -> & [_ Hk]%elem_of_list_filter). apply Hcm in Hk. lia. }
  apply (replay_plain_success ops) in Er; [|lia|intros k Hk; by apply Hcm]. cbn in Er.
  assert (is_table_upto (cuts_used ops) (acts_between (history ops) 0 v) s.1) as Htab.
  { rewrite (acts_between_app _ 0 (start - 1) v) by lia. replace (start - 1 + 1) with start by lia.
    rewrite Er. by apply is_table_upto_replay. }
  assert (rs_ok s.1) as Hoks by (rewrite Er; by apply rs_ok_replay).
  destruct (prune now s.1) as [st'|] eqn:Ep; cbn [mbind option_bind]; [|done].
  intros Hrows. split; [lia|].
  assert (replay rs_empty rows = st') as ->.
  { pose proof (rs_ok_prune _ _ _ Hoks Ep) as Hok'. apply rows_match_restore; [done|].
    destruct v2; [by apply v2_rows_match|by apply classic_rows_match]. }
  destruct (is_table_upto_prune _ _ _ _ _ Htab Ep) as (m & Hm & Hup).
  eapply is_table_upto_weaken; [|exact Hup]. intros c [Hc|Hc]%elem_of_app; [by apply cuts_used_mono|].
  apply elem_of_list_singleton in Hc as ->. unfold cuts_used. apply elem_of_list_omap.
  exists (LCheckpoint v now v2 loc mtime sh). split; [set_solver|]. rewrite history_snoc, app_nil_r.
  assert ((0 <=? v) && (v <? Z.of_nat (length (history ops))) = true) as -> by lia. by rewrite Hm.
Qed.
Lemma compaction_content_ok ops lg s e min_ts rows :
  log_ok ops lg -> 0 <= s <= e -> compaction_content (lg_files lg) s e min_ts = Some rows ->
  e < Z.of_nat (length (history ops)) /\
  rows = compacted_rows min_ts (replay rs_empty (acts_between (history ops) s e)).
Proof.
  intros [Hn Hok] Hse. unfold compaction_content.
  destruct (mapM (read_commit (lg_files lg)) (zrange s e)) as [acts|] eqn:E; cbn [mbind option_bind]; [|done].
  intros [= <-].
  assert (forall v a, read_commit (lg_files lg) v = Some a -> v < Z.of_nat (length (history ops)) /\ a = acts_at (history ops) v) as Hr.
  { intros v a Ha. unfold read_commit in Ha. apply head_elem, elem_of_list_omap in Ha as (f & Hf & Ha).
    destruct (lf_kind f) as [w| | |] eqn:Ek; try done. destruct (Z.eqb_spec w v) as [->|]; [|done]. injection Ha as <-.
    apply Hok in Hf. unfold file_ok in Hf. rewrite Ek in Hf. split; [lia|tauto]. }
  split.
  - apply mapM_Some in E. assert (e ∈ zrange s e) as He by (apply zrange_elem; lia).
    apply elem_of_list_lookup in He as [i Hi]. destruct (Forall2_lookup_l _ _ _ _ _ E Hi) as (a & _ & Ha).
    by apply Hr in Ha as [? _].
  - do 2 f_equal. unfold acts_between. apply mapM_Some in E. induction E as [|v a vs acts Ha E IH]; cbn; [done|].
    apply Hr in Ha as [_ ->]. by rewrite IH.
Qed.
Lemma log_ok_run ops : log_ok ops (log_run ops).
Proof.
  induction ops as [|op ops IH] using rev_ind; [split; [done|cbn; set_solver]|].
  rewrite log_run_snoc. pose proof IH as [Hn Hok]. destruct (log_run ops) as [files h n] eqn:Er.
  cbn in Hn, Hok.
  assert (forall f, f ∈ files -> file_ok (ops ++ [op]) f) as Hold by (intros; by apply file_ok_mono, Hok).
  destruct op as [acts mtime|v now v2 loc mtime sh|s e min_ts loc mtime|gone]; cbn [log_step].
  - split; cbn.
    + rewrite history_snoc, app_length. cbn. lia.
    + intros f [->|Hf]%elem_of_cons; [|by apply Hold]. unfold file_ok. cbn. rewrite history_snoc, app_length. cbn.
      split; [lia|]. unfold acts_at. rewrite Hn, Nat2Z.id, lookup_app_r by lia. by rewrite Nat.sub_diag.
  - destruct (checkpoint_content h files v now v2) as [rows|] eqn:Ec.
    + destruct (checkpoint_content_ok ops (TLog files h n) v now v2 rows loc mtime sh IH Ec) as [Hv Ht].
      split; cbn; [by rewrite history_snoc, app_nil_r|]. intros f [->|Hf]%elem_of_cons.
      * unfold file_ok. cbn. rewrite history_snoc, app_nil_r. done.
      * apply elem_of_list_filter in Hf as [_ Hf]. by apply Hold.
    + split; [by rewrite history_snoc, app_nil_r|done].
  - destruct (_ && _) eqn:Eg; [|split; [by rewrite history_snoc, app_nil_r|done]].
    destruct (compaction_content files s e min_ts) as [rows|] eqn:Ec;
      [|split; [by rewrite history_snoc, app_nil_r|done]].
    destruct (compaction_content_ok ops (TLog files h n) s e min_ts rows IH) as [He Hrows]; [lia|done|].
    split; cbn; [by rewrite history_snoc, app_nil_r|]. intros f [->|Hf]%elem_of_cons; [|by apply Hold].
    unfold file_ok. cbn. rewrite history_snoc, app_nil_r. split_and!; [lia|lia|done|].
    exists min_ts, loc, mtime. split; [set_solver|done].
  - split; cbn; [by rewrite history_snoc, app_nil_r|].
    intros f [_ Hf]%elem_of_list_filter. by apply Hold.
Qed.
