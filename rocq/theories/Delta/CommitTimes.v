(** In-commit timestamps of every run of the commit loop. *)
From Coq Require Import NArith ZArith ZifyN Lia.
From stdpp Require Import prelude list gmap.
From Verif.Lib Require Import Text ListFacts.
From Verif.Delta Require Import ActionModel LogModel CommitModel CommitSpec ConflictProofs CommitProofs CommitTheorems.
Local Open Scope Z_scope.

(** ** Stamping *)
Lemma version_time_app h l v : v < zlen h -> version_time (h ++ l) v = version_time h v.
Proof. intros H. unfold version_time. by rewrite commit_at_app, table_at_app by done. Qed.
Lemma replay_protocol_last st acts : rs_protocol (replay st acts) = or_else (last_protocol acts) (rs_protocol st).
Proof.
  revert st. induction acts as [|a acts IH] using rev_ind; intros st; [done|]. unfold replay in *. rewrite foldl_app. cbn.
  specialize (IH st). destruct (foldl _ st acts) as [p m t d r1 r2]. unfold last_protocol in *. rewrite omap_app.
  destruct a; cbn in *; rewrite ?app_nil_r, ?last_snoc; done.
Qed.
Lemma replay_metadata_last st acts : rs_metadata (replay st acts) = or_else (last_metadata acts) (rs_metadata st).
Proof.
  revert st. induction acts as [|a acts IH] using rev_ind; intros st; [done|]. unfold replay in *. rewrite foldl_app. cbn.
  specialize (IH st). destruct (foldl _ st acts) as [p m t d r1 r2]. unfold last_metadata in *. rewrite omap_app.
  destruct a; cbn in *; rewrite ?app_nil_r, ?last_snoc; done.
Qed.
Lemma set_ict_last t acts : last_protocol (set_ict t acts) = last_protocol acts /\ last_metadata (set_ict t acts) = last_metadata acts.
Proof. destruct acts as [|[] ?]; done. Qed.
Lemma set_enablement_protocol v t acts : last_protocol (set_enablement v t acts) = last_protocol acts.
Proof.
  unfold last_protocol. f_equal. induction acts as [|a acts IH]; [done|]. destruct a; cbn; by rewrite ?IH.
Qed.
Lemma last_cons_default {A} (x : A) l : last (x :: l) = Some (default x (last l)).
Proof. rewrite last_cons. by destruct (last l). Qed.
Lemma set_enablement_metadata v t acts :
  md_ict <$> last_metadata (set_enablement v t acts) = md_ict <$> last_metadata acts.
Proof.
  unfold last_metadata. rewrite <- !fmap_last. f_equal. induction acts as [|a acts IH]; [done|]. destruct a; cbn; by rewrite ?IH.
Qed.
Lemma or_else_fmap {A B} (f : A -> B) (a b : option A) : f <$> or_else a b = or_else (f <$> a) (f <$> b).
Proof. by destruct a. Qed.
(** Both ways to say that in-commit timestamps are on agree. *)
Definition on (p : option protocol) (i : option bool) : bool :=
  match p, i with Some p, Some b => pr_ict p && b | _, _ => false end.
Definition on_at (h : list cfile) (v : Z) : bool := on (rs_protocol (table_at h v)) (md_ict <$> rs_metadata (table_at h v)).
Lemma ict_on_iff h v : ict_on h v <-> on_at h v = true.
Proof.
  unfold ict_on, on_at, on. destruct (rs_protocol _) as [p|], (rs_metadata _) as [m|]; cbn; split; try done.
  - intros (p' & m' & [= ->] & [= ->] & -> & ->). done.
  - intros [H1 H2]%andb_true_iff. by exists p, m.
  - intros (p' & m' & ? & ? & _). done.
  - intros (p' & m' & ? & ? & _). done.
  - intros (p' & m' & ? & ? & _). done.
Qed.
Lemma finalize_on st acts sn v prev now :
  st = match sn with Some s => sn_state s | None => rs_empty end ->
  on (rs_protocol (replay st (finalize acts sn v prev now))) (md_ict <$> rs_metadata (replay st (finalize acts sn v prev now))) =
  match effective (sn ≫= fun s => rs_protocol (sn_state s)) (sn ≫= fun s => rs_metadata (sn_state s)) acts with
  | Some (p, m) => ict_enabled p m
  | None => false
  end.
Proof.
  intros ->. rewrite replay_protocol_last, replay_metadata_last, or_else_fmap.
  assert (last_protocol (finalize acts sn v prev now) = last_protocol acts /\
          (md_ict <$> last_metadata (finalize acts sn v prev now)) = (md_ict <$> last_metadata acts)) as [-> ->].
  { unfold finalize. destruct (match effective _ _ _ with Some _ => _ | None => _ end).
    - destruct sn as [s|]; [destruct (snap_ict s)|]; rewrite ?set_enablement_protocol, ?set_enablement_metadata;
        destruct (set_ict_last (Some (Z.max now (match prev with Some p => p + 1 | None => now end))) acts) as [-> ->]; done.
    - destruct (set_ict_last None acts) as [-> ->]; done. }
  unfold effective. rewrite <- or_else_fmap.
  destruct sn as [s|]; cbn [mbind option_bind]; destruct (or_else (last_protocol acts) _) as [p|]; cbn; try done;
    destruct (or_else (last_metadata acts) _) as [m|]; done.
Qed.
Lemma set_enablement_ict v t acts : ict_of (set_enablement v t acts) = ict_of acts.
Proof. induction acts as [|a acts IH]; [done|]. destruct a; cbn; by rewrite ?IH. Qed.
Lemma finalize_ict c acts sn v prev now :
  match effective (sn ≫= fun s => rs_protocol (sn_state s)) (sn ≫= fun s => rs_metadata (sn_state s)) (ACommitInfo c :: acts) with
  | Some (p, m) => ict_enabled p m
  | None => false
  end = true ->
  ict_of (finalize (ACommitInfo c :: acts) sn v prev now) = Some (Z.max now (match prev with Some p => p + 1 | None => now end)).
Proof.
  intros H. unfold finalize. rewrite H. destruct sn as [s|]; [destruct (snap_ict s)|]; rewrite ?set_enablement_ict; done.
Qed.

(** ** The invariant *)
Definition time_ok (h : list cfile) (w : writer) : Prop :=
  (exists c l, t_acts (w_req w) = ACommitInfo c :: l) /\
  (forall sn t, (w_snap w = Some sn \/ w_table w = Some sn) -> sn_time sn = Some t -> version_time h (sn_version sn) = Some t) /\
  (forall v acts, w_phase w = PPut v acts ->
     exists prev now, acts = finalize (w_acts w) (w_snap w) v prev now /\
       forall sn, w_snap w = Some sn -> exists t, prev = Some t /\ version_time h (sn_version sn) = Some t).
Definition hist_ok (h : list cfile) : Prop :=
  forall v, 0 <= v < zlen h -> ict_on h v -> exists f t, commit_at h v = Some f /\ ict_of (cf_acts f) = Some t /\
    (0 < v -> exists t0, version_time h (v - 1) = Some t0 /\ t0 < t) /\
    (0 < v -> ~ ict_on h (v - 1) -> forall m, one_metadata (cf_acts f) m ->
       rs_metadata (table_at h v) = Some m /\ md_ict_version m = Some v /\ md_ict_time m = Some t).

Lemma set_enablement_one v t acts m :
  one_metadata (set_enablement v t acts) m -> md_ict_version m = Some v /\ md_ict_time m = Some t.
Proof.
  unfold one_metadata. induction acts as [|a acts IH]; [done|].
  destruct a; cbn [set_enablement omap list_omap]; try done. by intros [= <- _].
Qed.
Lemma replay_one_metadata st acts m : one_metadata acts m -> rs_metadata (replay st acts) = Some m.
Proof. unfold one_metadata. intros H. rewrite replay_metadata_last. unfold last_metadata. by rewrite H. Qed.

Lemma load_time first s h v src sn t :
  store_ok first s h -> (forall x, src <> TCompacted x) -> load s v src = Some sn -> sn_time sn = Some t -> version_time h v = Some t.
Proof.
  intros Hs Hsrc. unfold load. destruct (state_at s v) as [st|] eqn:E; [|done]. cbn.
  destruct (state_at_ok _ _ _ _ _ Hs E) as (-> & _).
  destruct (rs_protocol _) as [p|] eqn:Ep; [|done]. destruct (rs_metadata _) as [m|] eqn:Em; [|done].
  destruct src as [| |x].
  - destruct (st_files s !! v) as [f|] eqn:Ef; [|done]. cbn. apply (store_file _ _ _ _ _ Hs) in Ef as [Ef _].
    unfold version_time. rewrite Ef. cbn. rewrite Ep, Em. destruct (if uses_ict v p m then _ else _); [|done]. cbn. intros [= <-]. done.
  - intros [= <-]. done.
  - by destruct (Hsrc x).
Qed.
Lemma resolve_time_ok first s h w sn t :
  store_ok first s h -> time_ok h w -> snap_ok h sn -> w_snap w = Some sn -> resolve_time s sn = Some t ->
  version_time h (sn_version sn) = Some t.
Proof.
  intros Hs (_ & Ht & _) [_ Hst] Hsn. unfold resolve_time. destruct (sn_time sn) as [t'|] eqn:E.
  - intros [= <-]. eapply Ht; [by left|done].
  - rewrite Hst. destruct (rs_protocol _) as [p|] eqn:Ep; [|done]. destruct (rs_metadata _) as [m|] eqn:Em; [|done].
    destruct (st_files s !! sn_version sn) as [f|] eqn:Ef; [|done]. cbn. apply (store_file _ _ _ _ _ Hs) in Ef as [Ef _].
    unfold version_time. rewrite Ef. cbn. by rewrite Ep, Em.
Qed.

Lemma time_ok_phase h w p : (forall v acts, p <> PPut v acts) -> time_ok h w -> time_ok h (set_phase w p).
Proof. intros Hp (H1 & H2 & H3). split_and!; [done|done|]. intros v acts H. by destruct (Hp v acts). Qed.
Lemma time_ok_app h l w : (forall sn, w_snap w = Some sn -> snap_ok h sn) -> (forall sn, w_table w = Some sn -> snap_ok h sn) ->
  time_ok h w -> time_ok (h ++ l) w.
Proof.
  intros Hs Ht (H1 & H2 & H3). split_and!; [done| |].
  - intros sn t Hsn Hst. rewrite version_time_app; [by apply H2|].
    destruct Hsn as [Hsn|Hsn]; [apply Hs in Hsn as [? _]|apply Ht in Hsn as [? _]]; lia.
  - intros v acts H. destruct (H3 _ _ H) as (prev & now & -> & Hp). exists prev, now. split; [done|]. intros sn Hsn.
    destruct (Hp _ Hsn) as (t & -> & Hv). exists t. split; [done|]. rewrite version_time_app; [done|]. apply Hs in Hsn as [? _]. lia.
Qed.
Lemma with_snapshot_time h w sn latest :
  time_ok h w -> (forall t, sn_time sn = Some t -> version_time h (sn_version sn) = Some t) -> time_ok h (with_snapshot w sn latest).
Proof.
  intros Hw Hsn. assert (Hfail : time_ok h (set_phase w PFailed)) by by apply time_ok_phase.
  unfold with_snapshot. destruct (_ && _); [done|]. destruct Hw as (H1 & H2 & H3).
  destruct (sn_version sn <? latest); [destruct (effective_retries _ _)|]; cbn; (split_and!; [done| |intros ? ? ?; done]); cbn;
    intros sn' t [[= <-]|H]; eauto.
Qed.

Lemma step_time_ok first s h id w e s' w' ev :
  store_ok first s h -> writer_ok first h w -> (forall t, e_src e <> TCompacted t) -> time_ok h w ->
  writer_step s id w e = (s', w', ev) -> time_ok h w'.
Proof.
  intros Hs Hw He Ht. assert (Hp : forall p, (forall v acts, p <> PPut v acts) -> time_ok h (set_phase w p)) by (intros; by apply time_ok_phase).
  assert (Hretry : time_ok h (retry w)).
  { unfold retry. destruct (w_left w); [by apply Hp|]. destruct Ht as (H1 & H2 & _). split_and!; [done|done|]. intros v acts H. done. }
  unfold writer_step. destruct (e_error e).
  { destruct (w_phase w) eqn:Ep; intros [= <- <- <-]; try done; by apply Hp. }
  destruct (w_phase w) eqn:Ep.
  - destruct (get_latest _ _); [|intros [= <- <- <-]; by apply Hp]. destruct (w_snap w) as [sn|] eqn:Esn; intros [= <- <- <-]; [|by apply Hp].
    apply with_snapshot_time; [done|]. intros t H. eapply Ht; [by left|done].
  - destruct (load _ _ _) as [sn|] eqn:El; intros [= <- <- <-]; [|by apply Hp].
    apply with_snapshot_time; [done|]. intros t H. destruct (load_ok _ _ _ _ _ _ Hs El) as (_ & -> & _).
    by eapply load_time.
  - destruct (st_files s !! v) as [f|]; [destruct (w_snap w) as [sn|]; [destruct (check_conflicts _ _ _ _)|]|];
      intros [= <- <- <-]; try by apply Hp. by destruct (v =? latest); apply Hp.
  - destruct (load _ _ _) as [sn|] eqn:El; intros [= <- <- <-]; [|by apply Hp].
    destruct Ht as (H1 & H2 & H3). split_and!; [done| |done]. cbn. intros sn' t [[= <-]|H] Hst; [|eauto].
    destruct (load_ok _ _ _ _ _ _ Hs El) as (_ & -> & _). by eapply load_time.
  - destruct (w_snap w) as [sn|] eqn:Esn.
    + destruct (resolve_time s sn) as [t|] eqn:Er; intros [= <- <- <-]; [|by apply Hp].
      pose proof (resolve_time_ok _ _ _ _ _ _ Hs Ht (wk_snap _ _ _ Hw _ Esn) Esn Er) as Hv.
      destruct Ht as (H1 & H2 & H3). split_and!; [done|done|]. cbn. intros v acts [= <- <-]. eexists _, _. split; [by rewrite Esn|].
      rewrite Esn. intros sn' [= <-]. eauto.
    + intros [= <- <- <-]. destruct Ht as (H1 & H2 & H3). split_and!; [done|done|]. cbn. intros v acts [= <- <-].
      eexists _, _. split; [by rewrite Esn|]. rewrite Esn. done.
  - destruct (e_put e), (st_files s !! version); intros [= <- <- <-]; try done; by apply Hp.
  - intros [= <- <- <-]. done.
  - intros [= <- <- <-]. done.
Qed.

Lemma put_hist_ok first h w f :
  writer_ok first h w -> time_ok h w -> w_phase w = PPut (zlen h) (cf_acts f) -> hist_ok h -> hist_ok (h ++ [f]).
Proof.
  intros Hw (Hci & _ & Hput) Hp Hh v Hv Hon. destruct (decide (v < zlen h)) as [Hlt|Hge].
  - destruct (Hh v) as (f' & t & Hc & Hi & Hpr & Hen); [lia| |].
    { apply ict_on_iff. apply ict_on_iff in Hon. unfold on_at in *. by rewrite table_at_app in Hon by lia. }
    exists f', t. split; [by apply commit_at_mono|]. split; [done|]. split.
    + intros H0. destruct (Hpr H0) as (t0 & Hv0 & Hlt0). exists t0. split; [|done]. by rewrite version_time_app by lia.
    + intros H0 Hoff. rewrite table_at_app by lia. apply Hen; [done|]. intros H. apply Hoff. apply ict_on_iff. apply ict_on_iff in H.
      unfold on_at in *. by rewrite table_at_app by lia.
  - assert (v = zlen h) as ->. { rewrite app_length in Hv. cbn in Hv. lia. }
    destruct (Hput _ _ Hp) as (prev & now & Hacts & Hprev). pose proof (commit_at_snoc h f) as Hc.
    apply ict_on_iff in Hon. unfold on_at in Hon. rewrite (table_at_next _ _ _ Hc), table_at_app in Hon by lia.
    pose proof (wk_phase _ _ _ Hw) as Hph. unfold phase_ok in Hph. rewrite Hp in Hph. destruct Hph as [Haim _].
    assert (table_at h (zlen h - 1) = match w_snap w with Some s => sn_state s | None => rs_empty end) as Hst.
    { unfold aim, read_version in Haim. destruct (w_snap w) as [sn|] eqn:Esn.
      - destruct (wk_snap _ _ _ Hw _ Esn) as [_ ->]. f_equal. lia.
      - by replace (zlen h - 1) with (-1) by lia. }
    rewrite Hacts, (finalize_on _ _ _ _ _ _ Hst) in Hon.
    assert (exists c l, w_acts w = ACommitInfo c :: l) as (c & l & Hl).
    { rewrite (wk_acts _ _ _ Hw). destruct Hci as (c & l & ->). destruct (w_snap w); [|eauto]. destruct (w_creation w); [|eauto].
      unfold strip. destruct (existsb _ _); [|eauto]. rewrite filter_cons_True by done. cbn. eauto. }
    rewrite Hl in Hon, Hacts. exists f, (Z.max now (match prev with Some p => p + 1 | None => now end)). split; [done|].
    split; [rewrite Hacts; by apply finalize_ict|]. split; cycle 1.
    { intros H0 Hoff m Hm. split; [rewrite (table_at_next _ _ _ Hc); by apply replay_one_metadata|].
      rewrite Hacts in Hm. unfold finalize in Hm. rewrite Hon in Hm. destruct (w_snap w) as [sn|] eqn:Esn.
      - destruct (snap_ict sn) eqn:Ei; [|by apply set_enablement_one in Hm]. destruct Hoff. apply ict_on_iff.
        unfold on_at. rewrite table_at_app, Hst by lia. unfold snap_ict, ict_enabled in Ei. unfold on.
        destruct (rs_protocol (sn_state sn)), (rs_metadata (sn_state sn)); done.
      - unfold aim, read_version in Haim. rewrite Esn in Haim. lia. }
    intros H0.
    unfold aim, read_version in Haim. destruct (w_snap w) as [sn|] eqn:Esn; [|lia].
    destruct (Hprev _ eq_refl) as (t & -> & Hvt). exists t. rewrite version_time_app by lia.
    replace (zlen h - 1) with (sn_version sn) by lia. split; [done|]. lia.
Qed.

Lemma times_ok ops :
  timely_cleanup ops -> no_compacted_times ops -> commit_info_first ops ->
  (forall id w, writer_of ops id = Some w -> time_ok (hist ops) w) /\ hist_ok (hist ops).
Proof.
  induction ops as [|op ops IH] using rev_ind; intros Ht Hn Hc.
  { split; [done|]. intros v Hv. cbn in Hv. lia. }
  destruct (timely_snoc _ _ Ht) as [Ht' _]. destruct IH as [Hw Hh]; [done| | |].
  { destruct Hn as [H1 H2]. split; [intros id req v t H; apply (H1 id req v t); set_solver|intros id e t H; apply (H2 id); set_solver]. }
  { destruct Hc as [H1 H2]. split; [intros id req H; apply (H1 id); set_solver|intros id req v src H; apply (H2 id req v src); set_solver]. }
  destruct (sys_ok_run _ Ht') as (first & Hs & Hok & _).
  unfold store_of, writer_of, hist, written in *. rewrite sys_run_snoc.
  destruct (sys_run ops) as [[s ws] evs]. cbn [fst snd y_store y_writers] in *.
  destruct op as [id req|id req v src|id e|v|b]; cbn [sys_step].
  - destruct (ws !! id) eqn:E; cbn; rewrite app_nil_r; (split; [|done]); [done|]. intros id' w'. destruct (decide (id = id')) as [<-|Hne].
    + rewrite lookup_insert. intros [= <-]. destruct (proj1 Hc id req) as (c & l & Hcl); [set_solver|]. split_and!; [by eauto| |done].
      cbn. intros sn t [?|?]; done.
    + rewrite lookup_insert_ne by done. apply Hw.
  - destruct (ws !! id) eqn:E; [cbn; by rewrite app_nil_r|]. destruct (load s v src) as [sn|] eqn:El; cbn; rewrite app_nil_r; (split; [|done]); [|done].
    intros id' w'. destruct (decide (id = id')) as [<-|Hne].
    + rewrite lookup_insert. intros [= <-]. destruct (proj2 Hc id req v src) as (c & l & Hcl); [set_solver|]. split_and!; [by eauto| |done].
      cbn. assert (forall t, sn_time sn = Some t -> version_time (ev_file <$> evs) (sn_version sn) = Some t) as Hsn.
      { intros t H. destruct (load_ok _ _ _ _ _ _ Hs El) as (_ & -> & _). eapply load_time; [done| |done|done].
        intros x ->. apply (proj1 Hn id req v x). set_solver. }
      intros sn' t [[= <-]|[= <-]]; apply Hsn.
    + rewrite lookup_insert_ne by done. apply Hw.
  - destruct (ws !! id) as [w|] eqn:E; [|cbn; by rewrite app_nil_r].
    destruct (writer_step s id w e) as [[s' w'] ev] eqn:Es. cbn.
    assert (time_ok (ev_file <$> evs) w') as Hw'.
    { eapply step_time_ok; [done|by eapply Hok| |by eapply Hw|done]. intros t. apply (proj2 Hn id). set_solver. }
    destruct (step_writer_ok _ _ _ _ _ _ _ _ _ Hs (Hok _ _ E) Es) as [(-> & -> & Hok')|(f & -> & -> & Hs' & Hok' & Hph)].
    + rewrite app_nil_r. split; [|done]. intros id' w2. destruct (decide (id = id')) as [<-|Hne].
      * rewrite lookup_insert. by intros [= <-].
      * rewrite lookup_insert_ne by done. apply Hw.
    + rewrite fmap_app. cbn [fmap list_fmap ev_file]. split; [|by eapply put_hist_ok; [eapply Hok| eapply Hw| |]].
      assert (Hbase : forall x, time_ok (ev_file <$> evs) x -> (forall sn, w_snap x = Some sn -> snap_ok (ev_file <$> evs) sn) ->
        (forall sn, w_table x = Some sn -> snap_ok (ev_file <$> evs) sn) -> time_ok ((ev_file <$> evs) ++ [f]) x).
      { intros x Hx H1 H2. by apply time_ok_app. }
      assert (w_snap w' = w_snap w /\ w_table w' = w_table w) as [E1 E2].
      { revert Es. unfold writer_step. destruct (e_error e); [rewrite Hph; by intros [=]|]. rewrite Hph.
        destruct (e_put e), (st_files s !! zlen (ev_file <$> evs)); intros [=]; subst; try done. unfold retry. by destruct (w_left w). }
      intros id' w2. destruct (decide (id = id')) as [<-|Hne].
      * rewrite lookup_insert. intros [= <-]. apply Hbase; [done| |].
        -- rewrite E1. apply (wk_snap _ _ _ (Hok _ _ E)).
        -- rewrite E2. intros sn H. by destruct (wk_table _ _ _ (Hok _ _ E) _ H).
      * rewrite lookup_insert_ne by done. intros H. apply Hbase; [by eapply Hw| |].
        -- apply (wk_snap _ _ _ (Hok _ _ H)).
        -- intros sn H'. by destruct (wk_table _ _ _ (Hok _ _ H) _ H').
  - destruct (state_at s v); cbn; by rewrite app_nil_r.
  - destruct (st_base s) as [[v st]|]; [destruct (b <=? v)|]; cbn; by rewrite app_nil_r.
Qed.

Theorem ict_increases ops :
  timely_cleanup ops -> no_compacted_times ops -> commit_info_first ops ->
  forall v, 0 <= v < zlen (hist ops) -> ict_on (hist ops) v ->
    exists f t, commit_at (hist ops) v = Some f /\ ict_of (cf_acts f) = Some t /\
      (0 < v -> exists t0, version_time (hist ops) (v - 1) = Some t0 /\ t0 < t).
Proof.
  intros H1 H2 H3 v Hv Hon. destruct (times_ok _ H1 H2 H3) as [_ H]. destruct (H v Hv Hon) as (f & t & ? & ? & ? & _). eauto.
Qed.
Theorem enablement_recorded ops :
  timely_cleanup ops -> no_compacted_times ops -> commit_info_first ops ->
  forall v f m, 0 < v < zlen (hist ops) -> ict_on (hist ops) v -> ~ ict_on (hist ops) (v - 1) ->
    commit_at (hist ops) v = Some f -> one_metadata (cf_acts f) m ->
    rs_metadata (table_at (hist ops) v) = Some m /\ md_ict_version m = Some v /\ md_ict_time m = ict_of (cf_acts f).
Proof.
  intros H1 H2 H3 v f m Hv Hon Hoff Hf Hm. destruct (times_ok _ H1 H2 H3) as [_ H].
  destruct (H v) as (f' & t & Hf' & Hi & _ & He); [lia|done|]. rewrite Hf in Hf'. injection Hf' as <-.
  rewrite Hi. apply He; [lia|done|done].
Qed.

(** From a version on, all timestamps of the versions increase. *)
Theorem ict_monotone ops a b ta tb fa fb :
  timely_cleanup ops -> no_compacted_times ops -> commit_info_first ops -> enablement_not_ahead (hist ops) ->
  0 <= a < b -> (forall v, a <= v <= b -> ict_on (hist ops) v) ->
  commit_at (hist ops) a = Some fa -> commit_at (hist ops) b = Some fb ->
  ict_of (cf_acts fa) = Some ta -> ict_of (cf_acts fb) = Some tb -> ta < tb.
Proof.
  intros H1 H2 H3 Hen Hab. remember (Z.to_nat (b - a)) as n eqn:Hn. revert b tb fb Hn Hab.
  induction n as [|n IH]; intros b tb fb Hn Hab Hon Ha Hb Hta Htb; [lia|].
  pose proof (commit_at_Some _ _ _ Hb) as Hlen.
  destruct (ict_increases ops H1 H2 H3 b) as (f & t & Hc & Hi & Hprev); [lia|apply Hon; lia|].
  rewrite Hc in Hb. injection Hb as ->. rewrite Hi in Htb. injection Htb as ->.
  destruct Hprev as (t0 & Hv & Hlt); [lia|].
  destruct (commit_at_is_Some (hist ops) (b - 1)) as (g & Hg); [lia|].
  assert (ict_of (cf_acts g) = Some t0) as Hg0.
  { unfold version_time in Hv. rewrite Hg in Hv. cbn in Hv.
    destruct (Hon (b - 1)) as (p & m & Hp & Hm & Hp1 & Hm1); [lia|]. rewrite Hp, Hm in Hv.
    unfold uses_ict, ict_enabled in Hv. rewrite Hp1, Hm1 in Hv. cbn in Hv.
    destruct (md_ict_version m) as [e|] eqn:Ee; [|done]. specialize (Hen (b - 1) m e). rewrite Hm in Hen.
    replace (e <=? b - 1) with true in Hv; [done|]. symmetry. apply Z.leb_le. apply Hen; [lia|done|done]. }
  destruct (decide (a = b - 1)) as [->|Hne]; [rewrite Ha in Hg; simplify_eq; lia|].
  transitivity t0; [|done]. eapply (IH (b - 1)); [lia|lia|intros; apply Hon; lia|done|exact Hg|done|done].
Qed.
