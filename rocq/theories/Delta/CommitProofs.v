(** Invariants of the commit loop. *)
From Coq Require Import NArith ZArith ZifyN Lia.
From stdpp Require Import prelude list gmap.
From Verif.Lib Require Import Text.
From Verif.Delta Require Import ActionModel LogModel CommitModel CommitSpec ConflictProofs.
Local Open Scope Z_scope.

Notation zlen h := (Z.of_nat (length h)).

(** ** Histories *)
Lemma commit_at_Some h v f : commit_at h v = Some f -> 0 <= v < zlen h.
Proof.
  unfold commit_at. destruct (v <? 0) eqn:E; [done|]. intros H%lookup_lt_Some. lia.
Qed.
Lemma commit_at_is_Some h v : 0 <= v < zlen h -> exists f, commit_at h v = Some f.
Proof.
  intros Hv. unfold commit_at. replace (v <? 0) with false by lia. apply lookup_lt_is_Some. lia.
Qed.
Lemma commit_at_app h l v : v < zlen h -> commit_at (h ++ l) v = commit_at h v.
Proof.
  intros Hv. unfold commit_at. destruct (v <? 0) eqn:E; [done|]. apply lookup_app_l. lia.
Qed.
Lemma commit_at_snoc h f : commit_at (h ++ [f]) (zlen h) = Some f.
Proof. unfold commit_at. replace (zlen h <? 0) with false by (symmetry; apply Z.ltb_ge; lia). rewrite Nat2Z.id. apply list_lookup_middle. done. Qed.
Lemma commit_at_mono h l v f : commit_at h v = Some f -> commit_at (h ++ l) v = Some f.
Proof. intros H. rewrite commit_at_app; [done|]. apply commit_at_Some in H. lia. Qed.
Lemma commit_at_beyond h v : zlen h <= v -> commit_at h v = None.
Proof. intros Hv. unfold commit_at. destruct (v <? 0); [done|]. apply lookup_ge_None. lia. Qed.
Lemma table_at_app h l v : v < zlen h -> table_at (h ++ l) v = table_at h v.
Proof. intros Hv. unfold table_at. rewrite take_app_le by lia. done. Qed.
Lemma table_at_next h v f : commit_at h v = Some f -> table_at h v = replay (table_at h (v - 1)) (cf_acts f).
Proof.
  intros H. pose proof (commit_at_Some _ _ _ H) as Hv. unfold table_at.
  replace (Z.to_nat (v + 1)) with (S (Z.to_nat v)) by lia. replace (Z.to_nat (v - 1 + 1)) with (Z.to_nat v) by lia.
  unfold commit_at in H. replace (v <? 0) with false in H by lia.
  rewrite (take_S_r _ _ _ H). rewrite fmap_app, concat_app. unfold replay. rewrite foldl_app. cbn. rewrite app_nil_r. done.
Qed.
Lemma table_at_none h : table_at h (-1) = rs_empty.
Proof. done. Qed.

(** ** The store *)
Definition store_ok (first : Z) (s : store) (h : list cfile) : Prop :=
  0 <= first /\
  (forall v, st_files s !! v = if first <=? v then commit_at h v else None) /\
  match st_base s with
  | None => first = 0
  | Some (b, st) => first <= b < zlen h /\ st = table_at h b
  end.
Lemma store_first first s h : store_ok first s h -> h <> [] -> first < zlen h.
Proof.
  intros (H0 & _ & Hb) Hh. destruct (st_base s) as [[b st]|]; [lia|]. subst. destruct h; [done|]. cbn. lia.
Qed.
Lemma store_file first s h v f : store_ok first s h -> st_files s !! v = Some f -> commit_at h v = Some f /\ first <= v.
Proof. intros (_ & H & _). rewrite H. destruct (first <=? v) eqn:E; [|done]. intros. split; [done|lia]. Qed.

Lemma max_key_ub (l : list (Z * cfile)) M :
  (forall kv, kv ∈ l -> kv.1 <= M) -> (exists f, (M, f) ∈ l) ->
  foldr (fun kv m => match m with None => Some kv.1 | Some x => Some (Z.max x kv.1) end) None l = Some M.
Proof.
  induction l as [|kv l IH]; intros Hub (f & Hin); [by apply elem_of_nil in Hin|]. cbn.
  assert (forall kv, kv ∈ l -> kv.1 <= M) as Hub' by (intros; apply Hub; by right).
  assert (kv.1 <= M) as Hk by (apply Hub; left).
  apply elem_of_cons in Hin as [<-|Hin].
  - clear IH. cbn [fst].
    assert (match foldr (fun (kv : Z * cfile) m => match m with None => Some kv.1 | Some x => Some (Z.max x kv.1) end) None l with
            | None => True | Some x => x <= M end) as Hx.
    { clear Hub Hk. induction l as [|kv l IH]; [done|]. cbn.
      assert (kv.1 <= M) by (apply Hub'; left). destruct (foldr _ None l) as [x|]; [|done].
      assert (x <= M) by (apply IH; intros; apply Hub'; by right). lia. }
    destruct (foldr _ None l) as [x|]; [|done]. f_equal. lia.
  - rewrite IH; [|done|by eexists]. f_equal. lia.
Qed.
Lemma get_latest_ok first s h start :
  store_ok first s h -> get_latest s start = if bool_decide (h <> [] /\ start <= zlen h - 1) then Some (zlen h - 1) else None.
Proof.
  intros Hs. pose proof (store_first _ _ _ Hs) as Hf. destruct Hs as (H0 & H & _). unfold get_latest.
  destruct (decide (h = [])) as [->|Hh].
  - rewrite bool_decide_false by (intros [? _]; done).
    assert (st_files s = ∅) as ->.
    { apply map_empty. intros v. rewrite H. destruct (first <=? v); [|done]. unfold commit_at. by destruct (v <? 0). }
    rewrite map_to_list_empty. done.
  - specialize (Hf Hh). assert (0 < zlen h) by (destruct h; [done|cbn; lia]).
    rewrite (max_key_ub _ (zlen h - 1)).
    + destruct (Z.max start 0 <=? zlen h - 1) eqn:E.
      * rewrite bool_decide_true by (split; [done|lia]). done.
      * rewrite bool_decide_false by (intros [_ ?]; lia). done.
    + intros [v f] Hin%elem_of_map_to_list. rewrite H in Hin. destruct (first <=? v); [|done].
      apply commit_at_Some in Hin. cbn. lia.
    + destruct (commit_at_is_Some h (zlen h - 1)) as (f & Hc); [lia|]. exists f. apply elem_of_map_to_list. rewrite H.
      replace (first <=? zlen h - 1) with true by lia. done.
Qed.

Lemma replay_files_ok files h n : forall st v0 st',
  (forall v, v0 <= v -> files !! v = commit_at h v) -> 0 <= v0 -> st = table_at h (v0 - 1) ->
  replay_files files st v0 n = Some st' -> st' = table_at h (v0 + Z.of_nat n - 1) /\ ((0 < n)%nat -> v0 + Z.of_nat n <= zlen h).
Proof.
  induction n as [|n IH]; intros st v0 st' Hf H0 -> Hr; cbn [replay_files] in Hr.
  - injection Hr as <-. split; [f_equal; lia|lia].
  - destruct (files !! v0) as [f|] eqn:E; [|done]. cbn in Hr. rewrite Hf in E by lia.
    apply IH in Hr; [|intros; apply Hf; lia|lia|].
    + destruct Hr as [-> Hl]. split; [f_equal; lia|]. intros _. apply commit_at_Some in E. destruct n; [lia|]. lia.
    + replace (v0 + 1 - 1) with v0 by lia. by rewrite (table_at_next _ _ _ E).
Qed.
Lemma state_at_ok first s h v st : store_ok first s h -> state_at s v = Some st -> st = table_at h v /\ 0 <= v < zlen h /\ first <= v.
Proof.
  intros (H0 & H & Hb) Hs. unfold state_at in Hs. destruct (st_base s) as [[b stb]|].
  - destruct Hb as [Hb ->]. destruct (v <? b) eqn:E; [done|].
    apply (replay_files_ok _ h) in Hs; [|intros w Hw; rewrite H; replace (first <=? w) with true by lia; done|lia|f_equal; lia].
    destruct Hs as [-> Hl]. split; [f_equal; lia|]. lia.
  - subst first. destruct (v <? 0) eqn:E; [done|].
    apply (replay_files_ok _ h) in Hs; [|intros w Hw; rewrite H; replace (0 <=? w) with true by lia; done|lia|done].
    destruct Hs as [-> Hl]. split; [f_equal; lia|]. lia.
Qed.

Definition snap_ok (h : list cfile) (sn : snap) : Prop :=
  0 <= sn_version sn < zlen h /\ sn_state sn = table_at h (sn_version sn).
Lemma load_ok first s h v src sn : store_ok first s h -> load s v src = Some sn -> snap_ok h sn /\ sn_version sn = v /\ first <= v.
Proof.
  intros Hs. unfold load. destruct (state_at s v) as [st|] eqn:E; [|done]. cbn. apply (state_at_ok _ _ _ _ _ Hs) in E as (-> & Hv & Hf).
  destruct (rs_protocol _) as [p|]; [|done]. destruct (rs_metadata _) as [m|]; [|done]. destruct src.
  - destruct (st_files s !! v); [|done]. cbn. destruct (if uses_ict v p m then _ else _); [|done]. cbn. intros [= <-]. done.
  - intros [= <-]. done.
  - intros [= <-]. done.
Qed.
Lemma snap_ok_app h l sn : snap_ok h sn -> snap_ok (h ++ l) sn.
Proof. intros [H1 H2]. split; [rewrite app_length; lia|]. rewrite table_at_app by lia. done. Qed.

(** ** Writers *)
Lemma strip_idem acts : strip (strip acts) = strip acts.
Proof.
  unfold strip at 1. destruct (existsb is_creation_action (strip acts)) eqn:E; [|done]. exfalso.
  apply existsb_exists in E as (a & Ha%elem_of_list_In & Hc). unfold strip in Ha.
  destruct (existsb is_creation_action acts) eqn:E2.
  - apply elem_of_list_fmap in Ha as (b & -> & Hb). apply elem_of_list_filter in Hb as [Hb _]. destruct b; cbn in *; congruence.
  - rewrite <- not_true_iff_false, existsb_exists in E2. apply E2. exists a. split; [by apply elem_of_list_In|done].
Qed.

Definition start_ok (h : list cfile) (w : writer) (k0 : Z) : Prop :=
  match w_table w with
  | Some sn => k0 = sn_version sn
  | None => creation_ok (w_req w) (table_at h k0) = true
  end.
Definition checked_upto (w : writer) (sn : snap) : Z :=
  match w_phase w with PCheck v _ => v - 1 | PUpdate l => l | _ => sn_version sn end.
Definition checked (h : list cfile) (w : writer) : Prop :=
  forall sn, w_snap w = Some sn ->
    exists k0, 0 <= k0 <= sn_version sn /\ start_ok h w k0 /\
      forall v f, k0 < v <= checked_upto w sn -> commit_at h v = Some f ->
        exists k, k0 <= k < v /\ check_conflicts (table_at h k) (w_req w) (w_acts w) (cf_acts f) = None.
Definition aim (w : writer) (v : Z) : Prop := v = read_version w + 1.
Definition phase_ok (h : list cfile) (w : writer) : Prop :=
  match w_phase w with
  | PList | PFailed => True
  | PLoad l => w_snap w = None /\ 0 <= l < zlen h
  | PCheck v l => exists sn, w_snap w = Some sn /\ sn_version sn < v <= l /\ l < zlen h /\
                    effective_retries (w_creation w) (w_req w) <> O
  | PUpdate l => exists sn, w_snap w = Some sn /\ sn_version sn < l < zlen h /\
                    effective_retries (w_creation w) (w_req w) <> O
  | PStamp v => aim w v
  | PPut v acts => aim w v /\ exists prev now, acts = finalize (w_acts w) (w_snap w) v prev now
  | PDone v => aim w v /\ exists f prev now, commit_at h v = Some f /\ cf_acts f = finalize (w_acts w) (w_snap w) v prev now
  end.
Record writer_ok (first : Z) (h : list cfile) (w : writer) : Prop := {
  wk_snap : forall sn, w_snap w = Some sn -> snap_ok h sn;
  wk_table : forall sn, w_table w = Some sn ->
    snap_ok h sn /\ (exists sn', w_snap w = Some sn' /\ sn_version sn <= sn_version sn') /\
    (effective_retries (w_creation w) (w_req w) = O -> w_snap w = Some sn);
  wk_acts : w_acts w = match w_snap w with
                       | None => t_acts (w_req w)
                       | Some _ => if w_creation w then strip (t_acts (w_req w)) else t_acts (w_req w)
                       end;
  wk_checked : checked h w;
  wk_phase : phase_ok h w;
  wk_first : forall v, may_write w = Some v -> first <= v
}.

Lemma writer_ok_app first h l w : writer_ok first h w -> writer_ok first (h ++ l) w.
Proof.
  intros [Hs Ht Ha Hc Hp Hf]. split; try done.
  - intros sn H. by apply snap_ok_app, Hs.
  - intros sn H. destruct (Ht _ H) as (H1 & H2). split; [by apply snap_ok_app|done].
  - intros sn H. destruct (Hc _ H) as (k0 & Hk & Hst & Hch). exists k0.
    destruct (Hs _ H) as [Hlt _].
    split; [done|]. split.
    + unfold start_ok in *. destruct (w_table w); [done|]. by rewrite table_at_app by lia.
    + intros v f Hv Hcm. assert (v < zlen h) as Hvl.
      { unfold checked_upto in Hv. unfold phase_ok in Hp. destruct (w_phase w); try lia.
        - destruct Hp as (sn' & Hsn & ? & ? & _). simplify_eq. lia.
        - destruct Hp as (sn' & Hsn & ? & _). simplify_eq. lia. }
      rewrite commit_at_app in Hcm by lia. destruct (Hch v f Hv Hcm) as (k & Hkk & Hcc). exists k. split; [done|].
      by rewrite table_at_app by lia.
  - unfold phase_ok in *. destruct (w_phase w); rewrite ?app_length; try done.
    + destruct Hp. split; [done|lia].
    + destruct Hp as (sn & ? & ? & ? & ?). exists sn. split_and!; try done; lia.
    + destruct Hp as (sn & ? & ? & ?). exists sn. split_and!; try done; lia.
    + destruct Hp as [? (f & prev & now & Hc' & ?)]. split; [done|]. exists f, prev, now. split; [|done]. by apply commit_at_mono.
Qed.

Lemma writer_ok_failed first h w : writer_ok first h w -> writer_ok first h (set_phase w PFailed).
Proof.
  intros [Hs Ht Ha Hc Hp Hf]. split; try done.
  - intros sn H. destruct (Hc sn H) as (k0 & Hk & Hst & Hch). exists k0. split; [done|]. split; [done|].
    intros v f Hv. apply Hch. unfold checked_upto in *. cbn in Hv. unfold phase_ok in Hp. destruct (w_phase w); try lia.
    + destruct Hp as (sn' & Hsn & ? & ? & _). cbn in H. simplify_eq. lia.
    + destruct Hp as (sn' & Hsn & ? & _). cbn in H. simplify_eq. lia.
Qed.

Lemma with_snapshot_ok first h w sn :
  writer_ok first h w -> w_phase w = PList \/ (exists l, w_phase w = PLoad l) ->
  snap_ok h sn -> first <= sn_version sn + 1 ->
  w_snap w = Some sn \/ (w_snap w = None /\ sn_version sn = zlen h - 1) \/ (w_snap w = None) ->
  forall latest, sn_version sn <= latest < zlen h -> writer_ok first h (with_snapshot w sn latest).
Proof.
  intros Hw Hph Hsn Hfirst Hcase latest Hl. unfold with_snapshot.
  destruct (w_creation w && negb (creation_ok (w_req w) (sn_state sn))) eqn:Ecr; [by apply writer_ok_failed|].
  destruct Hw as [Hs Ht Ha Hc Hp Hf].
  set (acts := if w_creation w then strip (w_acts w) else w_acts w).
  assert (acts = if w_creation w then strip (t_acts (w_req w)) else t_acts (w_req w)) as Hacts.
  { unfold acts. rewrite Ha. destruct (w_creation w) eqn:Ec; destruct (w_snap w) eqn:Es; try done; by apply strip_idem. }
  assert (forall sn', w_table w = Some sn' -> w_snap w = Some sn) as Htab.
  { intros sn' H. destruct Hcase as [?|[[? _]|?]]; [done| |]; destruct (Ht _ H) as (_ & (sn2 & Hx & _) & _); congruence. }
  set (w' := Writer (w_req w) (w_table w) acts (w_left w) (Some sn) (w_phase w)).
  assert (exists k0, 0 <= k0 <= sn_version sn /\ start_ok h w k0 /\
      forall v f, k0 < v <= sn_version sn -> commit_at h v = Some f ->
        exists k, k0 <= k < v /\ check_conflicts (table_at h k) (w_req w) acts (cf_acts f) = None) as Hchk.
  { destruct Hcase as [Hsnap|Hnone].
    - destruct (Hc _ Hsnap) as (k0 & Hk & Hst & Hch). exists k0. split; [done|]. split; [done|].
      assert (checked_upto w sn = sn_version sn) as Hup by (unfold checked_upto; destruct Hph as [->|[l ->]]; done).
      rewrite Hup in Hch. intros v f Hv Hcm. destruct (Hch v f Hv Hcm) as (k & Hkk & Hcc). exists k. split; [done|].
      rewrite Hacts. rewrite Ha, Hsnap in Hcc. done.
    - assert (w_table w = None) as Hnt.
      { destruct (w_table w) as [sn'|] eqn:E; [|done]. pose proof (Htab _ eq_refl). destruct Hnone as [[? _]|?]; congruence. }
      exists (sn_version sn). destruct Hsn as [Hb Hst]. split; [lia|]. split; [|intros; lia].
      unfold start_ok. rewrite Hnt. rewrite <- Hst. unfold w_creation in Ecr. rewrite Hnt in Ecr. cbn in Ecr.
      by destruct (creation_ok _ _). }
  assert (forall ph, (ph = PFailed \/ (exists v, ph = PStamp v) \/ ph = PCheck (sn_version sn + 1) latest) ->
     phase_ok h (set_phase w' ph) -> writer_ok first h (set_phase w' ph)) as Hgen.
  { intros ph Hphk Hpok. split.
    - intros sn' [= <-]. done.
    - intros sn' H. cbn in H. destruct (Ht _ H) as (H1 & (sn2 & H2 & H3) & H4). split; [done|].
      rewrite (Htab _ H) in H2. injection H2 as <-. split; [exists sn; done|]. intros Heff. cbn.
      rewrite (Htab _ H) in H4. apply H4. done.
    - cbn. done.
    - intros sn' [= <-]. destruct Hchk as (k0 & Hk & Hst & Hch). exists k0. split; [done|]. split; [done|].
      intros v f Hv Hcm. apply Hch; [|done]. unfold checked_upto in Hv.
      destruct Hphk as [->|[[x ->]| ->]]; cbn in Hv; lia.
    - done.
    - intros x. unfold may_write. cbn. destruct Hphk as [->|[[y ->]| ->]]; intros; simplify_eq; done. }
  destruct (sn_version sn <? latest) eqn:E.
  - destruct (effective_retries _ _) eqn:Er.
    + apply Hgen; [by left|done].
    + apply Hgen; [right; by right|]. cbn. exists sn. split; [done|]. split; [lia|]. split; [lia|].
      change (w_creation (set_phase w' (PCheck (sn_version sn + 1) latest))) with (w_creation w). change (w_creation w') with (w_creation w) in Er.
      cbn in Er. cbn. rewrite Er. done.
  - apply Hgen; [right; left; by eexists|]. unfold phase_ok, aim. cbn. lia.
Qed.

Lemma new_writer_ok first h req sn :
  match sn with Some s => snap_ok h s /\ first <= sn_version s + 1 | None => True end ->
  writer_ok first h (new_writer req sn).
Proof.
  intros H. unfold new_writer. split.
  - intros s Hs. cbn in Hs. subst. by destruct H.
  - intros s Hs. cbn in *. subst. split; [by destruct H|]. split; [exists s; done|done].
  - cbn. destruct sn; done.
  - intros s Hs. cbn in Hs. subst. exists (sn_version s). destruct H as [[Hb _] _]. split; [lia|]. split; [done|].
    intros v f Hv. unfold checked_upto in Hv. cbn in Hv. lia.
  - done.
  - intros x. unfold may_write. cbn. destruct sn; [|done]. intros [= <-]. by destruct H.
Qed.

(** One step: the store's history grows by what was written. *)
Definition new_files (evs : list event) : list cfile := ev_file <$> evs.
Lemma retry_ok first h w : writer_ok first h w -> (exists v acts, w_phase w = PPut v acts) -> writer_ok first h (retry w).
Proof.
  intros Hw (v0 & acts0 & Hph). unfold retry. destruct (w_left w) as [|n]; [by apply writer_ok_failed|].
  destruct Hw as [Hs Ht Ha Hc Hp Hf]. split; try done.
  - intros sn H. destruct (Hc sn H) as (k0 & Hk & Hst & Hch). exists k0. split; [done|]. split; [done|].
    intros v f Hv. apply Hch. unfold checked_upto in *. rewrite Hph. done.
  - intros x Hx. apply Hf. revert Hx. unfold may_write. cbn. rewrite Hph. by destruct (w_snap w).
Qed.

Lemma put_ok first s h v f :
  store_ok first s h -> v = zlen h -> store_ok first (put s v f) (h ++ [f]).
Proof.
  intros (H0 & H & Hb) ->. split; [done|]. split.
  - intros v. unfold put. cbn [st_files]. destruct (decide (v = zlen h)) as [->|Hne].
    + rewrite lookup_insert. replace (first <=? zlen h) with true.
      * by rewrite commit_at_snoc.
      * destruct (st_base s) as [[b st]|]; [lia|]. symmetry. apply Z.leb_le. lia.
    + rewrite lookup_insert_ne by done. rewrite H. destruct (first <=? v); [|done].
      destruct (decide (v < zlen h)); [by rewrite commit_at_app|].
      rewrite !commit_at_beyond; [done| |lia]. rewrite app_length. cbn. lia.
  - unfold put. cbn [st_base]. destruct (st_base s) as [[b st]|]; [|done]. destruct Hb as [Hb ->].
    split; [rewrite app_length; cbn; lia|]. by rewrite table_at_app by lia.
Qed.

Lemma step_writer_ok first s h id w e s' w' ev :
  store_ok first s h -> writer_ok first h w -> writer_step s id w e = (s', w', ev) ->
  (ev = [] /\ s' = s /\ writer_ok first h w') \/
  (exists f, ev = [EWrote id (zlen h) f] /\ s' = put s (zlen h) f /\ store_ok first s' (h ++ [f]) /\
     writer_ok first (h ++ [f]) w' /\ w_phase w = PPut (zlen h) (cf_acts f)).
Proof.
  intros Hs Hw. pose proof (writer_ok_failed _ _ _ Hw) as Hfail. unfold writer_step.
  destruct (e_error e).
  { destruct (w_phase w) eqn:Ep; intros [= <- <- <-]; left; split_and!; try done. }
  assert (Hkeep : forall w2, writer_ok first h w2 -> (s, w2, []) = (s', w', ev) ->
     ev = [] /\ s' = s /\ writer_ok first h w') by (intros w2 Hw2 [= <- <- <-]; done).
  destruct (w_phase w) eqn:Ep.
  - rewrite (get_latest_ok _ _ _ _ Hs). case_bool_decide as Hc.
    + destruct (w_snap w) as [sn|] eqn:Esn.
      * intros Heq. left. eapply Hkeep; [|exact Heq]. apply with_snapshot_ok.
        -- done.
        -- by left.
        -- by apply (wk_snap _ _ _ Hw).
        -- apply (wk_first _ _ _ Hw). unfold may_write. by rewrite Ep, Esn.
        -- by left.
        -- destruct Hc. lia.
      * intros Heq. left. eapply Hkeep; [|exact Heq]. destruct Hw as [H1 H2 H3 H4 H5 H6]. split; try done.
        -- intros sn H. cbn in H. congruence.
        -- split; [done|]. destruct Hc as [Hh _]. destruct h; [done|]. cbn. lia.
        -- intros x. unfold may_write. cbn. by rewrite Esn.
    + intros Heq. left. eapply Hkeep; [|exact Heq]. destruct (w_snap w) as [sn|] eqn:Esn.
      { exfalso. apply Hc. destruct (wk_snap _ _ _ Hw _ Esn) as [Hb _]. split; [|lia]. intros ->. cbn in Hb. lia. }
      destruct Hw as [H1 H2 H3 H4 H5 H6]. split; try done.
      * intros sn H. cbn in H. congruence.
      * unfold phase_ok, aim, read_version. cbn. rewrite Esn. done.
      * intros x. unfold may_write. cbn. rewrite Esn. intros [= <-].
        destruct Hs as (H0 & _ & Hb). destruct (st_base s) as [[b st]|]; [|lia]. exfalso. apply Hc. split; [|lia].
        intros ->. cbn in Hb. lia.
  - pose proof (wk_phase _ _ _ Hw) as Hph. unfold phase_ok in Hph. rewrite Ep in Hph. destruct Hph as [Hsn Hl].
    destruct (load s latest (e_src e)) as [sn|] eqn:El; intros Heq; left; eapply Hkeep; try exact Heq; [|done].
    destruct (load_ok _ _ _ _ _ _ Hs El) as (Hok & Hv & Hf). apply with_snapshot_ok; try done.
    + right. by eexists.
    + lia.
    + right. by right.
    + lia.
  - pose proof (wk_phase _ _ _ Hw) as Hph. unfold phase_ok in Hph. rewrite Ep in Hph.
    destruct Hph as (sn & Hsn & Hv & Hl & Heff). rewrite Hsn.
    destruct (st_files s !! v) as [f|] eqn:Ef; [|intros Heq; left; by eapply Hkeep].
    destruct (check_conflicts _ _ _ _) eqn:Ec; [intros Heq; left; by eapply Hkeep|].
    apply (store_file _ _ _ _ _ Hs) in Ef as [Ef _].
    intros Heq. left. eapply Hkeep; [|exact Heq]. clear Heq Hkeep.
    destruct Hw as [H1 H2 H3 H4 H5 H6]. split; try done.
    + intros sn' H. cbn in H. rewrite Hsn in H. injection H as <-.
      destruct (H4 _ Hsn) as (k0 & Hk & Hst & Hch). exists k0. split; [done|]. split; [done|].
      intros v' f' Hv' Hcm. cbn [w_req w_acts set_phase].
      assert (v' <= v) as Hle by (unfold checked_upto in Hv'; cbn in Hv'; destruct (v =? latest) eqn:E; lia).
      destruct (decide (v' = v)) as [->|Hne].
      * rewrite Ef in Hcm. injection Hcm as <-. exists (sn_version sn). split; [lia|].
        destruct (H1 _ Hsn) as [_ <-]. done.
      * destruct (Hch v' f') as (k & Hkk & Hcc); [|done|by exists k]. unfold checked_upto. rewrite Ep. lia.
    + unfold phase_ok. cbn. destruct (v =? latest) eqn:E; exists sn; (split; [done|]); (split; [lia|]); [done|]. split; [lia|done].
    + intros x Hx. apply H6. revert Hx. unfold may_write. cbn. rewrite Ep, Hsn. by destruct (v =? latest).
  - pose proof (wk_phase _ _ _ Hw) as Hph. unfold phase_ok in Hph. rewrite Ep in Hph.
    destruct Hph as (sn & Hsn & Hv & Heff).
    destruct (load s latest (e_src e)) as [sn2|] eqn:El; intros Heq; left; eapply Hkeep; try exact Heq; [|done]. clear Heq Hkeep.
    destruct (load_ok _ _ _ _ _ _ Hs El) as (Hok & Hv2 & Hf2).
    destruct Hw as [H1 H2 H3 H4 H5 H6]. split.
    + intros sn' [= <-]. done.
    + intros sn' H. cbn in H. destruct (H2 _ H) as (Ha & (sn3 & Hb & Hc) & Hd). split; [done|]. split; [|done].
      exists sn2. split; [done|]. rewrite Hsn in Hb. injection Hb as <-. lia.
    + cbn. rewrite H3, Hsn. done.
    + intros sn' [= <-]. destruct (H4 _ Hsn) as (k0 & Hk & Hst & Hch). exists k0. split; [lia|]. split; [done|].
      intros v' f' Hv' Hcm. cbn. destruct (Hch v' f') as (k & Hkk & Hcc); [|done|by exists k].
      unfold checked_upto in *. cbn in Hv'. rewrite Ep. lia.
    + unfold phase_ok, aim. cbn. lia.
    + intros x. unfold may_write. cbn. intros [= <-]. lia.
  - pose proof (wk_phase _ _ _ Hw) as Hph. unfold phase_ok in Hph. rewrite Ep in Hph.
    assert (forall prev now, writer_ok first h (set_phase w (PPut version (finalize (w_acts w) (w_snap w) version prev now)))) as Hput.
    { intros prev now. destruct Hw as [H1 H2 H3 H4 H5 H6]. split; try done.
      - intros sn H. destruct (H4 sn H) as (k0 & Hk & Hst & Hch). exists k0. split; [done|]. split; [done|].
        intros v f Hv. apply Hch. unfold checked_upto in *. rewrite Ep. done.
      - unfold phase_ok. cbn. split; [done|]. by exists prev, now.
      - intros x Hx. apply H6. revert Hx. unfold may_write. cbn. rewrite Ep. by destruct (w_snap w). }
    destruct (w_snap w) as [sn|] eqn:Esn.
    + destruct (resolve_time s sn); intros Heq; left; eapply Hkeep; try exact Heq; [|done]. apply Hput.
    + intros Heq; left; eapply Hkeep; try exact Heq. apply Hput.
  - pose proof (wk_phase _ _ _ Hw) as Hph. unfold phase_ok in Hph. rewrite Ep in Hph. destruct Hph as [Haim (prev & now & Hfin)].
    assert (first <= version <= zlen h) as Hrange.
    { unfold aim in Haim. split.
      { apply (wk_first _ _ _ Hw). unfold may_write. rewrite Ep. unfold read_version in Haim. destruct (w_snap w); [by rewrite Haim|done]. }
      unfold read_version in *. destruct (w_snap w) as [sn|] eqn:Esn; [destruct (wk_snap _ _ _ Hw _ Esn); lia|lia]. }
    pose proof (retry_ok _ _ _ Hw (ex_intro _ _ (ex_intro _ _ Ep))) as Hretry.
    destruct (st_files s !! version) as [f0|] eqn:Ef.
    { destruct (e_put e); intros Heq; left; eapply Hkeep; try exact Heq; done. }
    assert (version = zlen h) as Hver.
    { destruct Hs as (_ & H & _). rewrite H in Ef. replace (first <=? version) with true in Ef by lia.
      destruct (decide (version < zlen h)); [|lia]. destruct (commit_at_is_Some h version) as (f & Hc); [|congruence].
      split; [|lia]. unfold aim in Haim. unfold read_version in Haim. destruct (w_snap w) as [sn|] eqn:Esn; [|lia].
      destruct (wk_snap _ _ _ Hw _ Esn). lia. }
    set (f := CFile acts (e_mtime e)).
    pose proof (put_ok _ _ _ _ f Hs Hver) as Hput. rewrite Hver in Hput |- *.
    assert (Hdone : forall w2 ev2, (put s (zlen h) f, w2, ev2) = (s', w', ev) -> ev2 = [EWrote id (zlen h) f] ->
       writer_ok first (h ++ [f]) w2 ->
       exists f, ev = [EWrote id (zlen h) f] /\ s' = put s (zlen h) f /\ store_ok first s' (h ++ [f]) /\
         writer_ok first (h ++ [f]) w' /\ PPut version acts = PPut (zlen h) (cf_acts f)).
    { intros w2 ev2 [= <- <- <-] -> Hw2. exists f. rewrite Hver. split_and!; try done. }
    rewrite Hver in Hdone.
    destruct (e_put e).
    + intros Heq. right. eapply Hdone; [exact Heq|done|]. clear Heq Hkeep Hdone.
      destruct (writer_ok_app _ _ [f] _ Hw) as [H1 H2 H3 H4 H5 H6]. split; try done.
      * intros sn H. destruct (H4 sn H) as (k0 & Hk & Hst & Hch). exists k0. split; [done|]. split; [done|].
        intros v f' Hv. apply Hch. unfold checked_upto in *. rewrite Ep. done.
      * unfold phase_ok. cbn. rewrite <- Hver. split; [done|]. exists f, prev, now. split; [rewrite Hver; apply commit_at_snoc|done].
    + intros Heq. left. exact (Hkeep _ Hfail Heq).
    + intros Heq. right. eapply Hdone; [exact Heq|done|]. by apply writer_ok_app.
    + intros Heq. right. eapply Hdone; [exact Heq|done|]. by apply writer_ok_app.
  - intros Heq. left. exact (Hkeep _ Hw Heq).
  - intros Heq. left. exact (Hkeep _ Hw Heq).
Qed.
