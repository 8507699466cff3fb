(** Loading the chosen files. *)
From Coq Require Import NArith ZArith ZifyN Lia.
From stdpp Require Import prelude list gmap sorting.
From Verif.Lib Require Import Text Sort ListFacts.
From Verif.Delta Require Import ActionModel LogModel SegmentSpec SegmentProofs ReplayProofs.
Local Open Scope Z_scope.

(** ** The entries in order *)
Definition entry_iv (x : rentry) : Z * Z := match x with RCommit v _ => (v, v) | RCompaction s e _ => (s, e) end.
Definition commit_entry (k : Z * lfile) : rentry := RCommit k.1 k.2.
Definition comp_entry (c : (Z * Z) * lfile) : rentry := RCompaction c.1.1 c.1.2 c.2.
Definition as_commit (x : rentry) : option (Z * lfile) :=
  match x with RCommit v f => Some (v, f) | RCompaction _ _ _ => None end.
Definition entries (sg : segment) : list rentry :=
  sort_asc (fun x => (entry_iv x).1) ((commit_entry <$> sg_commits sg) ++ (comp_entry <$> sg_compactions sg)).

Lemma entries_in sg : Forall (entry_in sg) (entries sg).
Proof.
  apply Forall_forall. intros x Hx. unfold entries in Hx. rewrite sort_asc_perm in Hx.
  apply elem_of_app in Hx as [Hx|Hx]; apply elem_of_list_fmap in Hx as (y & -> & Hy).
  - by destruct y.
  - by destruct y as [[]].
Qed.
Lemma entry_versions_iv l : flat_map entry_versions l = iv_versions (entry_iv <$> l).
Proof.
  induction l as [|x l IH]; cbn; [done|]. rewrite IH. destruct x; cbn; [by rewrite zrange_one|done].
Qed.
Lemma entries_perm sg : iv_versions (entry_iv <$> entries sg) ≡ₚ versions_of sg.
Proof.
  unfold entries. rewrite <- entry_versions_iv, (flat_map_perm' _ _ _ (sort_asc_perm _ _)).
  rewrite flat_map_app. unfold versions_of. f_equiv.
  - generalize (sg_commits sg). intros l. induction l as [|x l IH]; cbn; [done|]. by f_equiv.
  - generalize (sg_compactions sg). intros l. induction l as [|x l IH]; cbn; [done|]. by f_equiv.
Qed.
(** What makes a segment complete. *)
Record complete (sg : segment) : Prop := {
  cm_cover : versions_of sg ≡ₚ zrange (segment_start (sg_checkpoint sg)) (sg_target sg);
  cm_sorted : bt_sorted (sg_commits sg);
  cm_comps_sorted : StronglySorted (fun x y => x.1.1 <= y.1.1) (sg_compactions sg);
  cm_good : forall c, c ∈ sg_compactions sg -> c.1.1 <= c.1.2;
  cm_start : segment_start (sg_checkpoint sg) <= sg_target sg + 1
}.
Lemma entry_iv_sorted l :
  StronglySorted (fun x y => (entry_iv x).1 <= (entry_iv y).1) l -> StronglySorted (fun x y => x.1 <= y.1) (entry_iv <$> l).
Proof.
  induction 1 as [|x l Hs IH Hall]; cbn; constructor; [done|].
  apply Forall_forall. intros c (y & -> & Hy)%elem_of_list_fmap. rewrite Forall_forall in Hall. by apply Hall.
Qed.
Lemma entries_chain sg :
  complete sg -> contiguous_from (segment_start (sg_checkpoint sg)) (entry_iv <$> entries sg) = Some (sg_target sg + 1).
Proof.
  intros [Hc Hs _ Hg Hst]. apply contiguous_from_complete.
  - apply Forall_forall. intros iv (x & -> & Hx)%elem_of_list_fmap.
    pose proof (entries_in sg) as Hin. rewrite Forall_forall in Hin. specialize (Hin x Hx).
    destruct x as [v f|s e f]; cbn in *; [lia|]. by apply (Hg (s, e, f)).
  - apply entry_iv_sorted, sort_asc_sorted.
  - done.
  - rewrite entries_perm, Hc. by replace (sg_target sg + 1 - 1) with (sg_target sg) by lia.
Qed.
Lemma entries_versions sg :
  complete sg -> flat_map entry_versions (entries sg) = zrange (segment_start (sg_checkpoint sg)) (sg_target sg).
Proof.
  intros Hc. pose proof (entries_chain sg Hc) as H. apply contiguous_from_sound in H as [_ H].
  - rewrite entry_versions_iv, H. by replace (sg_target sg + 1 - 1) with (sg_target sg) by lia.
  - apply Forall_forall. intros iv (x & -> & Hx)%elem_of_list_fmap.
    pose proof (entries_in sg) as Hin. rewrite Forall_forall in Hin. specialize (Hin x Hx).
    destruct x as [v f|s e f]; cbn in *; [lia|]. by apply (cm_good sg Hc (s, e, f)).
Qed.
Lemma as_commit_entries sg : complete sg -> omap as_commit (entries sg) = sg_commits sg.
Proof.
  intros [Hc Hs Hcs Hg Hst].
  assert (omap as_commit (entries sg) ≡ₚ sg_commits sg) as Hp.
  { unfold entries. rewrite (omap_perm as_commit _ _ (sort_asc_perm _ _)), omap_app.
    rewrite (omap_none as_commit (comp_entry <$> _)).
    - rewrite app_nil_r. generalize (sg_commits sg). intros l. induction l as [|[v f] l IH]; cbn; [done|]. by f_equiv.
    - intros x (y & -> & _)%elem_of_list_fmap. done. }
  assert (AntiSymm (=) (fun a b : Z * lfile => a.1 < b.1)) as Hanti by (intros a b; lia).
  apply (StronglySorted_unique (fun a b => a.1 < b.1)); [|exact Hs|exact Hp].
  - assert (NoDup (omap as_commit (entries sg)).*1) as Hn.
    { rewrite Hp. by apply bt_sorted_NoDup. }
    revert Hn. pose proof (sort_asc_sorted (fun x => (entry_iv x).1) ((commit_entry <$> sg_commits sg) ++ (comp_entry <$> sg_compactions sg))) as Hss.
    fold (entries sg) in Hss. clear Hp. induction Hss as [|x l Hs' IH Hall]; [constructor|].
    destruct x as [v f|s e f]; cbn; [|exact IH]. intros [Hv Hn]%NoDup_cons. constructor; [by apply IH|].
    apply Forall_forall. intros [v' f'] Hk. cbn.
    assert (v <= v').
    { apply elem_of_list_omap in Hk as (y & Hy & Hy'). rewrite Forall_forall in Hall. specialize (Hall y Hy).
      destruct y; [|done]. cbn in Hy', Hall. by injection Hy' as -> ->. }
    assert (v <> v'); [|lia]. intros <-. apply Hv, elem_of_list_fmap. by exists (v, f').
Qed.

(** ** The replay sequence is those entries *)
Lemma NoDup_flat_map_inj {A B} (f : A -> list B) (l : list A) x y z :
  NoDup (flat_map f l) -> x ∈ l -> y ∈ l -> z ∈ f x -> z ∈ f y -> x = y.
Proof.
  induction l as [|a l IH]; cbn; [set_solver|]. intros (H1 & H2 & H3)%NoDup_app Hx Hy Hzx Hzy.
  apply elem_of_cons in Hx as [->|Hx]; apply elem_of_cons in Hy as [->|Hy]; [done|..].
  - exfalso. apply (H2 z Hzx). apply elem_of_flat_map. eauto.
  - exfalso. apply (H2 z Hzy). apply elem_of_flat_map. eauto.
  - by apply IH.
Qed.
Lemma last_filter_elem {A} (P : A -> Prop) `{forall x, Decision (P x)} (l : list A) x :
  last (filter P l) = Some x -> P x /\ x ∈ l.
Proof. intros [l' Hl]%last_Some. assert (x ∈ filter P l) as Hx by (rewrite Hl; set_solver).
  by apply elem_of_list_filter in Hx. Qed.
Lemma comp_at_entry sg s e f :
  complete sg -> (s, e, f) ∈ sg_compactions sg -> comp_at s (sg_compactions sg) = Some (s, e, f).
Proof.
  intros [Hc _ _ Hg _] Hin. unfold comp_at.
  destruct (last (filter _ (sg_compactions sg))) as [c|] eqn:E.
  - apply last_filter_elem in E as [Hs Hc']. f_equal.
    assert (NoDup (versions_of sg)) as Hn by (rewrite Hc; apply zrange_NoDup).
    unfold versions_of in Hn. apply NoDup_app in Hn as (_ & _ & Hn).
    apply (NoDup_flat_map_inj _ _ _ _ s Hn Hc' Hin).
    + apply zrange_elem. specialize (Hg c Hc'). lia.
    + apply zrange_elem. specialize (Hg _ Hin). cbn in *. lia.
  - apply last_None in E. exfalso.
    assert ((s, e, f) ∈ filter (fun c : Z * Z * lfile => c.1.1 = s) (sg_compactions sg)) as H by by apply elem_of_list_filter.
    rewrite E in H. set_solver.
Qed.
Lemma comp_at_commit sg v f :
  complete sg -> (v, f) ∈ sg_commits sg -> comp_at v (sg_compactions sg) = None.
Proof.
  intros [Hc _ _ Hg _] Hin. unfold comp_at.
  destruct (last (filter _ (sg_compactions sg))) as [c|] eqn:E; [|done].
  apply last_filter_elem in E as [Hs Hc'].
  assert (NoDup (versions_of sg)) as Hn by (rewrite Hc; apply zrange_NoDup).
  unfold versions_of in Hn. apply NoDup_app in Hn as (_ & Hn & _).
  exfalso. apply (Hn v); [apply elem_of_list_fmap; by exists (v, f)|].
  apply elem_of_flat_map. exists c. split; [done|]. apply zrange_elem. specialize (Hg c Hc'). lia.
Qed.
Lemma contiguous_from_low ivs a b x :
  Forall (fun c => c.1 <= c.2) ivs -> contiguous_from a ivs = Some b -> x ∈ ivs -> a <= x.1.
Proof.
  revert a. induction ivs as [|[s e] ivs IH]; intros a Hall; cbn; [set_solver|].
  inversion Hall as [|?? Hse Hall']; subst. cbn in Hse. destruct (Z.eqb_spec s a) as [->|]; [|done].
  intros H [->|Hx]%elem_of_cons; cbn; [lia|]. specialize (IH _ Hall' H Hx). lia.
Qed.
Lemma skip_below_id v (l : list (Z * lfile)) : (forall k, k ∈ l -> v <= k.1) -> skip_below v l = l.
Proof.
  destruct l as [|k l]; [done|]. intros H. cbn. assert (v <= k.1) by (apply H; set_solver).
  by replace (k.1 <? v) with false by lia.
Qed.
Lemma build_seq_chain sg ents v last fuel :
  complete sg -> Forall (entry_in sg) ents ->
  contiguous_from v (entry_iv <$> ents) = Some (last + 1) -> (Z.to_nat (last - v + 1) <= fuel)%nat ->
  build_seq fuel (sg_compactions sg) last v (omap as_commit ents) = ents.
Proof.
  intros Hc. revert v fuel. induction ents as [|x ents IH]; intros v fuel Hin Hch Hf.
  - cbn in *. injection Hch as ->. destruct fuel; cbn; [done|]. by replace (last <? last + 1) with true by lia.
  - inversion Hin as [|?? Hx Hin']; subst.
    assert (Forall (fun c => c.1 <= c.2) (entry_iv <$> ents)) as Hgood.
    { apply Forall_forall. intros iv (y & -> & Hy)%elem_of_list_fmap. rewrite Forall_forall in Hin'.
      specialize (Hin' y Hy). destruct y as [w g|s e g]; cbn in *; [lia|]. by apply (cm_good sg Hc (s, e, g)). }
    destruct x as [w f|s e f]; cbn [fmap list_fmap entry_iv contiguous_from] in Hch; cbn in Hx.
    + destruct (Z.eqb_spec w v) as [->|]; [|done].
      assert (v <= last). { apply contiguous_from_sound in Hch; [lia|done]. }
      destruct fuel as [|fuel]; [lia|]. cbn [build_seq omap list_omap as_commit].
      replace (last <? v) with false by lia. rewrite (comp_at_commit sg v f Hc Hx), Z.eqb_refl.
      f_equal. apply IH; [done|done|lia].
    + destruct (Z.eqb_spec s v) as [->|]; [|done].
      assert (v <= e) as Hve by by apply (cm_good sg Hc (v, e, f)).
      assert (v <= last). { apply contiguous_from_sound in Hch; [lia|done]. }
      destruct fuel as [|fuel]; [lia|]. cbn [build_seq omap list_omap as_commit].
      replace (last <? v) with false by lia. rewrite (comp_at_entry sg v e f Hc Hx). f_equal.
      rewrite skip_below_id; [apply IH; [done|done|lia]|].
      intros k (y & Hy & Hk)%elem_of_list_omap. destruct y as [w g|]; [|done]. cbn in Hk. injection Hk as <-. cbn.
      apply (contiguous_from_low _ _ _ (w, w) Hgood Hch). apply elem_of_list_fmap. by exists (RCommit w g).
Qed.
Lemma build_replay_sequence_entries sg :
  complete sg ->
  build_replay_sequence (sg_commits sg) (sg_compactions sg) (segment_start (sg_checkpoint sg)) (sg_target sg) = entries sg.
Proof.
  intros Hc. unfold build_replay_sequence. rewrite <- (as_commit_entries sg Hc) at 1.
  apply build_seq_chain; [done|apply entries_in|by apply entries_chain|done].
Qed.

(** ** Replaying *)
Lemma replay_entries_state l s s' : replay_entries s l = Some s' -> s'.1 = replay s.1 (flat_map entry_rows l).
Proof.
  revert s. induction l as [|x l IH]; intros s; cbn; [by intros [= ->]|].
  destruct (replay_entry s x) as [s1|] eqn:E; cbn; [|done]. intros H%IH. rewrite H, replay_app. f_equal.
  destruct x as [v f|a b f]; cbn in E.
  - unfold replay_commit in E. destruct (commit_time _ _ _ _ _); cbn in E; [|done]. by injection E as <-.
  - by injection E as <-.
Qed.
Lemma replay_commits_entries commits start last expected s :
  (forall k, k ∈ commits -> start <= k.1 <= last) ->
  (exists b, contiguous_from expected ((fun k => (k.1, k.1)) <$> commits) = Some b) ->
  replay_commits commits start last expected s =
    s' ← replay_entries s (commit_entry <$> commits);
    b ← contiguous_from expected ((fun k => (k.1, k.1)) <$> commits); Some (b, s').
Proof.
  revert expected s. induction commits as [|[v f] l IH]; intros expected s Hin [b Hb]; cbn; [done|].
  assert (start <= v <= last) as Hv by (apply (Hin (v, f)); set_solver).
  replace ((v <? start) || (last <? v)) with false by lia.
  cbn in Hb. destruct (Z.eqb_spec v expected) as [->|]; [|done].
  destruct (replay_commit s expected f) as [s1|]; cbn; [|done].
  rewrite IH; [done| |eauto]. intros k Hk. apply Hin. set_solver.
Qed.
Lemma entries_commits sg : complete sg -> sg_compactions sg = [] -> entries sg = commit_entry <$> sg_commits sg.
Proof.
  intros Hc Hn. rewrite <- (as_commit_entries sg Hc) at 1.
  assert (forall x, x ∈ entries sg -> exists v f, x = RCommit v f) as Hx.
  { intros x Hx. pose proof (entries_in sg) as Hin. rewrite Forall_forall in Hin. specialize (Hin x Hx).
    destruct x; [eauto|]. cbn in Hin. rewrite Hn in Hin. set_solver. }
  revert Hx. generalize (entries sg). intros l Hx. induction l as [|x l IH]; [done|].
  destruct (Hx x) as (v & f & ->); [set_solver|]. cbn. f_equal. apply IH. intros y Hy. apply Hx. set_solver.
Qed.
Lemma commit_entry_iv (l : list (Z * lfile)) : entry_iv <$> (commit_entry <$> l) = (fun k => (k.1, k.1)) <$> l.
Proof. rewrite <- list_fmap_compose. apply list_fmap_ext. done. Qed.
Lemma load_start_eq sg :
  complete sg -> sg_compactions sg = [] \/ starts_after_checkpoint sg -> load_start sg = segment_start (sg_checkpoint sg).
Proof.
  intros Hc Hs. unfold load_start. destruct (sg_checkpoint sg) as [[c f]|] eqn:Ecp; [|done].
  pose proof (entries_chain sg Hc) as Hch. rewrite Ecp in Hch.
  destruct (sg_commits sg) as [|[v g] l] eqn:Ek.
  - destruct (sg_compactions sg) as [|[[s e] g] l'] eqn:El.
    + rewrite (entries_commits sg Hc El), Ek in Hch. cbn [fmap list_fmap contiguous_from] in Hch. by injection Hch.
    + (* the first compacted file starts the cover *)
      pose proof (cm_cover sg Hc) as Hv. unfold versions_of in Hv. rewrite Ek, El, Ecp in Hv. cbn [fmap list_fmap app] in Hv.
      pose proof (cm_comps_sorted sg Hc) as Hss. rewrite El in Hss. inversion Hss as [|?? _ Hlow]; subst.
      assert (forall c, c ∈ (s, e, g) :: l' -> c.1.1 <= c.1.2) as Hgood.
      { intros c0. rewrite <- El. apply (cm_good sg Hc). }
      assert (s <= e) as Hse by (apply (Hgood (s, e, g)); set_solver).
      assert (s ∈ zrange (segment_start (Some (c, f))) (sg_target sg)) as H1.
      { rewrite <- Hv. cbn. apply elem_of_app. left. apply zrange_elem. lia. }
      apply zrange_elem in H1.
      assert (segment_start (Some (c, f)) ∈ flat_map (fun c => zrange c.1.1 c.1.2) ((s, e, g) :: l')) as H2.
      { rewrite Hv. apply zrange_elem. lia. }
      apply elem_of_flat_map in H2 as ([[s' e'] g'] & Hin & H2%zrange_elem).
      cbn [segment_start fst snd] in *.
      apply elem_of_cons in Hin as [[= -> -> ->]|Hin]; [lia|].
      rewrite Forall_forall in Hlow. specialize (Hlow _ Hin). cbn in Hlow. lia.
  - destruct Hs as [Hs|[Hs|[Hs|(g' & l' & Hs)]]].
    + rewrite (entries_commits sg Hc Hs), Ek in Hch. cbn in Hch. destruct (Z.eqb_spec v (c + 1)) as [->|]; [done|done].
    + congruence.
    + congruence.
    + rewrite Ek, Ecp in Hs. by injection Hs as -> -> ->.
Qed.
Lemma load_segment_entries sg :
  complete sg -> sg_compactions sg = [] \/ starts_after_checkpoint sg ->
  load_segment sg =
    s ← replay_entries (replay rs_empty (base_rows sg), ∅) (entries sg);
    match rs_protocol s.1, rs_metadata s.1 with Some _, Some _ => Some s | _, _ => None end.
Proof.
  intros Hc Hs. unfold load_segment. rewrite (load_start_eq sg Hc Hs).
  assert ((match sg_checkpoint sg with Some (_, f) => replay rs_empty (lf_rows f) | None => rs_empty end)
          = replay rs_empty (base_rows sg)) as ->.
  { unfold base_rows. by destruct (sg_checkpoint sg) as [[]|]. }
  f_equal. unfold replay_with_compactions.
  destruct (sg_compactions sg) as [|c l] eqn:El.
  - rewrite (entries_commits sg Hc El). unfold replay_plain.
    pose proof (entries_chain sg Hc) as Hch. rewrite (entries_commits sg Hc El), commit_entry_iv in Hch.
    destruct (sg_target sg <? segment_start (sg_checkpoint sg)) eqn:E.
    + assert (sg_commits sg = []) as ->; [|done].
      pose proof (cm_cover sg Hc) as Hv. rewrite zrange_nil in Hv by lia. apply Permutation_nil_r in Hv.
      unfold versions_of in Hv. apply app_eq_nil in Hv as [Hv _]. by apply fmap_nil_inv in Hv.
    + rewrite replay_commits_entries.
      * rewrite Hch. destruct (replay_entries _ (commit_entry <$> sg_commits sg)); cbn; [|done].
        by replace (sg_target sg + 1 - 1 =? sg_target sg) with true by lia.
      * intros k Hk. apply zrange_elem. rewrite <- (cm_cover sg Hc). unfold versions_of. apply elem_of_app. left.
        apply elem_of_list_fmap. eauto.
      * eauto.
  - rewrite <- El. by rewrite (build_replay_sequence_entries sg Hc).
Qed.
Lemma load_segment_reads sg st ts :
  complete sg -> sg_compactions sg = [] \/ starts_after_checkpoint sg -> load_segment sg = Some (st, ts) ->
  exists acts, reads_in_order sg acts /\ st = replay rs_empty acts.
Proof.
  intros Hc Hs. rewrite (load_segment_entries sg Hc Hs).
  destruct (replay_entries _ _) as [s|] eqn:E; cbn; [|done]. intros H.
  assert (s = (st, ts)) as ->. { destruct (rs_protocol s.1), (rs_metadata s.1); by simplify_eq. }
  apply replay_entries_state in E. cbn in E.
  exists (base_rows sg ++ flat_map entry_rows (entries sg)). split.
  - exists (entries sg). split; [apply entries_in|]. split; [by apply entries_versions|done].
  - by rewrite replay_app.
Qed.
Lemma resolve_full_complete_segment h catalog files target sg :
  good_compactions files -> -1 <= target -> resolve_full h catalog files target = Some sg -> complete sg.
Proof.
  intros Hg Ht H. destruct (resolve_full_sound _ _ _ _ _ Hg H) as (<- & _ & (Hf1 & _ & Hf3) & Hp & Hs & Hcs).
  split; [done|done|done|..].
  - intros [[s e] f] Hc. apply Hf3 in Hc as [Hin Hk]. by eapply Hg.
  - destruct (sg_checkpoint sg) as [[c f]|]; cbn; [|lia]. destruct (Hf1 c f eq_refl) as (_ & _ & ?). lia.
Qed.
