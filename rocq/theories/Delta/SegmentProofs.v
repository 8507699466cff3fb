(** Choosing the files to read a version from. *)
From Coq Require Import NArith ZArith ZifyN Lia.
From stdpp Require Import prelude list gmap sorting.
From Verif.Lib Require Import Text Sort ListFacts.
From Verif.Delta Require Import ActionModel LogModel SegmentSpec.
Local Open Scope Z_scope.

(** ** Ranges *)
Lemma zrange_elem s e v : v ∈ zrange s e <-> s <= v <= e.
Proof.
  unfold zrange. rewrite elem_of_list_fmap. split.
  - intros (i & -> & Hi). apply elem_of_seq in Hi. lia.
  - intros H. exists (Z.to_nat (v - s)). split; [lia|]. apply elem_of_seq. lia.
Qed.
Lemma zrange_NoDup s e : NoDup (zrange s e).
Proof. unfold zrange. apply NoDup_fmap_2; [intros i j; lia|apply NoDup_ListNoDup, seq_NoDup]. Qed.
Lemma zrange_nil s e : e < s -> zrange s e = [].
Proof. intros H. unfold zrange. by replace (Z.to_nat (e - s + 1)) with O by lia. Qed.
Lemma zrange_cons s e : s <= e -> zrange s e = s :: zrange (s + 1) e.
Proof.
  intros H. unfold zrange. replace (Z.to_nat (e - s + 1)) with (S (Z.to_nat (e - (s + 1) + 1))) by lia.
  cbn [seq fmap list_fmap]. f_equal; [lia|]. rewrite <- seq_shift.
  change (map S) with (fmap (M:=list) S). rewrite <- list_fmap_compose. apply list_fmap_ext. intros i x _. cbn. lia.
Qed.
Lemma zrange_app s m e : s <= m + 1 -> m <= e -> zrange s e = zrange s m ++ zrange (m + 1) e.
Proof.
  intros H1 H2. remember (Z.to_nat (m + 1 - s)) as n eqn:En. revert s H1 En.
  induction n as [|n IH]; intros s H1 En.
  - replace s with (m + 1) by lia. rewrite (zrange_nil (m + 1) m) by lia. done.
  - rewrite (zrange_cons s e), (zrange_cons s m) by lia. cbn. f_equal. apply IH; lia.
Qed.
Lemma zrange_one v : zrange v v = [v].
Proof. rewrite zrange_cons by lia. by rewrite zrange_nil by lia. Qed.

(** ** Contiguity *)
Definition iv_versions (ivs : list (Z * Z)) : list Z := flat_map (fun c => zrange c.1 c.2) ivs.
Lemma contiguous_from_sound ivs a b :
  Forall (fun c => c.1 <= c.2) ivs -> contiguous_from a ivs = Some b ->
  a <= b /\ iv_versions ivs = zrange a (b - 1).
Proof.
  revert a. induction ivs as [|[s e] ivs IH]; intros a Hall; cbn.
  - intros [= <-]. split; [lia|]. by rewrite zrange_nil by lia.
  - inversion Hall as [|?? Hse Hall']; subst. cbn in Hse. destruct (Z.eqb_spec s a) as [->|]; [|done].
    intros H. destruct (IH _ Hall' H) as [Hle Hv]. split; [lia|].
    fold (iv_versions ivs). rewrite Hv. symmetry. apply zrange_app; lia.
Qed.
Lemma flat_map_perm' {A B} (f : A -> list B) (l1 l2 : list A) : l1 ≡ₚ l2 -> flat_map f l1 ≡ₚ flat_map f l2.
Proof.
  induction 1 as [|x l1 l2 _ IH|x y l|l1 l2 l3 _ IH1 _ IH2]; cbn; [done|..].
  - by rewrite IH.
  - rewrite !app_assoc. f_equiv. apply Permutation_app_comm.
  - by etrans.
Qed.
Lemma iv_versions_perm l1 l2 : l1 ≡ₚ l2 -> iv_versions l1 ≡ₚ iv_versions l2.
Proof. apply flat_map_perm'. Qed.
Lemma iv_versions_points {A} (l : list (Z * A)) : iv_versions ((fun k => (k.1, k.1)) <$> l) = l.*1.
Proof. induction l as [|[v f] l IH]; cbn; [done|]. rewrite zrange_one. cbn. f_equal. exact IH. Qed.
Lemma iv_versions_app l1 l2 : iv_versions (l1 ++ l2) = iv_versions l1 ++ iv_versions l2.
Proof. apply flat_map_app. Qed.
Lemma iv_versions_comps {A} (l : list ((Z * Z) * A)) : iv_versions (fst <$> l) = flat_map (fun c => zrange c.1.1 c.1.2) l.
Proof. induction l as [|c l IH]; cbn; [done|]. by f_equal. Qed.

(** Conversely, sorted intervals that cover a range exactly pass the check. *)
Lemma contiguous_from_complete ivs a b :
  Forall (fun c => c.1 <= c.2) ivs -> StronglySorted (fun x y => x.1 <= y.1) ivs -> a <= b ->
  iv_versions ivs ≡ₚ zrange a (b - 1) -> contiguous_from a ivs = Some b.
Proof.
  revert a. induction ivs as [|[s e] ivs IH]; intros a Hall Hs Hab Hp; cbn.
  - f_equal. destruct (Z.eq_dec a b); [done|]. exfalso.
    assert (a ∈ iv_versions []) as H; [rewrite Hp; apply zrange_elem; lia|]. cbn in H. set_solver.
  - inversion Hall as [|?? Hse Hall']; subst. cbn in Hse. inversion Hs as [|?? Hs' Hlow]; subst.
    assert (forall v, v ∈ iv_versions ((s, e) :: ivs) -> a <= v <= b - 1) as Hin.
    { intros v. rewrite Hp. apply zrange_elem. }
    assert (s ∈ iv_versions ((s, e) :: ivs)) as H1.
    { cbn. apply elem_of_app. left. apply zrange_elem. lia. }
    assert (e ∈ iv_versions ((s, e) :: ivs)) as H2.
    { cbn. apply elem_of_app. left. apply zrange_elem. lia. }
    apply Hin in H1, H2.
    assert (s = a) as ->.
    { assert (a ∈ iv_versions ((s, e) :: ivs)) as Ha by (rewrite Hp; apply zrange_elem; lia).
      cbn in Ha. apply elem_of_app in Ha as [Ha|Ha]; [apply zrange_elem in Ha; lia|].
      apply elem_of_flat_map in Ha as ([s' e'] & Hm & Ha). apply zrange_elem in Ha. cbn in Ha.
      rewrite Forall_forall in Hlow. specialize (Hlow _ Hm). cbn in Hlow. lia. }
    rewrite Z.eqb_refl. apply IH; [done|done|lia|].
    rewrite (zrange_app a e (b - 1)) in Hp by lia. cbn in Hp. by apply Permutation_app_inv_l in Hp.
Qed.

(** ** What is chosen comes from the listing *)
Lemma head_elem {A} (l : list A) x : head l = Some x -> x ∈ l.
Proof. destruct l; [done|]. intros [= ->]. set_solver. Qed.
Lemma select_checkpoint_elem cands h c : select_checkpoint cands h = Some c -> c ∈ cands.
Proof.
  unfold select_checkpoint. intros H. rewrite <- (isort_elem cp_before).
  destruct (isort cp_before cands) as [|[latest f] l] eqn:E; [done|].
  assert (head ((latest, f) :: l) = Some c -> c ∈ (latest, f) :: l) as Hh by apply head_elem.
  destruct h as [[v [loc|]]|]; [|by apply Hh..].
  destruct (v =? latest); [|by apply Hh].
  destruct (head (filter _ _)) as [c'|] eqn:E'.
  - injection H as ->. apply head_elem, elem_of_list_filter in E'. tauto.
  - apply head_elem, elem_of_list_filter in H. tauto.
Qed.
Lemma commit_of_elem offset max files v f :
  (v, f) ∈ omap (commit_of max) (list_entries offset files) <->
  f ∈ files /\ lf_kind f = KCommit v /\ offset <= v <= max.
Proof.
  rewrite elem_of_list_omap. split.
  - intros (x & Hx & Hv). unfold list_entries in Hx. apply elem_of_list_filter in Hx as [Ho Hx].
    unfold commit_of in Hv. destruct (lf_kind x) eqn:E; try done. destruct (v0 <=? max) eqn:El; [|done].
    injection Hv as -> ->. unfold lf_first in Ho. rewrite E in Ho. split_and!; [done..|lia|lia].
  - intros (Hf & Hk & Hr). exists f. split.
    + apply elem_of_list_filter. split; [|done]. unfold lf_first. rewrite Hk. lia.
    + unfold commit_of. rewrite Hk. by replace (v <=? max) with true by lia.
Qed.
Lemma checkpoint_of_elem offset max files v f :
  (v, f) ∈ omap (checkpoint_of max) (list_entries offset files) <->
  f ∈ files /\ lf_kind f = KCheckpoint v /\ offset <= v <= max.
Proof.
  rewrite elem_of_list_omap. split.
  - intros (x & Hx & Hv). unfold list_entries in Hx. apply elem_of_list_filter in Hx as [Ho Hx].
    unfold checkpoint_of in Hv. destruct (lf_kind x) eqn:E; try done. destruct (v0 <=? max) eqn:El; [|done].
    injection Hv as -> ->. unfold lf_first in Ho. rewrite E in Ho. split_and!; [done..|lia|lia].
  - intros (Hf & Hk & Hr). exists f. split.
    + apply elem_of_list_filter. split; [|done]. unfold lf_first. rewrite Hk. lia.
    + unfold checkpoint_of. rewrite Hk. by replace (v <=? max) with true by lia.
Qed.
Lemma compaction_of_elem offset max files s e f :
  (s, e, f) ∈ omap (compaction_of max) (list_entries offset files) <->
  f ∈ files /\ lf_kind f = KCompacted s e /\ offset <= s /\ e <= max.
Proof.
  rewrite elem_of_list_omap. split.
  - intros (x & Hx & Hv). unfold list_entries in Hx. apply elem_of_list_filter in Hx as [Ho Hx].
    unfold compaction_of in Hv. destruct (lf_kind x) eqn:E; try done. destruct (e0 <=? max) eqn:El; [|done].
    injection Hv as -> -> ->. unfold lf_first in Ho. rewrite E in Ho. split_and!; [done..|lia|lia].
  - intros (Hf & Hk & Hr). exists f. split.
    + apply elem_of_list_filter. split; [|done]. unfold lf_first. rewrite Hk. lia.
    + unfold compaction_of. rewrite Hk. by replace (e <=? max) with true by lia.
Qed.
Lemma pick_compactions_elem lowest l c : c ∈ pick_compactions lowest l -> c ∈ l.
Proof.
  revert lowest. induction l as [|x l IH]; intros lowest; cbn; [done|].
  destruct lowest as [b|]; [destruct (b <=? x.1.2)|];
    rewrite ?elem_of_cons; intros H; [right; by eapply IH|..]; destruct H as [->|H%IH]; auto.
Qed.

(** The pieces of [resolve_full]. *)
Definition rf_offset (h : option hint) (target : Z) : Z :=
  match h with Some h => Z.min (h_version h) target - 1 | None => 0 end.
Definition rf_checkpoint h target files : option (Z * lfile) :=
  select_checkpoint (omap (checkpoint_of target) (list_entries (rf_offset h target) files)) h.
Definition rf_start h target files : Z := segment_start (rf_checkpoint h target files).
Definition rf_catalog h target files (catalog : list (Z * lfile)) : list (Z * lfile) :=
  sort_asc fst (filter (fun k => rf_start h target files <= k.1 <= target) catalog).
Definition rf_commits h target files catalog : list (Z * lfile) :=
  merge_catalog (filter (fun k => rf_start h target files <= k.1 <= target)
      (sort_asc fst (omap (commit_of target) (list_entries (rf_offset h target) files))))
    (rf_catalog h target files catalog).
Definition rf_comps h target files catalog : list ((Z * Z) * lfile) :=
  compactions_without_catalog (compactions_in_range (rf_start h target files) target
      (sort_asc (fun c => c.1.1) (omap (compaction_of target) (list_entries (rf_offset h target) files))))
    (rf_catalog h target files catalog).
Lemma resolve_full_eq h catalog files target :
  resolve_full h catalog files target =
    let '(commits, comps) := resolve_compactions (rf_commits h target files catalog) (rf_comps h target files catalog) in
    if contiguous commits comps (rf_start h target files) target
    then Some (Segment (rf_checkpoint h target files) commits comps target) else None.
Proof. reflexivity. Qed.

Lemma rf_commits_elem h target files catalog v f :
  (v, f) ∈ rf_commits h target files catalog ->
  rf_start h target files <= v <= target /\ (f ∈ files /\ lf_kind f = KCommit v \/ (v, f) ∈ catalog).
Proof.
  unfold rf_commits, merge_catalog, bt_of_list. intros [[H|H]%bt_foldl_elem|H]%bt_foldl_elem.
  - set_solver.
  - apply elem_of_list_filter in H as [Hr H]. cbn in Hr. split; [done|]. left.
    rewrite sort_asc_perm in H. apply commit_of_elem in H. tauto.
  - unfold rf_catalog in H. rewrite sort_asc_perm in H. apply elem_of_list_filter in H as [Hr H]. cbn in Hr. auto.
Qed.
Lemma rf_commits_keys h target files catalog v :
  v ∈ (rf_commits h target files catalog).*1 <->
  rf_start h target files <= v <= target /\
    ((exists f, f ∈ files /\ lf_kind f = KCommit v /\ rf_offset h target <= v) \/ exists f, (v, f) ∈ catalog).
Proof.
  unfold rf_commits, merge_catalog, bt_of_list. rewrite bt_foldl_keys, bt_foldl_keys. cbn [fmap list_fmap].
  rewrite !elem_of_list_fmap. split.
  - intros [[H|H]|H].
    + set_solver.
    + destruct H as ([v' f] & Hv & H). cbn in Hv. subst v'. apply elem_of_list_filter in H as [Hr H]. cbn in Hr.
      split; [done|]. left. rewrite sort_asc_perm in H. apply commit_of_elem in H. exists f. tauto.
    + destruct H as ([v' f] & Hv & H). cbn in Hv. subst v'. unfold rf_catalog in H. rewrite sort_asc_perm in H.
      apply elem_of_list_filter in H as [Hr H]. cbn in Hr. split; [done|]. right. eauto.
  - intros [Hr [(f & Hf & Hk & Ho)|(f & Hf)]].
    + left. right. exists (v, f). split; [done|]. apply elem_of_list_filter. cbn. split; [done|].
      rewrite sort_asc_perm. apply commit_of_elem. split_and!; [done|done|done|lia].
    + right. exists (v, f). split; [done|]. unfold rf_catalog. rewrite sort_asc_perm. apply elem_of_list_filter. done.
Qed.
Lemma rf_commits_sorted h target files catalog : bt_sorted (rf_commits h target files catalog).
Proof. unfold rf_commits, merge_catalog, bt_of_list. apply bt_foldl_sorted, bt_foldl_sorted. constructor. Qed.
Lemma rf_comps_elem h target files catalog s e f :
  (s, e, f) ∈ rf_comps h target files catalog ->
  f ∈ files /\ lf_kind f = KCompacted s e /\ rf_start h target files <= s /\ e <= target.
Proof.
  unfold rf_comps, compactions_without_catalog, compactions_in_range.
  intros [_ [Hr H]%elem_of_list_filter]%elem_of_list_filter. cbn in Hr.
  rewrite sort_asc_perm in H. apply compaction_of_elem in H. tauto.
Qed.
Lemma resolve_compactions_elem commits comps commits' comps' :
  resolve_compactions commits comps = (commits', comps') ->
  (forall k, k ∈ commits' -> k ∈ commits) /\ (forall c, c ∈ comps' -> c ∈ comps).
Proof.
  unfold resolve_compactions. intros [= <- <-]. split.
  - intros k Hk. apply elem_of_list_filter in Hk. tauto.
  - intros c Hc. rewrite sort_asc_perm in Hc. apply pick_compactions_elem in Hc. by rewrite sort_desc_perm in Hc.
Qed.

Definition good_compactions (files : list lfile) : Prop :=
  forall f s e, f ∈ files -> lf_kind f = KCompacted s e -> s <= e.
Lemma covers_once_perm vs a b : vs ≡ₚ zrange a b -> covers_once vs a b.
Proof.
  intros H. split.
  - rewrite H. apply zrange_NoDup.
  - intros v. rewrite H. apply zrange_elem.
Qed.
Lemma filter_id {A} (P : A -> Prop) `{forall x, Decision (P x)} (l : list A) :
  (forall x, x ∈ l -> P x) -> filter P l = l.
Proof.
  induction l as [|x l IH]; intros HP; [done|]. rewrite filter_cons_True by (apply HP; set_solver).
  f_equal. apply IH. intros y Hy. apply HP. set_solver.
Qed.
(** The check passes only on an exact cover. *)
Lemma contiguous_perm commits comps start last :
  (forall k, k ∈ commits -> start <= k.1 <= last) ->
  (forall c, c ∈ comps -> start <= c.1.1 /\ c.1.1 <= c.1.2 /\ c.1.2 <= last) ->
  contiguous commits comps start last = true ->
  commits.*1 ++ flat_map (fun c => zrange c.1.1 c.1.2) comps ≡ₚ zrange start last.
Proof.
  intros Hk Hc. unfold contiguous. destruct (last <? start) eqn:El.
  - intros _. rewrite zrange_nil by lia.
    assert (commits = []) as ->.
    { apply elem_of_nil_inv. intros k Hk'. apply Hk in Hk'. lia. }
    assert (comps = []) as ->; [|done].
    apply elem_of_nil_inv. intros c Hc'. apply Hc in Hc'. lia.
  - rewrite filter_id by exact Hk.
    set (ivs := ((fun k : Z * lfile => (k.1, k.1)) <$> commits) ++ (fst <$> comps)).
    set (ivs' := match comps with [] => ivs | _ => sort_asc fst ivs end).
    assert (ivs' ≡ₚ ivs) as Hp by (unfold ivs'; destruct comps; [done|apply sort_asc_perm]).
    destruct (contiguous_from start ivs') as [x|] eqn:E; [|done]. intros Hx.
    apply contiguous_from_sound in E as [Hle Hv].
    + replace last with (x - 1) by lia. rewrite <- Hv, (iv_versions_perm _ _ Hp). unfold ivs.
      by rewrite iv_versions_app, iv_versions_points, iv_versions_comps.
    + rewrite Hp. unfold ivs. apply Forall_app. split; apply Forall_forall.
      * intros c ((v & f) & -> & _)%elem_of_list_fmap. cbn. lia.
      * intros c (x0 & -> & Hx0)%elem_of_list_fmap. apply Hc in Hx0. lia.
Qed.

Lemma resolve_full_sound h catalog files target sg :
  good_compactions files -> resolve_full h catalog files target = Some sg ->
  sg_target sg = target /\ sg_checkpoint sg = rf_checkpoint h target files /\ from_log catalog files sg /\
  versions_of sg ≡ₚ zrange (segment_start (sg_checkpoint sg)) target /\ bt_sorted (sg_commits sg) /\
  StronglySorted (fun x y => x.1.1 <= y.1.1) (sg_compactions sg).
Proof.
  intros Hg. rewrite resolve_full_eq.
  destruct (resolve_compactions _ _) as [commits comps] eqn:Er.
  destruct (contiguous commits comps _ target) eqn:Ec; [|done]. intros [= <-]. cbn.
  pose proof Er as [Hk Hc]%resolve_compactions_elem.
  split; [done|]. split; [done|]. split; [|split; [|split]].
  - split_and!.
    + intros v f H. cbn in H. unfold rf_checkpoint in H. apply select_checkpoint_elem, checkpoint_of_elem in H.
      cbn. split_and!; [tauto|tauto|lia].
    + intros v f H. cbn in H. apply Hk, rf_commits_elem in H. tauto.
    + intros s e f H. cbn in H. apply Hc, rf_comps_elem in H. tauto.
  - unfold versions_of. cbn. apply (contiguous_perm _ _ (rf_start h target files)); [..|done].
    + intros [v f] H. cbn. apply Hk, rf_commits_elem in H. tauto.
    + intros [[s e] f] H. cbn. apply Hc, rf_comps_elem in H as (Hf & Hkd & ? & ?).
      split_and!; [lia| |lia]. by eapply Hg.
  - unfold resolve_compactions in Er. injection Er as <- _. apply bt_sorted_filter, rf_commits_sorted.
  - unfold resolve_compactions in Er. injection Er as _ <-. apply sort_asc_sorted.
Qed.

(** ** A complete log always resolves *)
Lemma pick_compactions_disjoint lowest l :
  StronglySorted (fun x y => y.1.2 <= x.1.2) l -> (forall c, c ∈ l -> c.1.1 <= c.1.2) ->
  NoDup (flat_map (fun c => zrange c.1.1 c.1.2) (pick_compactions lowest l)) /\
  (forall b v, lowest = Some b -> v ∈ flat_map (fun c : Z * Z * lfile => zrange c.1.1 c.1.2) (pick_compactions lowest l) -> v < b).
Proof.
  intros Hs. revert lowest. induction Hs as [|x l Hs IH Hall]; intros lowest Hc; cbn.
  { split; [constructor|]. intros b v _. set_solver. }
  assert (forall c, c ∈ l -> c.1.1 <= c.1.2) as Hc' by (intros; apply Hc; set_solver).
  assert (x.1.1 <= x.1.2) as Hx by (apply Hc; set_solver).
  assert (forall lo, NoDup (flat_map (fun c => zrange c.1.1 c.1.2) (x :: pick_compactions (Some x.1.1) l)) /\
     ((forall b, lo = Some b -> x.1.2 < b) ->
      forall b v, lo = Some b -> v ∈ flat_map (fun c : Z * Z * lfile => zrange c.1.1 c.1.2) (x :: pick_compactions (Some x.1.1) l) -> v < b)) as Hn.
  { intros lo. destruct (IH (Some x.1.1) Hc') as [H1 H2]. split.
    - cbn. apply NoDup_app. split_and!; [apply zrange_NoDup| |done].
      intros v Hv Hv'. apply zrange_elem in Hv. specialize (H2 _ _ eq_refl Hv'). lia.
    - intros Hlo b v Hb Hv. specialize (Hlo b Hb). cbn in Hv. apply elem_of_app in Hv as [Hv|Hv].
      + apply zrange_elem in Hv. lia.
      + specialize (H2 _ _ eq_refl Hv). lia. }
  destruct lowest as [b|].
  - destruct (b <=? x.1.2) eqn:E; [by apply IH|]. destruct (Hn (Some b)) as [H1 H2]. split; [done|].
    apply H2. intros b' [= <-]. lia.
  - destruct (Hn None) as [H1 H2]. split; [done|]. done.
Qed.
Lemma NoDup_fst_filter {A B} (P : A * B -> Prop) `{forall x, Decision (P x)} (l : list (A * B)) :
  NoDup l.*1 -> NoDup (filter P l).*1.
Proof.
  induction l as [|x l IH]; [done|]. cbn [fmap list_fmap]. intros [Hx Hn]%NoDup_cons. rewrite filter_cons.
  destruct (decide (P x)); [|by apply IH]. cbn [fmap list_fmap]. constructor; [|by apply IH].
  intros (y & Hy & [_ Hy']%elem_of_list_filter)%elem_of_list_fmap. apply Hx, elem_of_list_fmap. eauto.
Qed.
Lemma resolve_compactions_cover commits comps commits' comps' start last :
  resolve_compactions commits comps = (commits', comps') ->
  NoDup commits.*1 -> (forall v, v ∈ commits.*1 <-> start <= v <= last) ->
  (forall c, c ∈ comps -> start <= c.1.1 /\ c.1.1 <= c.1.2 /\ c.1.2 <= last) ->
  commits'.*1 ++ flat_map (fun c => zrange c.1.1 c.1.2) comps' ≡ₚ zrange start last.
Proof.
  unfold resolve_compactions. intros [= <- <-] Hnd Hk Hc.
  set (sel := pick_compactions None (sort_desc (fun c => c.1.2) comps)).
  assert (forall c, c ∈ sel -> c ∈ comps) as Hsel.
  { intros c H%pick_compactions_elem. by rewrite sort_desc_perm in H. }
  destruct (pick_compactions_disjoint None (sort_desc (fun c => c.1.2) comps)) as [Hn _].
  { apply sort_desc_sorted. }
  { intros c H. rewrite sort_desc_perm in H. apply Hc in H. lia. }
  fold sel in Hn. rewrite (flat_map_perm' _ _ _ (sort_asc_perm _ sel)).
  assert (forall v, v ∈ flat_map (fun c : Z * Z * lfile => zrange c.1.1 c.1.2) sel <-> existsb (in_compaction v) sel = true) as Hin.
  { intros v. rewrite elem_of_flat_map, existsb_exists. unfold in_compaction. split.
    - intros (c & H1 & H2%zrange_elem). exists c. split; [by apply elem_of_list_In|]. lia.
    - intros (c & H1%elem_of_list_In & H2). exists c. split; [done|]. apply zrange_elem. lia. }
  assert (forall v, v ∈ (filter (fun k : Z * lfile => existsb (in_compaction k.1) sel = false) commits).*1 <->
            v ∈ commits.*1 /\ existsb (in_compaction v) sel = false) as Hf.
  { intros v. rewrite !elem_of_list_fmap. split.
    - intros (p & -> & [H1 H2]%elem_of_list_filter). eauto.
    - intros [(p & -> & H1) H2]. exists p. split; [done|]. apply elem_of_list_filter. done. }
  apply NoDup_Permutation; [|apply zrange_NoDup|].
  - apply NoDup_app. split_and!; [|..|done].
    + by apply NoDup_fst_filter.
    + intros v [_ H1]%Hf H2%Hin. congruence.
  - intros v. rewrite elem_of_app, Hf, Hin, Hk, zrange_elem. split.
    + intros [[? _]|H]; [done|]. apply Hin, elem_of_flat_map in H as (c & Hc1 & Hc2%zrange_elem).
      apply Hsel, Hc in Hc1. lia.
    + intros Hv. destruct (existsb (in_compaction v) sel) eqn:E; [by right|by left].
Qed.
Lemma contiguous_complete commits comps start last :
  (forall k, k ∈ commits -> start <= k.1 <= last) ->
  (forall c, c ∈ comps -> start <= c.1.1 /\ c.1.1 <= c.1.2 /\ c.1.2 <= last) ->
  bt_sorted commits ->
  commits.*1 ++ flat_map (fun c => zrange c.1.1 c.1.2) comps ≡ₚ zrange start last ->
  contiguous commits comps start last = true.
Proof.
  intros Hk Hc Hs Hp. unfold contiguous. destruct (last <? start) eqn:El; [done|].
  rewrite filter_id by exact Hk.
  set (ivs := ((fun k : Z * lfile => (k.1, k.1)) <$> commits) ++ (fst <$> comps)).
  set (ivs' := match comps with [] => ivs | _ => sort_asc fst ivs end).
  assert (ivs' ≡ₚ ivs) as Hp' by (unfold ivs'; destruct comps; [done|apply sort_asc_perm]).
  rewrite (contiguous_from_complete ivs' start (last + 1)); [lia| | |lia|].
  - rewrite Hp'. unfold ivs. apply Forall_app. split; apply Forall_forall.
    + intros c ((v & f) & -> & _)%elem_of_list_fmap. cbn. lia.
    + intros c (x0 & -> & Hx0)%elem_of_list_fmap. apply Hc in Hx0. lia.
  - unfold ivs'. destruct comps; [|apply sort_asc_sorted]. unfold ivs. cbn. rewrite app_nil_r.
    clear -Hs. induction Hs as [|k l Hs IH Hall]; cbn; constructor; [done|].
    apply Forall_forall. intros c (x & -> & Hx)%elem_of_list_fmap. cbn. rewrite Forall_forall in Hall.
    specialize (Hall _ Hx). cbn in Hall. lia.
  - replace (last + 1 - 1) with last by lia. rewrite (iv_versions_perm _ _ Hp'). unfold ivs.
    by rewrite iv_versions_app, iv_versions_points, iv_versions_comps.
Qed.
Lemma resolve_full_complete h catalog files target :
  good_compactions files -> rf_offset h target <= rf_start h target files ->
  (forall v, rf_start h target files <= v <= target ->
     (exists f, f ∈ files /\ lf_kind f = KCommit v) \/ exists f, (v, f) ∈ catalog) ->
  exists sg, resolve_full h catalog files target = Some sg.
Proof.
  intros Hg Ho Hall. rewrite resolve_full_eq.
  destruct (resolve_compactions _ _) as [commits comps] eqn:Er.
  pose proof Er as [Hk Hc]%resolve_compactions_elem.
  rewrite contiguous_complete; [eauto|..].
  - intros [v f] H. cbn. apply Hk, rf_commits_elem in H. tauto.
  - intros [[s e] f] H. cbn. apply Hc, rf_comps_elem in H as (Hf & Hkd & ? & ?).
    split_and!; [lia| |lia]. by eapply Hg.
  - unfold resolve_compactions in Er. injection Er as <- _. apply bt_sorted_filter, rf_commits_sorted.
  - eapply resolve_compactions_cover; [exact Er|apply bt_sorted_NoDup, rf_commits_sorted|..].
    + intros v. rewrite rf_commits_keys. split; [tauto|]. intros Hv. split; [done|].
      destruct (Hall v Hv) as [(f & ? & ?)|?]; [left|by right]. exists f. split_and!; [done..|lia].
    + intros [[s e] f] H. cbn. apply rf_comps_elem in H as (Hf & Hkd & ? & ?).
      split_and!; [lia| |lia]. by eapply Hg.
Qed.

(** The newest checkpoint is chosen, or the one the hint names. *)
Lemma cp_sorted cands : StronglySorted (fun a b => b.1 <= a.1) (isort cp_before cands).
Proof.
  apply isort_R.
  - intros a b. unfold cp_before. lia.
  - intros a b. unfold cp_before. lia.
  - intros a b c. lia.
Qed.
Lemma sorted_head_max (l : list (Z * lfile)) x : StronglySorted (fun a b => b.1 <= a.1) l -> x ∈ l -> exists y, head l = Some y /\ x.1 <= y.1.
Proof.
  intros Hs Hx. inversion Hs as [|y l' Hs' Hall]; subst; [set_solver|]. exists y. split; [done|].
  apply elem_of_cons in Hx as [->|Hx]; [lia|]. rewrite Forall_forall in Hall. by apply Hall.
Qed.
Lemma select_checkpoint_max cands h c :
  c ∈ cands ->
  (forall hv loc, h = Some (Hint hv (Some loc)) -> hv < c.1 \/ exists f, (hv, f) ∈ cands /\ lf_loc f = loc) ->
  exists c', select_checkpoint cands h = Some c' /\ forall x, x ∈ cands -> x.1 <= c'.1.
Proof.
  intros Hc Hh. unfold select_checkpoint.
  pose proof (cp_sorted cands) as Hs.
  assert (forall x, x ∈ cands <-> x ∈ isort cp_before cands) as Hp by (intros; by rewrite isort_elem).
  destruct (isort cp_before cands) as [|[latest f] l] eqn:E; [apply Hp in Hc; set_solver|].
  assert (forall x, x ∈ cands -> x.1 <= latest) as Hmax.
  { intros x Hx. apply Hp in Hx. destruct (sorted_head_max _ _ Hs Hx) as (y & [= <-] & ?). done. }
  assert (exists c', head ((latest, f) :: l) = Some c' /\ forall x, x ∈ cands -> x.1 <= c'.1) as Hd.
  { exists (latest, f). split; [done|]. exact Hmax. }
  destruct h as [[hv [loc|]]|]; [|exact Hd..].
  destruct (hv =? latest) eqn:El; [|exact Hd].
  destruct (Hh _ _ eq_refl) as [Hlt|(g & Hg & Hl)]; [apply Hmax in Hc; lia|]. apply Hp in Hg.
  destruct (head (filter _ _)) as [c'|] eqn:E'.
  - exists c'. split; [done|]. intros x Hx. apply head_elem, elem_of_list_filter in E' as [[-> _] _].
    apply Hmax in Hx. lia.
  - exfalso. assert ((hv, g) ∈ filter (fun c0 : Z * lfile => c0.1 = hv /\ lf_loc c0.2 = loc) ((latest, f) :: l)) as Hf.
    { apply elem_of_list_filter. done. }
    destruct (filter _ _) in Hf, E'; [set_solver|done].
Qed.
Lemma rf_checkpoint_from h target files c :
  readable_from files c target -> hint_upto files h c ->
  rf_offset h target <= rf_start h target files /\ c < rf_start h target files.
Proof.
  intros (Hr & Hcp & _) Hh. unfold rf_start, rf_checkpoint.
  set (cands := omap (checkpoint_of target) (list_entries (rf_offset h target) files)).
  assert (forall c' f, select_checkpoint cands h = Some (c', f) -> rf_offset h target <= c' <= target) as Hin.
  { intros c' f H%select_checkpoint_elem. apply checkpoint_of_elem in H. tauto. }
  destruct Hcp as [->|(Hc & f & Hf & Hk)].
  - destruct h as [[hv loc]|]; [cbn in Hh; lia|].
    destruct (select_checkpoint cands None) as [[c' f]|] eqn:E; cbn; [|lia].
    specialize (Hin _ _ eq_refl). cbn in Hin. lia.
  - destruct (select_checkpoint_max cands h (c, f)) as ([c' g] & Hs & Hmax).
    + unfold cands. apply checkpoint_of_elem. split_and!; [done|done| |lia].
      destruct h as [[hv loc]|]; cbn in *; lia.
    + intros hv loc ->. cbn in Hh. destruct Hh as [Hv Hl]. cbn. destruct (Hl loc eq_refl) as [Hlt|(g & Hg & Hgk & Hgl)]; [by left|]. right.
      exists g. split; [|done]. apply checkpoint_of_elem. cbn. split_and!; [done|done|lia|lia].
    + rewrite Hs. cbn. specialize (Hin _ _ Hs).
      assert ((c, f) ∈ cands) as Hcf.
      { apply checkpoint_of_elem. split_and!; [done|done| |lia]. destruct h as [[hv loc]|]; cbn in *; lia. }
      specialize (Hmax _ Hcf). cbn in Hmax. lia.
Qed.
Lemma resolve_full_readable h catalog files c target :
  good_compactions files -> readable_from files c target -> hint_upto files h c ->
  exists sg, resolve_full h catalog files target = Some sg /\ c < segment_start (sg_checkpoint sg).
Proof.
  intros Hg Hr Hh. destruct (rf_checkpoint_from h target files c Hr Hh) as [H1 H2].
  destruct (resolve_full_complete h catalog files target Hg H1) as [sg Hsg].
  - intros v Hv. left. apply Hr. lia.
  - exists sg. split; [done|]. destruct (resolve_full_sound _ _ _ _ _ Hg Hsg) as (_ & -> & _). done.
Qed.
