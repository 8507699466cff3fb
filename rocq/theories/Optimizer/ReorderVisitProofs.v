(** The region returns the assignments of rows to its relations that satisfy its edges. *)
From Coq Require Import Lia.
From stdpp Require Import prelude list gmap.
From Verif.Lib Require Import Text.
From Verif.Optimizer Require Import ReorderModel ReorderSpec ReorderProofs ReorderJoinProofs ReorderBuildProofs.

Definition rel_width (rels : list plan) (i : nat) : nat :=
  match rels !! i with Some p => width p | None => 0 end.
Definition rel_rows (rels : list plan) (i : nat) : list row :=
  match rels !! i with Some p => eval p | None => [] end.

Definition edge_wf (W : nat -> nat) (e : edge) : Prop :=
  e_left e ## e_right e /\ e_left e <> ∅ /\ e_right e <> ∅ /\
  (forall a b, (a, b) ∈ e_pairs e ->
     e_set e = {[a.1; b.1]} /\ a.1 <> b.1 /\ a.2 < W a.1 /\ b.2 < W b.1) /\
  cols_ok (fun c => c.1 ∈ e_set e /\ c.2 < W c.1) (e_filter e) /\
  (e_null_safe e = true -> Forall (fun c => col_eq c = false) (residual_preds e)).

Lemma residual_preds_cols (P : stable -> Prop) e :
  cols_ok P (e_filter e) -> Forall (cols_ok P) (residual_preds e).
Proof.
  unfold cols_ok. intros H%conjuncts_columns. rewrite residual_preds_spec.
  rewrite Forall_forall in H. rewrite Forall_forall. intros c Hc. apply elem_of_list_filter in Hc as [_ Hc]. by apply H.
Qed.
Lemma edge_ok_ext W e α β :
  edge_wf W e -> (forall c, c.1 ∈ e_set e -> aval α c = aval β c) -> edge_ok α e = edge_ok β e.
Proof.
  intros (_ & _ & _ & Hp & Hc & _) Hα. unfold edge_ok. f_equal.
  - apply forallb_ext_in. intros [a b] Hab. destruct (Hp a b Hab) as (Hs & _).
    unfold pair_ok. cbn [fst snd]. rewrite !Hα; [done| |]; rewrite Hs; set_solver.
  - apply forallb_ext_in. intros c Hin. f_equal. apply sem_ext.
    pose proof (residual_preds_cols _ _ Hc) as H. rewrite Forall_forall in H. specialize (H c Hin).
    eapply cols_ok_impl; [exact H|]. intros d [Hd _]. by apply Hα.
Qed.
Lemma make_edge_wf W ns ml mr k xs :
  Forall (fun c => c.2 < W c.1) ml -> Forall (fun c => c.2 < W c.1) mr ->
  rels_of ml ## rels_of mr ->
  xs <> [] -> Forall (fun x : pred => endpoints x.1 ml mr = Some k) xs ->
  Forall (pred_shape ns) xs ->
  Forall (fun x : pred => cols_ok (fun c => c ∈ ml \/ c ∈ mr) x.1) xs ->
  Forall (fun x : pred => forall a b, x = key_pred a b \/ (a, b) ∈ x.2 -> x = key_pred a b /\ a ∈ ml /\ b ∈ mr) xs ->
  edge_wf W (make_edge ns (k, xs)) /\ e_set (make_edge ns (k, xs)) ⊆ rels_of ml ∪ rels_of mr.
Proof.
  intros Hml Hmr Hdis Hn Hend Hsh Hcols Hkeys. destruct k as [l r].
  rewrite Forall_forall in Hend. rewrite Forall_forall in Hml. rewrite Forall_forall in Hmr.
  assert (Hlr : l ⊆ rels_of ml /\ r ⊆ rels_of mr /\ l <> ∅ /\ r <> ∅).
  { destruct xs as [|x xs]; [done|]. apply Forall_cons in Hcols as [Hx _].
    destruct (endpoints_spec x.1 ml mr l r) as (H1 & H2 & H3 & H4 & _); [|done|done].
    apply Hend. left. }
  destruct Hlr as (Hl & Hr & Hl0 & Hr0).
  unfold e_set. cbn [make_edge e_left e_right fst snd]. split; [|set_solver].
  unfold edge_wf. unfold e_set. cbn [make_edge e_left e_right fst snd]. split_and!.
  - set_solver.
  - done.
  - done.
  - intros a b Hab. cbn [make_edge e_pairs snd] in Hab.
    apply elem_of_list_In, in_concat in Hab as (ps & Hps & Hab).
    apply in_map_iff in Hps as (x & <- & Hx%elem_of_list_In). apply elem_of_list_In in Hab.
    rewrite Forall_forall in Hkeys. destruct (Hkeys x Hx a b (or_intror Hab)) as (-> & Ha & Hb).
    pose proof (endpoints_key ml mr a b _ Ha Hb Hdis (Hend _ Hx)) as E. injection E as -> ->.
    split_and!; [done| |by apply Hml|by apply Hmr].
    intros E. apply (Hdis a.1); apply elem_of_rels_of.
    + exists a.2. by destruct a.
    + rewrite E. exists b.2. by destruct b.
  - unfold cols_ok. apply conjuncts_columns. rewrite make_edge_conjuncts by done.
    apply Forall_fmap. rewrite Forall_forall in Hcols. rewrite Forall_forall. intros x Hx. cbn.
    destruct (endpoints_spec x.1 ml mr l r) as (_ & _ & _ & _ & H5); [by apply Hend|by apply Hcols|].
    unfold cols_ok in H5. pose proof (Hcols x Hx) as H6. unfold cols_ok in H6.
    rewrite Forall_forall in H5. rewrite Forall_forall in H6. rewrite Forall_forall. intros ni Hni.
    destruct (H5 ni Hni) as (c & Hc & Hin), (H6 ni Hni) as (c' & Hc' & Hm).
    rewrite Hc in Hc'. injection Hc' as <-. exists c. split_and!; [done|done|].
    destruct Hm; [by apply Hml|by apply Hmr].
  - cbn [make_edge e_null_safe]. intros ->. rewrite residual_preds_spec, make_edge_conjuncts by done.
    rewrite Forall_forall in Hsh. rewrite Forall_forall. intros c Hc. apply elem_of_list_filter in Hc as [Hd Hc].
    apply elem_of_list_fmap in Hc as (x & -> & Hx).
    destruct (Hsh x Hx) as [(a & b & ->)|(_ & _ & H)]; [|by apply H].
    exfalso. cbn [key_pred fst dropped] in Hd. apply not_true_iff_false in Hd. apply Hd, is_pair_in. exists a, b.
    split; [|by left]. cbn [make_edge e_pairs snd]. apply elem_of_list_In, in_concat. exists [(a, b)].
    split; [|by left]. apply in_map_iff. exists (key_pred a b). split; [done|by apply elem_of_list_In].
Qed.

(** The edges of one join. *)
Lemma groups_edges o ns ml mr ps gs :
  (forall l, order o l ≡ₚ l) ->
  group_preds ml mr ps [] = Some gs ->
  Forall (pred_shape ns) ps ->
  (forall α, forallb (edge_ok α) (order o (map (make_edge ns) gs)) = forallb (pred_ok ns α) ps) /\
  (forall Q : pred -> Prop, Forall Q ps -> Forall (fun kx => Forall Q kx.2) gs).
Proof.
  intros Ho Hg Hsh. destruct (group_preds_ok ml mr ps [] gs Hg) as [Hok Hperm]; [constructor|].
  cbn in Hperm. rewrite app_nil_r in Hperm.
  assert (HQ : forall Q : pred -> Prop, Forall Q ps -> Forall (fun kx => Forall Q kx.2) gs).
  { intros Q HQ. rewrite <- Hperm in HQ.
    rewrite Forall_forall in HQ. rewrite Forall_forall. intros kx Hkx. apply Forall_forall. intros x Hx. apply HQ.
    apply elem_of_list_In, in_concat. exists kx.2. split; [apply in_map; by apply elem_of_list_In|by apply elem_of_list_In]. }
  split; [|done]. intros α. rewrite (forallb_perm _ _ _ (Ho _)).
  rewrite <- (forallb_perm _ _ _ Hperm). rewrite forallb_concat.
  pose proof (HQ _ Hsh) as HQs. rewrite Forall_forall in HQs. unfold groups_ok in Hok. rewrite Forall_forall in Hok.
  clear -HQs Hok. induction gs as [|[k xs] gs IH]; [done|]. cbn [map forallb]. f_equal.
  - apply make_edge_ok; [by destruct (Hok (k, xs) ltac:(left))|by apply (HQs (k, xs) ltac:(left))].
  - apply IH; intros y Hy; [apply Hok|apply HQs]; by right.
Qed.

Lemma apick_ext α β m : Forall (fun c => aval α c = aval β c) m -> apick α m = apick β m.
Proof.
  intros H. unfold apick. apply map_ext_in. intros c Hc%elem_of_list_In.
  rewrite Forall_forall in H. by apply H.
Qed.
Lemma prefix_length_le {A} (l k : list A) : l `prefix_of` k -> length l <= length k.
Proof. apply prefix_length. Qed.

Definition cols_in (W : nat -> nat) (lo hi : nat) (m : colmap) : Prop :=
  Forall (fun c => lo <= c.1 < hi /\ c.2 < W c.1) m.
Lemma cols_in_weaken W lo hi lo' hi' m : cols_in W lo hi m -> lo' <= lo -> hi <= hi' -> cols_in W lo' hi' m.
Proof. unfold cols_in. intros H ? ?. eapply Forall_impl; [exact H|]. intros c ?. cbn in *. lia. Qed.

(** A leaf of the region. *)
Definition all_cols (i w : nat) : colmap := map (fun j => (i, j)) (seq 0 w).
Lemma all_cols_in rels i p : rels !! i = Some p -> cols_in (rel_width rels) i (S i) (all_cols i (width p)).
Proof.
  intros Hp. apply Forall_map, Forall_seq. intros j Hj. cbn. unfold rel_width. rewrite Hp. lia.
Qed.
Lemma leaf_ok rels i p :
  rels !! i = Some p -> wf p ->
  eval p = sols (fun _ => true) (fun α => apick α (all_cols i (width p))) (asgs (rel_rows rels) [i]).
Proof.
  intros Hp Hwf. cbn [asgs]. unfold rel_rows. rewrite Hp. unfold sols. rewrite bind_assoc.
  rewrite (bind_ext_in _ (fun r => [r])).
  - rewrite <- map_is_bind. by rewrite map_id.
  - intros r Hr. rewrite bind_assoc, !bind_singleton. f_equal.
    pose proof (eval_width p Hwf) as Hw. rewrite Forall_forall in Hw. specialize (Hw r Hr).
    unfold apick, all_cols. rewrite map_map. unfold aval. cbn [fst snd]. rewrite lookup_insert.
    rewrite <- Hw. clear. induction r as [|c r IH] using rev_ind; [done|].
    rewrite app_length. cbn [length]. rewrite Nat.add_1_r, seq_S, map_app. cbn.
    f_equal.
    + rewrite <- IH at 2. apply map_ext_in. intros j Hj%in_seq. unfold cell_at.
      rewrite lookup_app_l by lia. done.
    + unfold cell_at. rewrite lookup_app_r by lia. by rewrite Nat.sub_diag.
Qed.
Lemma relation_ok o p g m g' rels :
  relation o p g = Some (m, g') -> wf p -> g_rels g' `prefix_of` rels ->
  g_edges g' = g_edges g /\ g_rels g' = g_rels g ++ [p] /\ length m = width p /\
  cols_in (rel_width rels) (length (g_rels g)) (length (g_rels g')) m /\
  eval p ≡ₚ sols (fun _ => true) (fun α => apick α m) (asgs (rel_rows rels) [length (g_rels g)]).
Proof.
  unfold relation. destruct (decide _) as [|_]; [done|]. intros [= <- <-] Hwf Hpre. cbn [g_rels g_edges] in *.
  assert (Hp : rels !! length (g_rels g) = Some p).
  { eapply prefix_lookup; [|exact Hpre]. rewrite lookup_app_r by lia. by rewrite Nat.sub_diag. }
  split_and!.
  - done.
  - done.
  - by rewrite map_length, seq_length.
  - rewrite app_length, Nat.add_1_r. by apply all_cols_in.
  - apply reflexive_eq. by apply leaf_ok.
Qed.

Lemma pick_cols_in W lo hi m cols out :
  pick_cols m cols = Some out -> cols_in W lo hi m -> cols_in W lo hi out /\ length out = length cols.
Proof.
  unfold pick_cols, cols_in. intros H%mapM_Some Hm. split; [|by symmetry; eapply Forall2_length].
  rewrite Forall_forall in Hm. rewrite Forall_forall. intros c Hc. apply elem_of_list_lookup in Hc as (i & Hi).
  destruct (Forall2_lookup_r _ _ _ _ _ H Hi) as (j & Hj & E). apply Hm. by eapply elem_of_list_lookup_2.
Qed.

Lemma visit_ok o p g m g' rels :
  (forall l, order o l ≡ₚ l) ->
  visit o p g = Some (m, g') -> wf p -> plain p ->
  Forall wf (g_rels g) -> Forall plain (g_rels g) ->
  g_rels g' `prefix_of` rels ->
  exists es,
    g_edges g' = g_edges g ++ es /\ g_rels g `prefix_of` g_rels g' /\
    Forall wf (g_rels g') /\ Forall plain (g_rels g') /\
    length m = width p /\
    cols_in (rel_width rels) (length (g_rels g)) (length (g_rels g')) m /\
    Forall (fun e => edge_wf (rel_width rels) e /\
                     forall i, i ∈ e_set e -> length (g_rels g) <= i < length (g_rels g')) es /\
    eval p ≡ₚ sols (fun α => forallb (edge_ok α) es) (fun α => apick α m)
      (asgs (rel_rows rels) (seq (length (g_rels g)) (length (g_rels g') - length (g_rels g)))).
Proof.
  intros Ho. revert g m g'.
  assert (Hleaf : forall p g m g', relation o p g = Some (m, g') -> wf p -> plain p ->
    Forall wf (g_rels g) -> Forall plain (g_rels g) -> g_rels g' `prefix_of` rels ->
  exists es,
    g_edges g' = g_edges g ++ es /\ g_rels g `prefix_of` g_rels g' /\
    Forall wf (g_rels g') /\ Forall plain (g_rels g') /\
    length m = width p /\
    cols_in (rel_width rels) (length (g_rels g)) (length (g_rels g')) m /\
    Forall (fun e => edge_wf (rel_width rels) e /\
                     forall i, i ∈ e_set e -> length (g_rels g) <= i < length (g_rels g')) es /\
    eval p ≡ₚ sols (fun α => forallb (edge_ok α) es) (fun α => apick α m)
      (asgs (rel_rows rels) (seq (length (g_rels g)) (length (g_rels g') - length (g_rels g))))).
  { clear p. intros p g m g' H Hwf Hpl Hgw Hgp Hpre.
    destruct (relation_ok _ _ _ _ _ _ H Hwf Hpre) as (H1 & H2 & H3 & H4 & H5).
    exists []. rewrite app_nil_r. split_and!; try done.
    - rewrite H2. by apply prefix_app_r.
    - rewrite H2. apply Forall_app. split; [done|by constructor].
    - rewrite H2. apply Forall_app. split; [done|by constructor].
    - rewrite H2, app_length. cbn [length]. replace (_ + 1 - _) with 1 by lia. exact H5. }
  induction p as [agg w rows|l IHl r IHr on ns f proj|l IHl r IHr f proj|l IHl r IHr|cols input IH];
    intros g m g' H Hwf Hpl Hgw Hgp Hpre.
  - cbn in H. destruct agg; [done|]. by apply Hleaf.
  - cbn [visit] in H. destruct Hwf as (Hwl & Hwr & Hwf). destruct Hpl as (Hpl & Hpr & Hpf).
    apply bind_Some in H as ([ml g1] & Hl & H). apply bind_Some in H as ([mr g2] & Hr & H).
    apply bind_Some in H as (ps & Hps & H). apply bind_Some in H as (gs & Hgs & H).
    apply bind_Some in H as (out & Hout & H). injection H as <- <-. cbn [g_rels g_edges] in *.
    (* the right side's graph extends the left side's *)
    assert (Hpre1 : g_rels g1 `prefix_of` g_rels g2).
    { clear -Hr. revert g1 g2 mr Hr. induction r as [agg w rows|l IHl r IHr on ns f proj|l IHl r IHr f proj|l IHl r IHr|cols input IH];
        intros g1 g2 mr Hr; cbn [visit] in Hr.
      - destruct agg; [done|]. unfold relation in Hr. destruct (decide _); [done|]. injection Hr as <- <-. cbn. by apply prefix_app_r.
      - apply bind_Some in Hr as ([ml g1'] & H1 & H). apply bind_Some in H as ([mr' g2'] & H2 & H).
        apply bind_Some in H as (ps & _ & H). apply bind_Some in H as (gs & _ & H).
        apply bind_Some in H as (out & _ & H). injection H as <- <-. cbn.
        etrans; [by eapply IHl|by eapply IHr].
      - unfold relation in Hr. destruct (decide _); [done|]. injection Hr as <- <-. cbn. by apply prefix_app_r.
      - unfold relation in Hr. destruct (decide _); [done|]. injection Hr as <- <-. cbn. by apply prefix_app_r.
      - destruct (trivial_projection cols input).
        + destruct (decide (max_relations o <= length (g_rels g1))).
          * unfold relation in Hr. destruct (decide _); [done|]. injection Hr as <- <-. cbn. by apply prefix_app_r.
          * apply bind_Some in Hr as ([m g'] & H1 & H). apply bind_Some in H as (out & _ & H). injection H as <- <-.
            by eapply IH.
        + unfold relation in Hr. destruct (decide _); [done|]. injection Hr as <- <-. cbn. by apply prefix_app_r. }
    destruct (IHl _ _ _ Hl Hwl Hpl Hgw Hgp) as (esl & El & Pl & Wl & Ql & Ll & Cl & Fl & Vl); [by etrans|].
    destruct (IHr _ _ _ Hr Hwr Hpr Wl Ql Hpre) as (esr & Er & Pr & Wr & Qr & Lr & Cr & Fr & Vr).
    rewrite <- Ll, <- Lr in Hwf.
    destruct (join_preds_ok ns on f ml mr ps Hps Hwf Hpf) as (Hshape & Hcols & Hkeys & Hsem).
    destruct (groups_edges o ns ml mr ps gs Ho Hgs Hshape) as [Hedges Hgroups].
    destruct (group_preds_ok ml mr ps [] gs Hgs) as [Hok _]; [constructor|].
    pose proof (prefix_length _ _ Pl) as Hle1. pose proof (prefix_length _ _ Pr) as Hle2.
    set (lo := length (g_rels g)) in *. set (mid := length (g_rels g1)) in *. set (hi := length (g_rels g2)) in *.
    set (W := rel_width rels) in *.
    assert (Hrl : forall i, i ∈ rels_of ml -> lo <= i < mid).
    { intros i Hi. apply elem_of_rels_of in Hi as (c & Hc). unfold cols_in in Cl. rewrite Forall_forall in Cl.
      by destruct (Cl _ Hc). }
    assert (Hrr : forall i, i ∈ rels_of mr -> mid <= i < hi).
    { intros i Hi. apply elem_of_rels_of in Hi as (c & Hc). unfold cols_in in Cr. rewrite Forall_forall in Cr.
      by destruct (Cr _ Hc). }
    assert (Hdis : rels_of ml ## rels_of mr).
    { intros i H1 H2. apply Hrl in H1. apply Hrr in H2. lia. }
    set (new := order o (map (make_edge ns) gs)) in *.
    assert (Fnew : Forall (fun e => edge_wf W e /\ forall i, i ∈ e_set e -> lo <= i < hi) new).
    { unfold new. rewrite (Ho _). apply Forall_map.
      pose proof (Hgroups _ Hshape) as G1. pose proof (Hgroups _ Hcols) as G2. pose proof (Hgroups _ Hkeys) as G3.
      unfold groups_ok in Hok.
      rewrite Forall_forall in G1. rewrite Forall_forall in G2. rewrite Forall_forall in G3. rewrite Forall_forall in Hok. rewrite Forall_forall. intros [k xs] Hin.
      destruct (Hok _ Hin) as [Hn Hend].
      destruct (make_edge_wf W ns ml mr k xs) as [Hwfe Hsub]; try done.
      - eapply Forall_impl; [exact Cl|]. by intros c [_ ?].
      - eapply Forall_impl; [exact Cr|]. by intros c [_ ?].
      - by apply (G1 (k, xs)).
      - by apply (G2 (k, xs)).
      - by apply (G3 (k, xs)).
      - split; [exact Hwfe|]. intros i Hi. apply Hsub, elem_of_union in Hi as [Hi|Hi].
        + apply Hrl in Hi. lia.
        + apply Hrr in Hi. lia. }
    assert (Call : cols_in W lo hi (ml ++ mr)).
    { apply Forall_app. split; [eapply cols_in_weaken; [exact Cl|lia|lia]|eapply cols_in_weaken; [exact Cr|lia|lia]]. }
    exists (esl ++ esr ++ new). split_and!.
    + rewrite Er, El. by rewrite <- !(assoc (++)).
    + by etrans.
    + done.
    + done.
    + cbn [width]. destruct proj as [cols|].
      * by destruct (pick_cols_in W lo hi _ _ _ Hout Call).
      * injection Hout as <-. rewrite app_length. lia.
    + destruct proj as [cols|].
      * by destruct (pick_cols_in W lo hi _ _ _ Hout Call).
      * by injection Hout as <-.
    + apply Forall_app. split; [|apply Forall_app; split; [|exact Fnew]].
      * eapply Forall_impl; [exact Fl|]. intros e [? Hr']. split; [done|]. intros i Hi. apply Hr' in Hi. lia.
      * eapply Forall_impl; [exact Fr|]. intros e [? Hr']. split; [done|]. intros i Hi. apply Hr' in Hi. lia.
    + cbn [eval].
      assert (Hj : join_rows (fun a b => keys_ok on ns a b && filter_ok f a b) (eval l) (eval r) ≡ₚ
        sols (fun α => forallb (edge_ok α) (esl ++ esr ++ new)) (fun α => apick α (ml ++ mr))
          (asgs (rel_rows rels) (seq lo (hi - lo)))).
      { replace (hi - lo) with ((mid - lo) + (hi - mid)) by lia.
        rewrite seq_app. replace (lo + (mid - lo)) with mid by lia.
        rewrite asgs_app. rewrite (join_rows_perm _ _ _ _ _ Vl Vr).
        apply reflexive_eq.
        assert (Hva : forall a b c, a ∈ asgs (rel_rows rels) (seq lo (mid - lo)) -> lo <= c.1 < mid -> aval a c = aval (a ∪ b) c).
        { intros a b c Ha Hc. symmetry. apply aval_union_l. rewrite (asgs_dom _ _ _ Ha).
          apply elem_of_seq. lia. }
        assert (Hvb : forall a b c, a ∈ asgs (rel_rows rels) (seq lo (mid - lo)) -> mid <= c.1 < hi -> aval b c = aval (a ∪ b) c).
        { intros a b c Ha Hc. symmetry. apply aval_union_r. apply eq_None_not_Some.
          rewrite (asgs_dom _ _ _ Ha). rewrite elem_of_seq. lia. }
        assert (Hpa : forall a b, a ∈ asgs (rel_rows rels) (seq lo (mid - lo)) -> apick a ml = apick (a ∪ b) ml).
        { intros a b Ha. apply apick_ext. eapply Forall_impl; [exact Cl|]. intros c [Hc _]. by apply Hva. }
        assert (Hpb : forall a b, a ∈ asgs (rel_rows rels) (seq lo (mid - lo)) -> apick b mr = apick (a ∪ b) mr).
        { intros a b Ha. apply apick_ext. eapply Forall_impl; [exact Cr|]. intros c [Hc _]. by apply Hvb. }
        apply join_sols.
        - intros a b Ha Hb. rewrite !forallb_app, andb_assoc. f_equal; [f_equal|].
          + apply forallb_ext_in. intros e He. rewrite Forall_forall in Fl. destruct (Fl e He) as [Hew Her].
            eapply edge_ok_ext; [exact Hew|]. intros c Hc. symmetry. apply Hva; [done|]. by apply Her.
          + apply forallb_ext_in. intros e He. rewrite Forall_forall in Fr. destruct (Fr e He) as [Hew Her].
            eapply edge_ok_ext; [exact Hew|]. intros c Hc. symmetry. apply Hvb; [done|]. by apply Her.
          + rewrite (Hpa a b Ha), (Hpb a b Ha), Hsem, Hedges. done.
        - intros a b Ha Hb. rewrite (Hpa a b Ha), (Hpb a b Ha). unfold apick. by rewrite map_app. }
      rewrite Hj, sols_map. apply reflexive_eq, sols_ext; [done|]. intros α _ _.
      destruct proj as [cols|]; cbn [project].
      * by apply pick_apick.
      * by injection Hout as <-.
  - by apply Hleaf.
  - by apply Hleaf.
  - cbn [visit] in H. destruct (trivial_projection cols input) eqn:Et.
    + destruct (decide (max_relations o <= length (g_rels g))).
      * by apply Hleaf.
      * apply bind_Some in H as ([mi gi] & Hi & H). apply bind_Some in H as (out & Hout & H). injection H as <- <-.
        destruct (IH _ _ _ Hi Hwf Hpl Hgw Hgp Hpre) as (es & E & P & Wf & Q & L & C & F & V).
        destruct (pick_cols_in _ _ _ _ _ _ Hout C) as [C' L'].
        exists es. split_and!; try done.
        cbn [eval]. rewrite V, sols_map. apply reflexive_eq, sols_ext; [done|]. intros α _ _.
        by apply pick_apick.
    + by apply Hleaf.
Qed.

Lemma visit_null_mode o p g m g' ns :
  (forall l, order o l ≡ₚ l) ->
  visit o p g = Some (m, g') -> one_null_mode ns p ->
  Forall (fun e => e_null_safe e = ns) (g_edges g) -> Forall (fun e => e_null_safe e = ns) (g_edges g').
Proof.
  intros Ho. revert g m g'.
  induction p as [agg w rows|l IHl r IHr on ns' f proj|l IHl r IHr f proj|l IHl r IHr|cols input IH];
    intros g m g' H Hm Hg; cbn [visit] in H.
  - destruct agg; [done|]. unfold relation in H. destruct (decide _); [done|]. by injection H as <- <-.
  - destruct Hm as (-> & Hl & Hr).
    apply bind_Some in H as ([ml g1] & H1 & H). apply bind_Some in H as ([mr g2] & H2 & H).
    apply bind_Some in H as (ps & _ & H). apply bind_Some in H as (gs & _ & H).
    apply bind_Some in H as (out & _ & H). injection H as <- <-. cbn. apply Forall_app. split.
    + eapply IHr; [done|done|]. by eapply IHl.
    + rewrite (Ho _). apply Forall_map, Forall_forall. done.
  - unfold relation in H. destruct (decide _); [done|]. by injection H as <- <-.
  - unfold relation in H. destruct (decide _); [done|]. by injection H as <- <-.
  - destruct (trivial_projection cols input).
    + destruct (decide (max_relations o <= length (g_rels g))).
      * unfold relation in H. destruct (decide _); [done|]. by injection H as <- <-.
      * apply bind_Some in H as ([mi gi] & Hi & H). apply bind_Some in H as (out & Hout & H). injection H as <- <-.
        by eapply IH.
    + unfold relation in H. destruct (decide _); [done|]. by injection H as <- <-.
Qed.
