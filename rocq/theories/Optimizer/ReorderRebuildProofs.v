(** The rebuilt region returns the assignments that satisfy the edges the tree uses. *)
From Coq Require Import Lia.
From stdpp Require Import prelude list gmap.
From Verif.Lib Require Import Text.
From Verif.Optimizer Require Import ReorderModel ReorderSpec ReorderProofs ReorderJoinProofs ReorderBuildProofs
  ReorderVisitProofs.

(** ** Finding columns *)
Lemma find_col_Some c m i : find_col c m = Some i -> m !! i = Some c.
Proof.
  revert i. induction m as [|d m IH]; intros i H; cbn in H; [done|].
  destruct (decide (c = d)) as [->|Hne]; [by injection H as <-|].
  apply bind_Some in H as (j & Hj & H). injection H as <-. cbn. by apply IH.
Qed.
Lemma find_col_in c m : c ∈ m -> is_Some (find_col c m).
Proof.
  induction m as [|d m IH]; intros H; [by apply elem_of_nil in H|]. cbn.
  destruct (decide (c = d)) as [->|Hne]; [done|]. apply elem_of_cons in H as [H|H]; [done|].
  destruct (IH H) as [i ->]. by eexists.
Qed.
Lemma find_col_not_in c m : ~ c ∈ m -> find_col c m = None.
Proof.
  intros H. destruct (find_col c m) as [i|] eqn:E; [|done]. exfalso. apply H.
  apply find_col_Some in E. by eapply elem_of_list_lookup_2.
Qed.
Lemma cell_at_find α c m i : find_col c m = Some i -> cell_at (apick α m) i = aval α c.
Proof. intros H%find_col_Some. by rewrite cell_at_apick, H. Qed.
Lemma find_cols_pick m target cols :
  mapM (fun c => find_col c m) target = Some cols -> pick_cols m cols = Some target.
Proof.
  intros H%mapM_Some. unfold pick_cols. apply mapM_Some. apply Forall2_flip.
  eapply Forall2_impl; [exact H|]. intros c i. apply find_col_Some.
Qed.

(** ** Leaving out columns that are not required *)
Lemma pick_cols_omap (m : colmap) keep :
  Forall (fun i => i < length m) keep -> pick_cols m keep = Some (omap (fun i => m !! i) keep).
Proof.
  unfold pick_cols. induction 1 as [|i keep Hi _ IH]; [done|]. cbn.
  destruct (lookup_lt_is_Some_2 m i Hi) as [c Hc]. rewrite Hc. cbn. by rewrite IH.
Qed.
Lemma omap_lookup_NoDup (m : colmap) keep :
  NoDup m -> NoDup keep -> NoDup (omap (fun i => m !! i) keep).
Proof.
  intros Hm. induction 1 as [|i keep Hi Hk IH]; cbn; [constructor|].
  destruct (m !! i) as [c|] eqn:Hc; [|done]. constructor; [|done].
  intros H. apply elem_of_list_omap in H as (j & Hj & Hjc). apply Hi.
  by rewrite (NoDup_lookup m i j c Hm Hc Hjc).
Qed.
Lemma required_proj_ok req m :
  NoDup m ->
  let m' := apply_proj (required_proj req m) m in
  NoDup m' /\ (forall c, c ∈ m' -> c ∈ m) /\ (forall c, c ∈ req -> c ∈ m -> c ∈ m') /\
  length m' = match required_proj req m with None => length m | Some keep => length keep end /\
  forall α, project (required_proj req m) (apick α m) = apick α m'.
Proof.
  intros Hm. unfold required_proj.
  set (keep := filter (fun i => Is_true match m !! i with Some c => bool_decide (c ∈ req) | None => false end)
      (seq 0 (length m))).
  destruct (decide (keep = [])) as [|_]; [by split_and!|].
  destruct (decide (length keep < length m)) as [_|]; [|by split_and!].
  assert (Hr : Forall (fun i => i < length m) keep).
  { apply Forall_forall. intros i Hi. apply elem_of_list_filter in Hi as [_ Hi%elem_of_seq]. lia. }
  pose proof (pick_cols_omap m keep Hr) as Hp. cbn [apply_proj]. cbv zeta.
  split_and!.
  - apply omap_lookup_NoDup; [done|]. apply NoDup_filter, NoDup_seq.
  - intros c Hc. apply elem_of_list_omap in Hc as (i & _ & Hi). by eapply elem_of_list_lookup_2.
  - intros c Hc Hin. apply elem_of_list_lookup in Hin as (i & Hi). apply elem_of_list_omap. exists i.
    split; [|done]. apply elem_of_list_filter. rewrite Hi. split.
    + by rewrite bool_decide_eq_true_2.
    + apply elem_of_seq. apply lookup_lt_Some in Hi. lia.
  - unfold pick_cols in Hp. apply mapM_length in Hp. done.
  - intros α. cbn [project]. by apply pick_apick.
Qed.

(** ** The key columns *)
Lemma connects_spec g s l r i :
  connects g s l r i = true ->
  exists e, g_edges g !! i = Some e /\ e_set e ⊆ s /\ ~ e_set e ⊆ l /\ ~ e_set e ⊆ r.
Proof.
  unfold connects. destruct (g_edges g !! i) as [e|]; [|done]. intros H. exists e.
  rewrite !andb_true_iff, !negb_true_iff, bool_decide_eq_true, !bool_decide_eq_false in H. naive_solver.
Qed.

Definition has_cols (W : nat -> nat) (es : list edge) (s : rset) (m : colmap) : Prop :=
  forall c, c ∈ concat (map edge_stables es) -> c.1 ∈ s -> c.2 < W c.1 -> c ∈ m.

Lemma pair_keys_ok W e a b ml mr (L R : rset) :
  edge_wf W e -> (a, b) ∈ e_pairs e ->
  e_set e ⊆ L ∪ R -> ~ e_set e ⊆ L -> ~ e_set e ⊆ R -> L ## R ->
  Forall (fun c => c.1 ∈ L) ml -> Forall (fun c => c.1 ∈ R) mr ->
  has_cols W [e] L ml -> has_cols W [e] R mr ->
  exists x, pair_keys ml mr (a, b) = [x] /\
    forall ns α, key_match ns (eval_expr (apick α ml) x.1) (eval_expr (apick α mr) x.2) = pair_ok ns α (a, b).
Proof.
  intros (_ & _ & _ & Hp & _) Hab Hs HnL HnR Hdis HL HR Hl Hr.
  destruct (Hp a b Hab) as (Hset & Hne & Ha & Hb). rewrite Hset in Hs, HnL, HnR.
  rewrite Forall_forall in HL. rewrite Forall_forall in HR.
  assert (Hin : a ∈ concat (map edge_stables [e]) /\ b ∈ concat (map edge_stables [e])).
  { cbn. rewrite app_nil_r. unfold edge_stables. split; apply elem_of_app; left;
      apply elem_of_list_In, in_concat; exists [a; b];
      (split; [apply in_map_iff; exists (a, b); split; [done|by apply elem_of_list_In]|cbn; auto]). }
  destruct Hin as [Hina Hinb]. unfold pair_keys, pair_ok. cbn [fst snd].
  assert (Hcase : (a.1 ∈ L /\ b.1 ∈ R) \/ (b.1 ∈ L /\ a.1 ∈ R)).
  { assert (a.1 ∈ L ∪ R) as HA by set_solver. assert (b.1 ∈ L ∪ R) as HB by set_solver.
    apply elem_of_union in HA as [HA|HA]; apply elem_of_union in HB as [HB|HB]; auto.
    - exfalso. apply HnL. set_solver.
    - exfalso. apply HnR. set_solver. }
  destruct Hcase as [[HA HB]|[HB HA]].
  - destruct (find_col_in a ml (Hl a Hina HA Ha)) as [i Hi]. destruct (find_col_in b mr (Hr b Hinb HB Hb)) as [j Hj].
    rewrite Hi, Hj. eexists. split; [done|]. intros ns α. cbn [fst snd eval_expr].
    by rewrite (cell_at_find _ _ _ _ Hi), (cell_at_find _ _ _ _ Hj).
  - rewrite (find_col_not_in a ml) by (intros H; apply (Hdis a.1); [by apply HL|done]).
    destruct (find_col_in b ml (Hl b Hinb HB Hb)) as [i Hi]. destruct (find_col_in a mr (Hr a Hina HA Ha)) as [j Hj].
    rewrite Hi, Hj. eexists. split; [done|]. intros ns α. cbn [fst snd eval_expr].
    rewrite (cell_at_find _ _ _ _ Hi), (cell_at_find _ _ _ _ Hj). apply key_match_comm.
Qed.

Definition spans (L R : rset) (e : edge) : Prop := e_set e ⊆ L ∪ R /\ ~ e_set e ⊆ L /\ ~ e_set e ⊆ R.
Lemma has_cols_in W es e s m : has_cols W es s m -> e ∈ es -> has_cols W [e] s m.
Proof.
  intros H He c Hc. apply H. cbn in Hc. rewrite app_nil_r in Hc.
  apply elem_of_list_In, in_concat. exists (edge_stables e). split; [|by apply elem_of_list_In].
  apply in_map. by apply elem_of_list_In.
Qed.
Lemma build_keys_ok W es ml mr (L R : rset) :
  Forall (edge_wf W) es -> Forall (spans L R) es -> L ## R ->
  Forall (fun c => c.1 ∈ L) ml -> Forall (fun c => c.1 ∈ R) mr ->
  has_cols W es L ml -> has_cols W es R mr ->
  exists on, build_keys es ml mr = Some on /\
    forall ns α, keys_ok on ns (apick α ml) (apick α mr) = forallb (pair_ok ns α) (concat (map e_pairs es)).
Proof.
  intros Hwf Hsp Hdis HL HR Hl Hr. unfold build_keys.
  assert (Hps : Forall (fun ab => exists x, pair_keys ml mr ab = [x] /\
    forall ns α, key_match ns (eval_expr (apick α ml) x.1) (eval_expr (apick α mr) x.2) = pair_ok ns α ab)
    (concat (map e_pairs es))).
  { apply Forall_concat_map. rewrite Forall_forall in Hwf. rewrite Forall_forall in Hsp.
    apply Forall_forall. intros e He. apply Forall_forall. intros [a b] Hab.
    destruct (Hsp e He) as (H1 & H2 & H3).
    eapply pair_keys_ok; [by apply Hwf|done|done|done|done|done|done|done| |]; by eapply has_cols_in. }
  set (pairs := concat (map e_pairs es)) in *. clearbody pairs.
  assert (Hex : forall ns α, keys_ok (concat (map (pair_keys ml mr) pairs)) ns (apick α ml) (apick α mr) = forallb (pair_ok ns α) pairs).
  { intros ns α. induction Hps as [|ab pairs (x & Hx & E) _ IH]; [done|]. cbn [map concat forallb].
    rewrite Hx. cbn [app]. unfold keys_ok in *. cbn [forallb]. by rewrite E, IH. }
  destruct (decide _) as [[Hon Hn]|_]; [|by eexists].
  exfalso. destruct Hps as [|ab pairs (x & Hx & E) _]; [done|]. cbn in Hon. by rewrite Hx in Hon.
Qed.

(** ** The filter *)
Lemma compact_in cs seen c : c ∈ compact seen cs <-> c ∈ seen \/ c ∈ cs.
Proof.
  revert seen. induction cs as [|d cs IH]; intros seen; cbn [compact].
  - rewrite elem_of_nil. naive_solver.
  - rewrite elem_of_cons. destruct (decide (d ∈ seen)); rewrite IH; [naive_solver|].
    rewrite elem_of_app, elem_of_list_singleton. naive_solver.
Qed.
Lemma position_Some c l i : position c l = Some i -> l !! i = Some c.
Proof.
  revert i. induction l as [|d l IH]; intros i H; cbn in H; [done|].
  destruct (decide (c = d)) as [->|Hne]; [by injection H as <-|].
  apply bind_Some in H as (j & Hj & H). injection H as <-. cbn. by apply IH.
Qed.
Lemma position_in c l : c ∈ l -> is_Some (position c l).
Proof.
  induction l as [|d l IH]; intros H; [by apply elem_of_nil in H|]. cbn.
  destruct (decide (c = d)) as [->|Hne]; [done|]. apply elem_of_cons in H as [H|H]; [done|].
  destruct (IH H) as [i ->]. by eexists.
Qed.
Lemma find_side_ok ml mr n c :
  parse_stable n = Some c -> c ∈ ml \/ c ∈ mr ->
  exists s j, find_side ml mr n = Some (s, j) /\
    j < (match s with SLeft => length ml | SRight => length mr end) /\
    forall α, cell_at (match s with SLeft => apick α ml | SRight => apick α mr end) j = aval α c.
Proof.
  intros Hc Hin. unfold find_side. rewrite Hc. cbn.
  destruct (find_col c ml) as [i|] eqn:Ei.
  - exists SLeft, i. split_and!; [done| |].
    + by eapply lookup_lt_Some, find_col_Some.
    + intros α. by apply cell_at_find.
  - destruct Hin as [Hin|Hin]; [apply find_col_in in Hin as [? ?]; congruence|].
    destruct (find_col_in _ _ Hin) as [j Hj]. rewrite Hj. exists SRight, j. split_and!; [done| |].
    + by eapply lookup_lt_Some, find_col_Some.
    + intros α. by apply cell_at_find.
Qed.
Lemma pred_rels_ok (s : rset) e :
  cols_ok (fun c => c.1 ∈ s) e -> exists rs, pred_rels e = Some rs /\ rs ⊆ s.
Proof.
  unfold cols_ok, pred_rels. intros H.
  assert (Hm : exists rs, mapM (fun c : text * nat => parse_stable c.1) (columns e) = Some rs /\ Forall (fun c => c.1 ∈ s) rs).
  { induction H as [|ni cs (c & Hc & Hs) _ (rs & E & F)]; [by exists []|].
    exists (c :: rs). cbn. rewrite Hc. cbn. rewrite E. split; [done|]. by constructor. }
  destruct Hm as (rs & -> & F). cbn. eexists. split; [done|]. intros i Hi.
  apply elem_of_list_to_set, elem_of_list_fmap in Hi as (c & -> & Hc). rewrite Forall_forall in F. by apply F.
Qed.
Lemma residual_atomic e : Forall atomic (residual_preds e).
Proof.
  rewrite residual_preds_spec. pose proof (conjuncts_atomic (e_filter e)) as H.
  rewrite Forall_forall in H. apply Forall_forall. intros c Hc. apply elem_of_list_filter in Hc as [_ Hc]. by apply H.
Qed.
Lemma map_col_eq_false (l k : list expr) :
  map col_eq l = map col_eq k -> Forall (fun c => col_eq c = false) k -> Forall (fun c => col_eq c = false) l.
Proof.
  revert k. induction l as [|c l IH]; intros [|d k] H F; try done. injection H as H1 H2.
  apply Forall_cons in F as [F1 F2]. constructor; [congruence|by eapply IH].
Qed.
Lemma build_filter_ok W es ml mr (L R : rset) :
  Forall (edge_wf W) es -> Forall (spans L R) es ->
  has_cols W es L ml -> has_cols W es R mr ->
  exists f, build_filter es (L ∪ R) ml mr = Some f /\
    filter_wf f (length ml) (length mr) /\
    (Forall (fun e => e_null_safe e = true) es -> match f with
                | None => True
                | Some f => Forall (fun c => col_eq c = false) (conjuncts (jf_expr f))
                end) /\
    forall α, filter_ok f (apick α ml) (apick α mr) =
              forallb (fun c => holds (sem α c)) (concat (map residual_preds es)).
Proof.
  intros Hwf Hsp Hl Hr. unfold build_filter.
  assert (Hcols : Forall (cols_ok (fun c => c.1 ∈ L ∪ R /\ (c ∈ ml \/ c ∈ mr))) (concat (map residual_preds es))).
  { apply Forall_concat_map. rewrite Forall_forall in Hwf. rewrite Forall_forall in Hsp.
    apply Forall_forall. intros e He. destruct (Hsp e He) as (H1 & _).
    destruct (Hwf e He) as (_ & _ & _ & _ & Hc & _).
    apply residual_preds_cols. unfold cols_ok in *. rewrite Forall_forall in Hc. apply Forall_forall.
    intros ni Hni. destruct (Hc ni Hni) as (c & Hp & Hs & Hw). exists c. split; [done|].
    assert (HLR : c.1 ∈ L ∪ R) by set_solver. split; [done|].
    assert (Hin : c ∈ concat (map edge_stables es)).
    { apply elem_of_list_In, in_concat. exists (edge_stables e). split; [apply in_map; by apply elem_of_list_In|].
      apply elem_of_list_In. unfold edge_stables. apply elem_of_app. right. unfold expr_stables.
      apply elem_of_list_omap. exists ni. done. }
    apply elem_of_union in HLR as [H|H]; [left; by apply Hl|right; by apply Hr]. }
  assert (Hat : Forall atomic (concat (map residual_preds es))).
  { apply Forall_concat_map. apply Forall_forall. intros e _. apply residual_atomic. }
  assert (Hns : Forall (fun e => e_null_safe e = true) es -> Forall (fun c => col_eq c = false) (concat (map residual_preds es))).
  { intros Hns. apply Forall_concat_map. rewrite Forall_forall in Hwf. rewrite Forall_forall in Hns.
    apply Forall_forall. intros e He. destruct (Hwf e He) as (_ & _ & _ & _ & _ & H). by apply H, Hns. }
  set (preds := concat (map residual_preds es)) in *. clearbody preds.
  assert (Hall : forallb (fun p => match pred_rels p with Some rs => bool_decide (rs ⊆ L ∪ R) | None => false end) preds = true).
  { apply forallb_true. eapply Forall_impl; [exact Hcols|]. intros p Hp.
    destruct (pred_rels_ok (L ∪ R) p) as (rs & E & Hs).
    - eapply cols_ok_impl; [exact Hp|]. by intros c [? _].
    - cbn beta. rewrite E. by apply bool_decide_eq_true. }
  rewrite Hall. destruct preds as [|p ps].
  - exists None. split_and!; done.
  - assert (Hcs : Forall (fun ni => exists c, parse_stable ni.1 = Some c /\ (c ∈ ml \/ c ∈ mr)) (columns (conjoin p ps))).
    { rewrite columns_conjoin. apply Forall_cons in Hcols as [Hp Hps]. apply Forall_app. split.
      - eapply Forall_impl; [exact Hp|]. intros ni (c & ? & _ & ?). eauto.
      - apply Forall_concat_map. eapply Forall_impl; [exact Hps|]. intros e He.
        eapply Forall_impl; [exact He|]. intros ni (c & ? & _ & ?). eauto. }
    set (e := conjoin p ps) in *.
    assert (Hm : exists cs, mapM (fun c : text * nat => find_side ml mr c.1) (columns e) = Some cs /\
      Forall (fun si => si.2 < match si.1 with SLeft => length ml | SRight => length mr end) cs /\
      Forall (fun ni => exists c, find_side ml mr ni.1 = Some c /\ c ∈ cs) (columns e)).
    { induction Hcs as [|ni cols (c & Hc & Hin) _ (cs & E & F & G)]; [by exists []|].
      destruct (find_side_ok ml mr _ _ Hc Hin) as (s & j & Hf & Hlt & _).
      exists ((s, j) :: cs). cbn. rewrite Hf. cbn. rewrite E. split_and!; [done|by constructor|].
      constructor; [eexists; split; [done|left]|].
      eapply Forall_impl; [exact G|]. intros ni' (c' & ? & ?). exists c'. split; [done|by right]. }
    destruct Hm as (cs & E & F & G). rewrite E. cbn [mbind option_bind].
    set (cols := compact [] cs).
    set (fc := fun (n : text) (_ : nat) => c ← find_side ml mr n; i ← position c cols; Some (ECol n i)).
    assert (Htot : is_Some (replace_cols fc e)).
    { apply replace_cols_total. eapply Forall_impl; [exact G|]. intros ni (c & Hf & Hc). unfold fc.
      rewrite Hf. cbn. destruct (position_in c cols) as [i ->]; [|by eexists].
      apply compact_in. by right. }
    destruct Htot as [e' He']. rewrite He'. cbn [mbind option_bind].
    eexists. split; [done|]. split_and!.
    + cbn. rewrite Forall_forall in F. apply Forall_forall. intros c Hc.
      apply compact_in in Hc as [Hc|Hc]; [by apply elem_of_nil in Hc|]. by apply F.
    + intros H%Hns. cbn [jf_expr]. eapply map_col_eq_false.
      * eapply replace_cols_conjuncts; [exact He'|]. intros n i x Hx. unfold fc in Hx.
        apply bind_Some in Hx as (c & _ & Hx). apply bind_Some in Hx as (j & _ & Hx). injection Hx as <-. eauto.
      * unfold e. rewrite conjuncts_conjoin. apply Forall_cons in Hat as [Hp Hps].
        rewrite Hp, (concat_atomic _ Hps). exact H.
    + intros α. cbn [filter_ok jf_expr jf_cols]. rewrite <- holds_conjoin. f_equal. symmetry.
      eapply replace_cols_eval; [exact He'|]. intros n i x Hni Hx. unfold fc in Hx.
      rewrite Forall_forall in Hcs. destruct (Hcs _ Hni) as (c & Hc & Hin).
      destruct (find_side_ok ml mr _ _ Hc Hin) as (s & j & Hf & _ & Hv). cbn [fst] in *.
      apply bind_Some in Hx as (sj & Hf' & Hx). rewrite Hf in Hf'. apply (inj Some) in Hf'. subst sj.
      apply bind_Some in Hx as (k & Hk & Hx). apply (inj Some) in Hx. subst x.
      apply position_Some in Hk. cbn [sem eval_expr]. rewrite Hc, <- (Hv α).
      unfold cell_at at 2. unfold filter_row. rewrite list_lookup_fmap, Hk. cbn. by destruct s.
Qed.

(** ** The tree *)
Fixpoint modes_agree (g : graph) (t : tree) : Prop :=
  match t with
  | TLeaf _ _ => True
  | TJoin _ is l r =>
      (exists es ns, mapM (fun i => g_edges g !! i) is = Some es /\ null_mode es = Some ns) /\
      modes_agree g l /\ modes_agree g r
  end.
Lemma reconstruct_modes g t req x : reconstruct g t req = Some x -> modes_agree g t.
Proof.
  revert req x. induction t as [s rid|s is l IHl r IHr]; intros req x H; [done|]. cbn [reconstruct] in H.
  apply bind_Some in H as (es & Hes & H). apply bind_Some in H as (ns & Hns & H).
  apply bind_Some in H as ([pl ml] & Hl & H). apply bind_Some in H as ([pr mr] & Hr & H).
  split; [eauto|]. split; [by eapply IHl|by eapply IHr].
Qed.
Lemma null_mode_spec es ns : null_mode es = Some ns -> es <> [] -> Forall (fun e => e_null_safe e = ns) es.
Proof.
  destruct es as [|e es]; [done|]. cbn. intros H _. destruct (forallb _ es) eqn:E; [|done]. injection H as <-.
  apply Forall_cons. split; [done|]. apply forallb_true in E. eapply Forall_impl; [exact E|].
  intros e' He. by apply bool_decide_eq_true in He.
Qed.
Lemma edges_ok_split α ns es :
  Forall (fun e => e_null_safe e = ns) es ->
  forallb (edge_ok α) es =
  forallb (pair_ok ns α) (concat (map e_pairs es)) &&
  forallb (fun c => holds (sem α c)) (concat (map residual_preds es)).
Proof.
  rewrite !forallb_concat. induction 1 as [|e es He _ IH]; [done|]. cbn [forallb]. rewrite IH.
  unfold edge_ok. rewrite He.
  set (a := forallb (pair_ok ns α) (e_pairs e)). set (b := forallb _ (residual_preds e)).
  set (c := forallb _ es). set (d := forallb _ es). clearbody a b c d. by destruct a, b, c, d.
Qed.
Lemma needs_in req es (s : rset) c :
  c ∈ needs req es s <-> c.1 ∈ s /\ (c ∈ req \/ c ∈ concat (map edge_stables es)).
Proof. unfold needs. by rewrite elem_of_list_filter, elem_of_app. Qed.

Lemma reconstruct_ok g t seen used seen' req :
  Forall wf (g_rels g) -> Forall plain (g_rels g) -> Forall (edge_wf (rel_width (g_rels g))) (g_edges g) ->
  validate_sub g t seen = Some (used, seen') -> modes_agree g t ->
  exists p m ids es,
    reconstruct g t req = Some (p, m) /\ wf p /\ plain p /\ length m = width p /\ NoDup m /\
    Forall (fun c => c.1 ∈ tset t /\ c.2 < rel_width (g_rels g) c.1) m /\
    (forall c, c ∈ req -> c.1 ∈ tset t -> c.2 < rel_width (g_rels g) c.1 -> c ∈ m) /\
    NoDup ids /\ tset t = list_to_set ids /\
    mapM (fun i => g_edges g !! i) used = Some es /\ Forall (fun e => e_set e ⊆ tset t) es /\
    eval p ≡ₚ sols (fun α => forallb (edge_ok α) es) (fun α => apick α m) (asgs (rel_rows (g_rels g)) ids).
Proof.
  intros Hw Hp He. set (W := rel_width (g_rels g)) in *. set (RR := rel_rows (g_rels g)) in *.
  revert seen used seen' req.
  induction t as [s rid|s is l IHl r IHr]; intros seen used seen' req Hv Hm; cbn [validate_sub] in Hv.
  - destruct (decide (tset (TLeaf s rid) ∈ seen)); [done|]. cbn [tset] in *.
    destruct (decide (s = {[rid]})) as [->|]; [|done].
    destruct (g_rels g !! rid) as [p|] eqn:Ep; [|done]. injection Hv as <- <-.
    rewrite Forall_forall in Hw. rewrite Forall_forall in Hp.
    pose proof (Hw p (elem_of_list_lookup_2 _ _ _ Ep)) as Hwp.
    pose proof (Hp p (elem_of_list_lookup_2 _ _ _ Ep)) as Hpp.
    set (m := all_cols rid (width p)).
    assert (Hnd : NoDup m).
    { unfold m, all_cols. apply (NoDup_fmap_2 (fun j => (rid, j))), NoDup_seq. }
    assert (HW : W rid = width p) by (unfold W, rel_width; by rewrite Ep).
    assert (Hlen : length m = width p) by (unfold m, all_cols; by rewrite map_length, seq_length).
    assert (Hmem : forall c, c ∈ m <-> c.1 = rid /\ c.2 < width p).
    { intros [i j]. unfold m, all_cols. rewrite elem_of_list_fmap. cbn. split.
      - intros (k & [= -> ->] & Hk%elem_of_seq). lia.
      - intros [-> Hj]. exists j. split; [done|]. apply elem_of_seq. lia. }
    destruct (required_proj_ok req m Hnd) as (H1 & H2 & H3 & H4 & H5).
    exists (match required_proj req m with Some keep => PProj keep p | None => p end),
      (apply_proj (required_proj req m) m), [rid], [].
    split_and!.
    + cbn [reconstruct]. rewrite Ep. cbn [mbind option_bind]. fold (all_cols rid (width p)). fold m.
      by destruct (required_proj req m).
    + by destruct (required_proj req m).
    + by destruct (required_proj req m).
    + rewrite H4. by destruct (required_proj req m).
    + done.
    + apply Forall_forall. intros c Hc%H2%Hmem. destruct Hc as [E Hc]. rewrite E, HW. split; [set_solver|done].
    + intros c Hc Hs Hlt. apply H3; [done|]. apply Hmem. apply elem_of_singleton in Hs.
      rewrite Hs, HW in Hlt. done.
    + apply NoDup_singleton.
    + cbn. by rewrite right_id_L by apply _.
    + done.
    + constructor.
    + pose proof (leaf_ok (g_rels g) rid p Ep Hwp) as Hl. fold RR in Hl. fold m in Hl.
      apply reflexive_eq.
      transitivity (map (project (required_proj req m)) (eval p)).
      * destruct (required_proj req m) as [keep|]; cbn [eval project]; [done|]. by rewrite map_id.
      * rewrite Hl, sols_map. apply sols_ext; [done|]. intros α _ _. apply H5.
  - destruct (decide (tset (TJoin s is l r) ∈ seen)); [done|]. cbn [tset] in *.
    destruct (decide (tset l ## tset r)) as [Hdis|]; [|done].
    destruct (decide (tset l ∪ tset r = s)) as [Hs|]; [|done].
    destruct (forallb (connects g s (tset l) (tset r)) is) eqn:Hcon; [|done].
    apply bind_Some in Hv as ([ul seen1] & Hvl & Hv). apply bind_Some in Hv as ([ur seen2] & Hvr & Hv).
    injection Hv as <- <-. destruct Hm as ((es & ns & Hes & Hns) & Hml & Hmr).
    destruct (IHl _ _ _ (needs req es (tset l)) Hvl Hml)
      as (pl & ml & idl & esl & Rl & Wl & Pl & Ll & Nl & Cl & Ql & Dl & Sl & El & Fl & Vl).
    destruct (IHr _ _ _ (needs req es (tset r)) Hvr Hmr)
      as (pr & mr & idr & esr & Rr & Wr & Pr & Lr & Nr & Cr & Qr & Dr & Sr & Er & Fr & Vr).
    clear IHl IHr.
    assert (Hew : Forall (fun e => edge_wf W e /\ spans (tset l) (tset r) e) es).
    { apply mapM_Some in Hes. apply forallb_true in Hcon. rewrite Forall_forall in Hcon.
      rewrite Forall_forall in He. apply Forall_forall. intros e Hin. apply elem_of_list_lookup in Hin as (k & Hk).
      destruct (Forall2_lookup_r _ _ _ _ _ Hes Hk) as (i & Hi & Ei).
      split; [by eapply He, elem_of_list_lookup_2|].
      destruct (connects_spec _ _ _ _ _ (Hcon i (elem_of_list_lookup_2 _ _ _ Hi))) as (e' & Ee & H1 & H2 & H3).
      rewrite Ei in Ee. injection Ee as <-. unfold spans. by rewrite Hs. }
    apply Forall_and in Hew as [Hewf Hspan].
    assert (Hhl : has_cols W es (tset l) ml).
    { intros c Hc Hcl Hlt. apply Ql; [|done|done]. apply needs_in. auto. }
    assert (Hhr : has_cols W es (tset r) mr).
    { intros c Hc Hcl Hlt. apply Qr; [|done|done]. apply needs_in. auto. }
    destruct (build_keys_ok W es ml mr (tset l) (tset r)) as (on & Hon & Hkeys); try done.
    { eapply Forall_impl; [exact Cl|]. by intros c [? _]. }
    { eapply Forall_impl; [exact Cr|]. by intros c [? _]. }
    destruct (build_filter_ok W es ml mr (tset l) (tset r)) as (f & Hf & Hfwf & Hfpl & Hfsem); try done.
    assert (Hmodes : Forall (fun e => e_null_safe e = ns) es).
    { destruct es as [|e es]; [constructor|]. by apply null_mode_spec. }
    assert (Hnd : NoDup (ml ++ mr)).
    { apply NoDup_app. split_and!; [done| |done]. intros c H1 H2.
      rewrite Forall_forall in Cl. rewrite Forall_forall in Cr. apply (Hdis c.1); [by apply Cl|by apply Cr]. }
    destruct (required_proj_ok req (ml ++ mr) Hnd) as (H1 & H2 & H3 & H4 & H5).
    set (proj := required_proj req (ml ++ mr)) in *. set (m := apply_proj proj (ml ++ mr)) in *.
    set (q := match on, f with
      | [], Some _ => PNested pl pr f proj
      | [], None => match proj with Some keep => PProj keep (PCross pl pr) | None => PCross pl pr end
      | _, _ => PHash pl pr on ns f proj
      end).
    assert (Hnone : on = [] -> concat (map e_pairs es) = []).
    { intros ->. unfold build_keys in Hon. destruct (decide _) as [|Hn]; [done|]. injection Hon as Hon.
      destruct (concat (map e_pairs es)) eqn:E; [done|]. exfalso. apply Hn. by split. }
    assert (Hq : eval q = map (project proj)
      (join_rows (fun a b => keys_ok on ns a b && filter_ok f a b) (eval pl) (eval pr))).
    { unfold q. destruct on as [|k on]; [|done]. destruct f as [f|]; [done|].
      destruct proj as [keep|]; cbn [eval project]; [done|]. by rewrite map_id. }
    rewrite Ll, Lr in Hfwf.
    exists q, m, (idl ++ idr), (es ++ esl ++ esr). split_and!.
    + cbn [reconstruct]. rewrite Hes. cbn [mbind option_bind]. rewrite Hns. cbn [mbind option_bind].
      rewrite Rl. cbn [mbind option_bind]. rewrite Rr. cbn [mbind option_bind].
      rewrite Hon. cbn [mbind option_bind]. rewrite Hf. cbn [mbind option_bind].
      fold proj. fold m. unfold q. by destruct on, f.
    + unfold q. destruct on as [|k on]; [|done]. destruct f as [f|]; [done|]. by destruct proj.
    + unfold q. destruct on as [|k on].
      * destruct f as [f|]; [done|]. by destruct proj.
      * split; [done|]. split; [done|]. intros ->. by apply Hfpl.
    + rewrite H4, app_length, Ll, Lr. unfold q. destruct on as [|k on]; [|done]. destruct f as [f|]; [done|].
      by destruct proj.
    + done.
    + apply Forall_forall. intros c Hc%H2. rewrite <- Hs.
      rewrite Forall_forall in Cl. rewrite Forall_forall in Cr.
      apply elem_of_app in Hc as [Hc|Hc].
      * destruct (Cl c Hc). split; [by apply elem_of_union_l|done].
      * destruct (Cr c Hc). split; [by apply elem_of_union_r|done].
    + intros c Hc Hcs Hlt. apply H3; [done|]. apply elem_of_app. rewrite <- Hs in Hcs.
      apply elem_of_union in Hcs as [Hcs|Hcs]; [left; apply Ql|right; apply Qr]; try done; apply needs_in; auto.
    + apply NoDup_app. split_and!; [done| |done]. intros i Hi Hj. apply (Hdis i).
      * rewrite Sl. by apply elem_of_list_to_set.
      * rewrite Sr. by apply elem_of_list_to_set.
    + by rewrite <- Hs, Sl, Sr, list_to_set_app_L.
    + apply mapM_Some. apply mapM_Some in Hes. apply mapM_Some in El. apply mapM_Some in Er.
      apply Forall2_app; [done|by apply Forall2_app].
    + apply Forall_app. split; [|apply Forall_app; split].
      * eapply Forall_impl; [exact Hspan|]. intros e (Hsub & _). by rewrite <- Hs.
      * eapply Forall_impl; [exact Fl|]. intros e Hsub. cbn beta in *. set_solver.
      * eapply Forall_impl; [exact Fr|]. intros e Hsub. cbn beta in *. set_solver.
    + rewrite Hq. rewrite (join_rows_perm _ _ _ _ _ Vl Vr).
      assert (Hesl : Forall (edge_wf W) esl /\ Forall (edge_wf W) esr).
      { rewrite Forall_forall in He.
        split; apply Forall_forall; intros e Hin; apply elem_of_list_lookup in Hin as (k & Hk).
        - apply mapM_Some in El. destruct (Forall2_lookup_r _ _ _ _ _ El Hk) as (i & _ & Ei).
          by eapply He, elem_of_list_lookup_2.
        - apply mapM_Some in Er. destruct (Forall2_lookup_r _ _ _ _ _ Er Hk) as (i & _ & Ei).
          by eapply He, elem_of_list_lookup_2. }
      destruct Hesl as [Hel Her].
      assert (Hva : forall a b c, a ∈ asgs RR idl -> c.1 ∈ tset l -> aval (a ∪ b) c = aval a c).
      { intros a b c Ha Hc. apply aval_union_l. rewrite (asgs_dom _ _ _ Ha). rewrite Sl in Hc.
        by apply elem_of_list_to_set in Hc. }
      assert (Hvb : forall a b c, a ∈ asgs RR idl -> c.1 ∈ tset r -> aval (a ∪ b) c = aval b c).
      { intros a b c Ha Hc. apply aval_union_r. apply eq_None_not_Some.
        rewrite (asgs_dom _ _ _ Ha). intros Hin. apply (Hdis c.1); [|done]. rewrite Sl. by apply elem_of_list_to_set. }
      assert (Hpa : forall a b, a ∈ asgs RR idl -> apick a ml = apick (a ∪ b) ml).
      { intros a b Ha. apply apick_ext. eapply Forall_impl; [exact Cl|]. intros c [Hc _]. symmetry. by apply Hva. }
      assert (Hpb : forall a b, a ∈ asgs RR idl -> apick b mr = apick (a ∪ b) mr).
      { intros a b Ha. apply apick_ext. eapply Forall_impl; [exact Cr|]. intros c [Hc _]. symmetry. by apply Hvb. }
      rewrite (join_sols _ _ _ (fun α => forallb (edge_ok α) (es ++ esl ++ esr)) _ _ (fun α => apick α (ml ++ mr))).
      * rewrite <- asgs_app, sols_map. apply reflexive_eq, sols_ext; [done|]. intros α _ _. apply H5.
      * intros a b Ha Hb. rewrite !forallb_app, (Hpa a b Ha), (Hpb a b Ha), Hkeys, Hfsem, <- edges_ok_split by done.
        rewrite (andb_comm (forallb _ es)). f_equal. f_equal.
        -- apply forallb_ext_in. intros e Hin. rewrite Forall_forall in Hel. rewrite Forall_forall in Fl.
           eapply edge_ok_ext; [by apply Hel|]. intros c Hc. apply Hva; [done|]. by apply (Fl e Hin).
        -- apply forallb_ext_in. intros e Hin. rewrite Forall_forall in Her. rewrite Forall_forall in Fr.
           eapply edge_ok_ext; [by apply Her|]. intros c Hc. apply Hvb; [done|]. by apply (Fr e Hin).
      * intros a b Ha Hb. rewrite (Hpa a b Ha), (Hpb a b Ha). unfold apick. by rewrite map_app.
Qed.

(** ** The region *)
Lemma count_one_NoDup (l : list nat) :
  (forall i, i ∈ l -> length (filter (fun j => j = i) l) = 1) -> NoDup l.
Proof.
  induction l as [|a l IH]; intros H; constructor.
  - intros Ha. specialize (H a ltac:(left)). rewrite filter_cons_True in H by done. cbn in H.
    assert (Hin : a ∈ filter (fun j => j = a) l) by by apply elem_of_list_filter.
    destruct (filter (fun j => j = a) l); [by apply elem_of_nil in Hin|done].
  - apply IH. intros i Hi. specialize (H i ltac:(by right)). destruct (decide (a = i)) as [->|Hne].
    + rewrite filter_cons_True in H by done. cbn in H.
      assert (Hin : i ∈ filter (fun j => j = i) l) by by apply elem_of_list_filter.
      destruct (filter (fun j => j = i) l); [by apply elem_of_nil in Hin|done].
    + by rewrite filter_cons_False in H.
Qed.
Lemma mapM_lookup_seq {A} (l : list A) : mapM (fun i => l !! i) (seq 0 (length l)) = Some l.
Proof.
  apply mapM_Some. apply Forall2_same_length_lookup_2; [by rewrite seq_length|].
  intros i j x Hi Hx. apply lookup_seq in Hi as [-> _]. done.
Qed.
Lemma mapM_omap {A B} (f : A -> option B) l xs : mapM f l = Some xs -> xs = omap f l.
Proof.
  intros H%mapM_Some. induction H as [|a x l xs Ha _ IH]; [done|]. cbn. rewrite Ha. by f_equal.
Qed.
Lemma omap_perm {A B} (f : A -> option B) l k : l ≡ₚ k -> omap f l ≡ₚ omap f k.
Proof.
  induction 1 as [|a l k _ IH|a b l|l1 l2 l3 _ IH1 _ IH2]; [done| | |by etrans]; cbn.
  - destruct (f a); by rewrite IH.
  - destruct (f a), (f b); try done. apply Permutation_swap.
Qed.
Lemma mapM_perm {A B} (f : A -> option B) l k xs ys :
  l ≡ₚ k -> mapM f l = Some xs -> mapM f k = Some ys -> xs ≡ₚ ys.
Proof. intros Hp ->%mapM_omap ->%mapM_omap. by apply omap_perm. Qed.

Lemma validate_spec g t :
  validate g t = true ->
  exists used seen,
    tset t = list_to_set (seq 0 (length (g_rels g))) /\ validate_sub g t [] = Some (used, seen) /\
    forall i, i < length (g_edges g) -> length (filter (fun j => j = i) used) = 1.
Proof.
  unfold validate. destruct (decide _) as [Ht|]; [|done].
  destruct (validate_sub g t []) as [[used seen]|]; [|done]. intros H. exists used, seen.
  split_and!; [done|done|]. intros i Hi. rewrite forallb_forall in H.
  specialize (H i). apply bool_decide_eq_true in H; [done|]. apply in_seq. lia.
Qed.

Lemma used_perm g used es :
  mapM (fun i => g_edges g !! i) used = Some es ->
  (forall i, i < length (g_edges g) -> length (filter (fun j => j = i) used) = 1) ->
  es ≡ₚ g_edges g.
Proof.
  intros Hes Hc. eapply mapM_perm; [|exact Hes|apply mapM_lookup_seq].
  assert (Hlt : forall i, i ∈ used -> i < length (g_edges g)).
  { intros i Hi. apply mapM_Some in Hes. apply elem_of_list_lookup in Hi as (k & Hk).
    destruct (Forall2_lookup_l _ _ _ _ _ Hes Hk) as (e & _ & He). by eapply lookup_lt_Some. }
  apply NoDup_Permutation; [|apply NoDup_seq|].
  - apply count_one_NoDup. intros i Hi. by apply Hc, Hlt.
  - intros i. rewrite elem_of_seq. split; [intros Hi%Hlt; lia|].
    intros [_ Hi]. specialize (Hc i Hi). destruct (filter (fun j => j = i) used) as [|j k] eqn:E; [done|].
    assert (Hj : j ∈ filter (fun j => j = i) used) by (rewrite E; left).
    by apply elem_of_list_filter in Hj as [-> ?].
Qed.

Lemma region_ok o p target g t :
  (forall l, order o l ≡ₚ l) -> wf p -> plain p ->
  visit o p {| g_rels := []; g_edges := [] |} = Some (target, g) ->
  validate g t = true -> modes_agree g t ->
  exists joined m cols,
    reconstruct g t target = Some (joined, m) /\ mapM (fun c => find_col c m) target = Some cols /\
    wf joined /\ plain joined /\
    length cols = width p /\ eval (PProj cols joined) ≡ₚ eval p.
Proof.
  intros Ho Hwf Hpl Hvis Hval Hmod.
  destruct (visit_ok o p _ target g (g_rels g) Ho Hvis Hwf Hpl) as (es & E & _ & Wg & Pg & L & C & F & V);
    [constructor|constructor|done|].
  cbn [g_rels g_edges length app] in *. rewrite Nat.sub_0_r in V.
  destruct (validate_spec g t Hval) as (used & seen & Ht & Hv & Hcount).
  assert (Hew : Forall (edge_wf (rel_width (g_rels g))) (g_edges g)).
  { rewrite E. eapply Forall_impl; [exact F|]. by intros e [? _]. }
  destruct (reconstruct_ok g t [] used seen target Wg Pg Hew Hv Hmod)
    as (joined & m & ids & es' & Hr & Wj & Pj & Lj & Nm & Cm & Qm & Nid & Sid & Ees & _ & Vj).
  assert (Hall : Forall (fun c => c ∈ m) target).
  { unfold cols_in in C. rewrite Forall_forall in C. apply Forall_forall. intros c Hc. destruct (C c Hc) as [Hr1 Hlt].
    apply Qm; [done| |done]. rewrite Ht. apply elem_of_list_to_set, elem_of_seq. lia. }
  assert (Hcols : exists cols, mapM (fun c => find_col c m) target = Some cols).
  { clear -Hall. induction Hall as [|c target Hc _ (cols & IH)]; [by exists []|].
    destruct (find_col_in c m Hc) as [i Hi]. exists (i :: cols). cbn. rewrite Hi. cbn. by rewrite IH. }
  destruct Hcols as [cols Hcols]. exists joined, m, cols. split_and!; [done|done|done|done| |].
  - rewrite <- L. symmetry. by eapply mapM_length.
  - cbn [eval]. rewrite Vj, V, sols_map.
    assert (Hids : ids ≡ₚ seq 0 (length (g_rels g))).
    { apply NoDup_Permutation; [done|apply NoDup_seq|]. intros i.
      rewrite <- (elem_of_list_to_set (C := rset)), <- Sid, Ht. apply elem_of_list_to_set. }
    rewrite (sols_perm _ _ _ _ (asgs_perm _ _ _ Nid Hids)).
    apply reflexive_eq, sols_ext.
    + intros α _. apply forallb_perm. rewrite (used_perm _ _ _ Ees Hcount). by rewrite E.
    + intros α _ _. apply pick_apick. by apply find_cols_pick.
Qed.

Lemma try_region_ok o choose p q :
  (forall l, order o l ≡ₚ l) -> wf p -> plain p ->
  try_region o choose p = Some q -> wf q /\ plain q /\ same_rows q p.
Proof.
  intros Ho Hwf Hpl H. unfold try_region in H. apply bind_Some in H as ([target g] & Hvis & H).
  destruct (decide (length (g_rels g) <= 2)); [done|].
  apply bind_Some in H as (t & _ & H). destruct (validate g t) eqn:Hval; [|done].
  apply bind_Some in H as ([joined m] & Hr & H). apply bind_Some in H as (cols & Hcols & H). injection H as <-.
  pose proof (reconstruct_modes _ _ _ _ Hr) as Hmod.
  destruct (region_ok o p target g t Ho Hwf Hpl Hvis Hval Hmod)
    as (joined' & m' & cols' & Hr' & Hcols' & Wj & Pj & Hlen & Hev).
  rewrite Hr in Hr'. injection Hr' as <- <-. rewrite Hcols in Hcols'. injection Hcols' as <-.
  split; [done|]. split; [done|]. by split.
Qed.

Lemma keep_perm keep (L L' R R' : list row) proj :
  L ≡ₚ L' -> R ≡ₚ R' -> map (project proj) (join_rows keep L R) ≡ₚ map (project proj) (join_rows keep L' R').
Proof. intros HL HR. apply Permutation_map. by apply join_rows_perm. Qed.

Lemma optimize_ok o choose p :
  (forall l, order o l ≡ₚ l) -> wf p -> plain p ->
  wf (optimize o choose p) /\ plain (optimize o choose p) /\ same_rows (optimize o choose p) p.
Proof.
  intros Ho.
  assert (Hstep : forall p' p, wf p' -> plain p' -> same_rows p' p ->
    wf (default p' (try_region o choose p')) /\ plain (default p' (try_region o choose p')) /\
    same_rows (default p' (try_region o choose p')) p).
  { intros p' p0 Hw Hp [Hs1 Hs2]. destruct (try_region o choose p') as [q|] eqn:E; cbn; [|done].
    destruct (try_region_ok _ _ _ _ Ho Hw Hp E) as (? & ? & H1 & H2). split_and!; try done.
    split; [by etrans|congruence]. }
  induction p as [agg w rows|l IHl r IHr on ns f proj|l IHl r IHr f proj|l IHl r IHr|cols input IH];
    intros Hw Hp; cbn [optimize]; apply Hstep.
  1-3: done.
  - destruct Hw as (? & ? & Hf), Hp as (? & ? & _). destruct IHl as (? & _ & _ & E1), IHr as (? & _ & _ & E2); try done.
    cbn [wf]. by rewrite E1, E2.
  - destruct Hw as (? & ? & Hf), Hp as (? & ? & ?). destruct IHl as (_ & ? & _), IHr as (_ & ? & _); try done.
  - destruct Hw as (? & ? & Hf), Hp as (? & ? & ?). destruct IHl as (_ & _ & V1 & E1), IHr as (_ & _ & V2 & E2); try done.
    split; [by apply keep_perm|]. cbn [width]. by rewrite E1, E2.
  - destruct Hw as (? & ? & Hf), Hp as (? & ?). destruct IHl as (? & _ & _ & E1), IHr as (? & _ & _ & E2); try done.
    cbn [wf]. by rewrite E1, E2.
  - destruct Hw as (? & ? & Hf), Hp as (? & ?). destruct IHl as (_ & ? & _), IHr as (_ & ? & _); try done.
  - destruct Hw as (? & ? & Hf), Hp as (? & ?). destruct IHl as (_ & _ & V1 & E1), IHr as (_ & _ & V2 & E2); try done.
    split; [by apply keep_perm|]. cbn [width]. by rewrite E1, E2.
  - destruct Hw as (? & ?), Hp as (? & ?). destruct IHl as (? & _ & _), IHr as (? & _ & _); try done.
  - destruct Hw as (? & ?), Hp as (? & ?). destruct IHl as (_ & ? & _), IHr as (_ & ? & _); try done.
  - destruct Hw as (? & ?), Hp as (? & ?). destruct IHl as (_ & _ & V1 & E1), IHr as (_ & _ & V2 & E2); try done.
    split; [by apply join_rows_perm|]. cbn [width]. by rewrite E1, E2.
  - by destruct (IH Hw Hp) as (? & _ & _).
  - by destruct (IH Hw Hp) as (_ & ? & _).
  - destruct (IH Hw Hp) as (_ & _ & V1 & E1). split; [|done]. cbn [eval]. by apply Permutation_map.
Qed.

Lemma null_mode_all ns es : Forall (fun e => e_null_safe e = ns) es -> is_Some (null_mode es).
Proof.
  destruct 1 as [|e es He Hes]; [done|]. cbn.
  assert (E : forallb (fun e' => bool_decide (e_null_safe e' = e_null_safe e)) es = true).
  { apply forallb_true. eapply Forall_impl; [exact Hes|]. intros e' He'. apply bool_decide_eq_true. cbn in He'. congruence. }
  by rewrite E.
Qed.
Lemma validate_modes g t seen x ns :
  validate_sub g t seen = Some x -> Forall (fun e => e_null_safe e = ns) (g_edges g) -> modes_agree g t.
Proof.
  intros Hv Hns. revert seen x Hv. induction t as [s rid|s is l IHl r IHr]; intros seen x Hv; [done|].
  cbn [validate_sub] in Hv. destruct (decide (tset (TJoin s is l r) ∈ seen)); [done|].
  destruct (decide (tset l ## tset r)) as [Hdis|]; [|done].
  destruct (decide (tset l ∪ tset r = s)) as [Hs|]; [|done].
  destruct (forallb (connects g s (tset l) (tset r)) is) eqn:Hcon; [|done].
  apply bind_Some in Hv as ([ul seen1] & Hvl & Hv). apply bind_Some in Hv as ([ur seen2] & Hvr & Hv).
  split; [|split; [by eapply IHl|by eapply IHr]].
  assert (Hes : exists es, mapM (fun i => g_edges g !! i) is = Some es /\ Forall (fun e => e_null_safe e = ns) es).
  { clear -Hcon Hns. induction is as [|i is IH]; [by exists []|]. cbn in Hcon. apply andb_true_iff in Hcon as [Hi Hcon].
    destruct (connects_spec _ _ _ _ _ Hi) as (e & He & _). destruct (IH Hcon) as (es & E & F).
    exists (e :: es). cbn. rewrite He. cbn. rewrite E. split; [done|]. apply Forall_cons. split; [|done].
    rewrite Forall_forall in Hns. by eapply Hns, elem_of_list_lookup_2. }
  destruct Hes as (es & Hes & Fes). destruct (null_mode_all _ _ Fes) as [ns' Hns']. eauto.
Qed.
Lemma try_region_total o choose p target g t ns :
  (forall l, order o l ≡ₚ l) -> wf p -> plain p -> one_null_mode ns p ->
  visit o p {| g_rels := []; g_edges := [] |} = Some (target, g) ->
  2 < length (g_rels g) -> choose g = Some t -> validate g t = true ->
  is_Some (try_region o choose p).
Proof.
  intros Ho Hwf Hpl Hone Hvis Hlen Hch Hval.
  destruct (validate_spec g t Hval) as (used & seen & _ & Hv & _).
  assert (Hmod : modes_agree g t).
  { eapply validate_modes; [exact Hv|]. eapply visit_null_mode; [exact Ho|exact Hvis|exact Hone|constructor]. }
  destruct (region_ok o p target g t Ho Hwf Hpl Hvis Hval Hmod) as (joined & m & cols & Hr & Hcols & _).
  unfold try_region. rewrite Hvis. cbn [mbind option_bind]. rewrite decide_False by lia.
  rewrite Hch. cbn [mbind option_bind]. rewrite Hval, Hr. cbn [mbind option_bind]. rewrite Hcols. by eexists.
Qed.
