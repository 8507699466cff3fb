(** The graph of a region says what the region returns. *)
From Coq Require Import Lia.
From stdpp Require Import prelude list gmap.
From Verif.Lib Require Import Text.
From Verif.Optimizer Require Import ReorderModel ReorderSpec ReorderProofs ReorderJoinProofs.

Lemma forallb_true {A} (f : A -> bool) l : forallb f l = true <-> Forall (fun x => f x = true) l.
Proof. rewrite forallb_forall, Forall_forall. setoid_rewrite elem_of_list_In. done. Qed.
Lemma forallb_perm {A} (f : A -> bool) l k : l ≡ₚ k -> forallb f l = forallb f k.
Proof. intros H. apply eq_iff_eq_true. rewrite !forallb_true. by rewrite H. Qed.
Lemma forallb_concat {A B} (f : B -> bool) (g : A -> list B) l :
  forallb f (concat (map g l)) = forallb (fun a => forallb f (g a)) l.
Proof. induction l as [|a l IH]; [done|]. cbn. by rewrite forallb_app, IH. Qed.
Lemma forallb_ext_in {A} (f g : A -> bool) l :
  (forall x, x ∈ l -> f x = g x) -> forallb f l = forallb g l.
Proof.
  induction l as [|a l IH]; intros H; [done|]. cbn. rewrite IH, H; [done|left|].
  intros x Hx. apply H. by right.
Qed.

(** ** What an edge says *)
Definition pair_ok (ns : bool) (α : asg) (ab : stable * stable) : bool :=
  key_match ns (aval α ab.1) (aval α ab.2).
Definition edge_ok (α : asg) (e : edge) : bool :=
  forallb (pair_ok (e_null_safe e) α) (e_pairs e) && forallb (fun c => holds (sem α c)) (residual_preds e).
Definition pred_ok (ns : bool) (α : asg) (x : pred) : bool :=
  match x.2 with [] => holds (sem α x.1) | ps => forallb (pair_ok ns α) ps end.
Definition key_pred (a b : stable) : pred :=
  (EEq (ECol (stable_name a) 0) (ECol (stable_name b) 0), [(a, b)]).
Definition pred_shape (ns : bool) (x : pred) : Prop :=
  (exists a b, x = key_pred a b) \/
  (x.2 = [] /\ atomic x.1 /\ (ns = true -> col_eq x.1 = false)).

Lemma eq_cell_comm a b : eq_cell a b = eq_cell b a.
Proof.
  destruct a as [a|], b as [b|]; try done. cbn. do 2 f_equal.
  by apply bool_decide_ext.
Qed.
Lemma key_match_comm ns a b : key_match ns a b = key_match ns b a.
Proof.
  unfold key_match. destruct ns; [by apply bool_decide_ext|]. by rewrite eq_cell_comm.
Qed.
Lemma shape_atomic ns x : pred_shape ns x -> atomic x.1.
Proof. intros [(a & b & ->)|(_ & H & _)]; done. Qed.
Lemma make_edge_conjuncts ns k xs :
  xs <> [] -> Forall (pred_shape ns) xs -> conjuncts (e_filter (make_edge ns (k, xs))) = xs.*1.
Proof.
  intros Hn Hs. destruct xs as [|x xs]; [done|]. cbn [make_edge e_filter fst snd].
  rewrite conjuncts_conjoin. apply Forall_cons in Hs as [Hx Hs].
  rewrite (shape_atomic _ _ Hx). cbn. f_equal. apply concat_atomic.
  apply Forall_fmap. eapply Forall_impl; [exact Hs|]. intros y. apply shape_atomic.
Qed.
Lemma is_pair_in a b ps :
  is_pair a b ps = true <->
  exists c d, (c, d) ∈ ps /\ ((a = stable_name c /\ b = stable_name d) \/ (a = stable_name d /\ b = stable_name c)).
Proof.
  unfold is_pair. rewrite existsb_exists. split.
  - intros ([c d] & Hin%elem_of_list_In & H). exists c, d. split; [done|]. cbn in H.
    apply orb_true_iff in H as [H|H]; apply andb_true_iff in H as [?%bool_decide_eq_true ?%bool_decide_eq_true]; auto.
  - intros (c & d & Hin & H). exists (c, d). split; [by apply elem_of_list_In|]. cbn.
    apply orb_true_iff. rewrite !andb_true_iff, !bool_decide_eq_true. done.
Qed.
Lemma make_edge_ok ns k xs α :
  xs <> [] -> Forall (pred_shape ns) xs ->
  edge_ok α (make_edge ns (k, xs)) = forallb (pred_ok ns α) xs.
Proof.
  intros Hn Hs. apply eq_iff_eq_true. unfold edge_ok. rewrite andb_true_iff, !forallb_true.
  rewrite residual_preds_spec, make_edge_conjuncts by done. cbn [make_edge e_null_safe e_pairs snd].
  rewrite Forall_forall in Hs. rewrite !Forall_forall. split.
  - intros [Hp Hr] x Hx. destruct (Hs x Hx) as [(a & b & ->)|(H2 & Hat & Hns)].
    + unfold pred_ok. cbn [key_pred snd forallb]. rewrite andb_true_r. apply Hp.
      apply elem_of_list_In, in_concat. exists [(a, b)]. split; [|by left].
      apply in_map_iff. exists (key_pred a b). split; [done|by apply elem_of_list_In].
    + unfold pred_ok. rewrite H2.
      destruct (dropped (concat xs.*2) x.1) eqn:E.
      * unfold dropped in E. destruct x as [c ps]. cbn [fst snd] in *. subst ps.
        destruct c as [| |u v| |]; try done. destruct u as [n i| | | |]; try done.
        destruct v as [n' i'| | | |]; try done.
        apply is_pair_in in E as (c & d & Hcd & E). apply Hp in Hcd. unfold pair_ok in Hcd. cbn [fst snd] in Hcd.
        destruct ns; [by specialize (Hns eq_refl)|]. unfold key_match in Hcd. cbn [sem].
        destruct E as [[-> ->]|[-> ->]]; rewrite !parse_stable_name; [done|]. by rewrite eq_cell_comm.
      * apply Hr. apply elem_of_list_filter. split; [done|]. apply elem_of_list_fmap. eauto.
  - intros H. split.
    + intros [a b] Hab. apply elem_of_list_In, in_concat in Hab as (ps & Hps & Hab).
      apply in_map_iff in Hps as (x & <- & Hx%elem_of_list_In).
      destruct (Hs x Hx) as [(c & d & ->)|(H2 & _ & _)]; [|by rewrite H2 in Hab].
      destruct Hab as [[= <- <-]|[]]. specialize (H _ Hx). unfold pred_ok in H. cbn in H.
      by apply andb_true_iff in H as [? _].
    + intros c Hc. apply elem_of_list_filter in Hc as [Hd Hc]. apply elem_of_list_fmap in Hc as (x & -> & Hx).
      destruct (Hs x Hx) as [(a & b & ->)|(H2 & _ & _)].
      * exfalso. cbn in Hd. apply not_true_iff_false in Hd. apply Hd, is_pair_in. exists a, b.
        split; [|by left]. apply elem_of_list_In, in_concat. exists [(a, b)]. split; [|by left].
        apply in_map_iff. exists (key_pred a b). split; [done|by apply elem_of_list_In].
      * specialize (H _ Hx). unfold pred_ok in H. by rewrite H2 in H.
Qed.

(** ** Which relations a predicate is about *)
Lemma elem_of_rels_of i (m : colmap) : i ∈ rels_of m <-> exists c, (i, c) ∈ m.
Proof.
  unfold rels_of. rewrite elem_of_list_to_set, elem_of_list_fmap. split.
  - intros ([j c] & -> & H). eauto.
  - intros (c & H). exists (i, c). done.
Qed.
Lemma deps_in e ml mr d c n i :
  deps e ml mr = Some d -> (n, i) ∈ columns e -> parse_stable n = Some c -> c.1 ∈ d.
Proof.
  unfold deps. intros H Hin Hc. apply bind_Some in H as (rs & H & [= <-]).
  apply mapM_Some in H. apply elem_of_list_lookup in Hin as (k & Hk).
  destruct (Forall2_lookup_l _ _ _ _ _ H Hk) as (r & Hr & E).
  unfold rel_of_col in E. cbn [fst snd] in E. rewrite Hc in E. destruct c as [r' c]. injection E as <-.
  apply elem_of_list_to_set, elem_of_list_lookup. eauto.
Qed.
Lemma endpoints_spec e ml mr l r :
  endpoints e ml mr = Some (l, r) -> cols_ok (fun c => c ∈ ml \/ c ∈ mr) e ->
  l ⊆ rels_of ml /\ r ⊆ rels_of mr /\ l <> ∅ /\ r <> ∅ /\ cols_ok (fun c => c.1 ∈ l ∪ r) e.
Proof.
  unfold endpoints. intros H Hc. apply bind_Some in H as (d & Hd & H).
  set (lr := rels_of ml) in *. set (rr := rels_of mr) in *.
  assert (Hcov : cols_ok (fun c => c.1 ∈ d /\ (c.1 ∈ lr \/ c.1 ∈ rr)) e).
  { unfold cols_ok in *. rewrite Forall_forall in Hc |- *. intros [n i] Hin.
    destruct (Hc _ Hin) as (c & Hp & Hm). exists c. cbn in *. split; [done|]. split.
    - by eapply deps_in.
    - destruct c as [x y]. destruct Hm; [left|right]; apply elem_of_rels_of; eauto. }
  assert (Hend : forall d', (forall x, x ∈ d -> x ∈ lr \/ x ∈ rr -> x ∈ d') ->
     cols_ok (fun c => c.1 ∈ (d' ∩ lr) ∪ (d' ∩ rr)) e).
  { intros d' Hd'. eapply cols_ok_impl; [exact Hcov|]. intros [x y] [H1 H2]. cbn in *.
    apply elem_of_union. rewrite !elem_of_intersection. specialize (Hd' x H1 H2). naive_solver. }
  revert H. cbv zeta.
  set (d' := if decide (size d < 2) then lr ∪ rr else d).
  assert (Hd' : forall x, x ∈ d -> x ∈ lr \/ x ∈ rr -> x ∈ d').
  { intros x H1 H2. unfold d'. destruct (decide _); [by apply elem_of_union|done]. }
  destruct (decide (d' ∩ lr = ∅ \/ d' ∩ rr = ∅)) as [He|He].
  - destruct (decide ((lr ∪ rr) ∩ lr = ∅ \/ (lr ∪ rr) ∩ rr = ∅)) as [|He']; [done|].
    intros [= <- <-]. split_and!; [set_solver|set_solver|naive_solver|naive_solver|].
    apply Hend. intros x _ H2. by apply elem_of_union.
  - destruct (decide (d' ∩ lr = ∅ \/ d' ∩ rr = ∅)) as [|_]; [done|].
    intros [= <- <-]. split_and!; [set_solver|set_solver|naive_solver|naive_solver|].
    by apply Hend.
Qed.
Lemma endpoints_key ml mr a b k :
  a ∈ ml -> b ∈ mr -> rels_of ml ## rels_of mr ->
  endpoints (key_pred a b).1 ml mr = Some k -> k = ({[a.1]}, {[b.1]}).
Proof.
  intros Ha Hb Hdis H. unfold endpoints in H. apply bind_Some in H as (d & Hd & H).
  assert (Hal : a.1 ∈ rels_of ml) by (apply elem_of_rels_of; exists a.2; by destruct a).
  assert (Hbr : b.1 ∈ rels_of mr) by (apply elem_of_rels_of; exists b.2; by destruct b).
  assert (Hab : a.1 <> b.1) by (intros E; rewrite E in Hal; by apply (Hdis b.1)).
  unfold deps in Hd. apply bind_Some in Hd as (rs & Hrs & [= <-]).
  assert (rs = [a.1; b.1]) as ->.
  { cbn [key_pred fst columns app] in Hrs. cbn [mapM] in Hrs. unfold rel_of_col in Hrs. cbn [fst snd] in Hrs.
    rewrite !parse_stable_name in Hrs. destruct a, b. cbn in Hrs. by injection Hrs as <-. }
  revert H. cbv zeta.
  rewrite (decide_False (P := (size (list_to_set [a.1; b.1] : rset) < 2))).
  2:{ cbn [list_to_set]. rewrite (right_id_L ∅ (∪)). rewrite size_union by set_solver. rewrite !size_singleton. lia. }
  assert (list_to_set [a.1; b.1] ∩ rels_of ml = {[a.1]}) as ->.
  { apply set_eq. intros x. rewrite elem_of_intersection, elem_of_list_to_set, elem_of_singleton.
    rewrite !elem_of_cons, elem_of_nil. split; [|naive_solver].
    intros [[->|[->|[]]] H]; [done|]. exfalso. by apply (Hdis b.1). }
  assert (list_to_set [a.1; b.1] ∩ rels_of mr = {[b.1]}) as ->.
  { apply set_eq. intros x. rewrite elem_of_intersection, elem_of_list_to_set, elem_of_singleton.
    rewrite !elem_of_cons, elem_of_nil. split; [|naive_solver].
    intros [[->|[->|[]]] H]; [|done]. exfalso. by apply (Hdis a.1). }
  rewrite decide_False by set_solver. rewrite decide_False by set_solver. by intros [= <-].
Qed.

(** ** Groups *)
Definition groups_ok (ml mr : colmap) (gs : list ((rset * rset) * list pred)) : Prop :=
  Forall (fun kx => kx.2 <> [] /\ Forall (fun x : pred => endpoints x.1 ml mr = Some kx.1) kx.2) gs.
Lemma add_group_ok ml mr k x gs :
  endpoints x.1 ml mr = Some k -> groups_ok ml mr gs ->
  groups_ok ml mr (add_group k x gs) /\ concat (add_group k x gs).*2 ≡ₚ x :: concat gs.*2.
Proof.
  intros Hx. induction gs as [|[k' xs] gs IH]; intros Hg; cbn [add_group].
  - split; [|done]. constructor; [|constructor]. split; [done|]. constructor; [done|constructor].
  - apply Forall_cons in Hg as [[Hn Hk] Hg]. destruct (decide (k = k')) as [->|Hne].
    + split.
      * constructor; [|done]. split; [by destruct xs|]. apply Forall_app. split; [done|]. by constructor.
      * cbn. rewrite <- app_assoc. cbn. symmetry. apply Permutation_middle.
    + destruct (IH Hg) as [IH1 IH2]. split; [by constructor|].
      cbn in *. rewrite IH2. symmetry. apply Permutation_middle.
Qed.
Lemma group_preds_ok ml mr ps gs gs' :
  group_preds ml mr ps gs = Some gs' -> groups_ok ml mr gs ->
  groups_ok ml mr gs' /\ concat gs'.*2 ≡ₚ ps ++ concat gs.*2.
Proof.
  revert gs. induction ps as [|p ps IH]; intros gs H Hg; cbn in H.
  - injection H as <-. done.
  - apply bind_Some in H as (k & Hk & H).
    destruct (add_group_ok ml mr k p gs Hk Hg) as [Hg' Hp].
    destruct (IH _ H Hg') as [H1 H2]. split; [done|]. rewrite H2, Hp.
    symmetry. apply Permutation_middle.
Qed.

(** ** The predicates of a join *)
Lemma keys_ok_apick ns on ml mr α keys :
  mapM (fun ab : expr * expr =>
    a ← resolve ab.1 ml; b ← resolve ab.2 mr;
    Some ((EEq (ECol (stable_name a) 0) (ECol (stable_name b) 0), [(a, b)]) : pred)) on = Some keys ->
  keys_ok on ns (apick α ml) (apick α mr) = forallb (pred_ok ns α) keys /\
  Forall (fun x => exists a b, x = key_pred a b /\ a ∈ ml /\ b ∈ mr) keys.
Proof.
  intros H%mapM_Some. induction H as [|[e1 e2] x on keys H _ [IH1 IH2]]; [done|].
  cbn [fst snd] in H. apply bind_Some in H as (a & Ha & H). apply bind_Some in H as (b & Hb & H).
  injection H as <-.
  destruct e1 as [n1 i1| | | |]; try done. destruct e2 as [n2 i2| | | |]; try done. cbn in Ha, Hb.
  split.
  - unfold keys_ok in *. cbn [forallb]. rewrite IH1. f_equal.
    unfold pred_ok. cbn [snd forallb fst]. rewrite andb_true_r. unfold pair_ok. cbn [fst snd eval_expr].
    by rewrite !cell_at_apick, Ha, Hb.
  - constructor; [|done]. exists a, b. split; [done|]. split; by eapply elem_of_list_lookup_2.
Qed.
Lemma filter_row_apick cols α ml mr :
  filter_row cols (apick α ml) (apick α mr) =
  map (fun si => match (match si.1 with SLeft => ml !! si.2 | SRight => mr !! si.2 end) with
                 | Some c => aval α c | None => None end) cols.
Proof.
  unfold filter_row. apply map_ext. intros [[] i]; cbn; by rewrite cell_at_apick.
Qed.
Lemma to_stable_ok f ml mr e :
  to_stable f ml mr = Some e -> filter_wf (Some f) (length ml) (length mr) ->
  cols_ok (fun c => c ∈ ml \/ c ∈ mr) e /\
  map col_eq (conjuncts e) = map col_eq (conjuncts (jf_expr f)) /\
  forall α, eval_expr (filter_row (jf_cols f) (apick α ml) (apick α mr)) (jf_expr f) = sem α e.
Proof.
  unfold to_stable. intros H Hwf. cbn in Hwf. rewrite Forall_forall in Hwf. split_and!.
  - eapply replace_cols_columns; [exact H|]. intros n i x _ Hx. apply bind_Some in Hx as ([s j] & Hs & Hx).
    pose proof (Hwf _ (elem_of_list_lookup_2 _ _ _ Hs)) as Hlt. cbn in Hlt.
    destruct s.
    + destruct (ml !! j) as [c|] eqn:E; [|apply lookup_ge_None in E; lia].
      apply (inj Some) in Hx. subst x. unfold columns. apply Forall_singleton. exists c. split.
      * apply parse_stable_name.
      * left. by eapply elem_of_list_lookup_2.
    + destruct (mr !! j) as [c|] eqn:E; [|apply lookup_ge_None in E; lia].
      apply (inj Some) in Hx. subst x. unfold columns. apply Forall_singleton. exists c. split.
      * apply parse_stable_name.
      * right. by eapply elem_of_list_lookup_2.
  - eapply replace_cols_conjuncts; [exact H|]. intros n i x Hx.
    apply bind_Some in Hx as ([s j] & Hs & Hx).
    destruct s; [destruct (ml !! j)|destruct (mr !! j)]; apply (inj Some) in Hx; subst x; eauto.
  - intros α. eapply replace_cols_sem; [exact H|]. intros n i x _ Hx.
    apply bind_Some in Hx as ([s j] & Hs & Hx). cbn [eval_expr].
    pose proof (Hwf _ (elem_of_list_lookup_2 _ _ _ Hs)) as Hlt. cbn in Hlt.
    rewrite filter_row_apick. unfold cell_at. rewrite list_lookup_fmap, Hs. cbn.
    destruct s.
    + destruct (ml !! j) as [c|] eqn:E; [|apply lookup_ge_None in E; lia].
      apply (inj Some) in Hx. subst x. cbn [sem]. by rewrite parse_stable_name.
    + destruct (mr !! j) as [c|] eqn:E; [|apply lookup_ge_None in E; lia].
      apply (inj Some) in Hx. subst x. cbn [sem]. by rewrite parse_stable_name.
Qed.
Lemma join_preds_ok ns on f ml mr ps :
  join_preds on f ml mr = Some ps ->
  filter_wf f (length ml) (length mr) ->
  (ns = true -> match f with
                | None => True
                | Some f => Forall (fun c => col_eq c = false) (conjuncts (jf_expr f))
                end) ->
  Forall (pred_shape ns) ps /\
  Forall (fun x : pred => cols_ok (fun c => c ∈ ml \/ c ∈ mr) x.1) ps /\
  Forall (fun x : pred => forall a b, x = key_pred a b \/ (a, b) ∈ x.2 -> x = key_pred a b /\ a ∈ ml /\ b ∈ mr) ps /\
  forall α, keys_ok on ns (apick α ml) (apick α mr) && filter_ok f (apick α ml) (apick α mr) =
            forallb (pred_ok ns α) ps.
Proof.
  unfold join_preds. intros H Hwf Hpl.
  apply bind_Some in H as (keys & Hk & H). apply bind_Some in H as (rest & Hr & H). injection H as <-.
  assert (Hkeys : Forall (fun x => exists a b, x = key_pred a b /\ a ∈ ml /\ b ∈ mr) keys).
  { by destruct (keys_ok_apick ns on ml mr ∅ keys Hk). }
  assert (Hrest : exists cs, rest = map (fun c => (c, []) : pred) cs /\ Forall atomic cs /\
    Forall (cols_ok (fun c => c ∈ ml \/ c ∈ mr)) cs /\ (ns = true -> Forall (fun c => col_eq c = false) cs) /\
    forall α, filter_ok f (apick α ml) (apick α mr) = forallb (fun c => holds (sem α c)) cs).
  { destruct f as [f|].
    - apply bind_Some in Hr as (e & He & Hr). injection Hr as <-. exists (conjuncts e).
      destruct (to_stable_ok _ _ _ _ He Hwf) as (H1 & H2 & H3). split_and!.
      + done.
      + apply conjuncts_atomic.
      + by apply conjuncts_columns in H1.
      + intros Hns. specialize (Hpl Hns). rewrite Forall_forall. intros c Hc.
        assert (col_eq c ∈ map col_eq (conjuncts e)) as Hin by (apply elem_of_list_fmap; eauto).
        rewrite H2 in Hin. apply elem_of_list_fmap in Hin as (c' & -> & Hc').
        rewrite Forall_forall in Hpl. by apply Hpl.
      + intros α. unfold filter_ok. rewrite H3, <- holds_conjuncts. done.
    - injection Hr as <-. exists []. split_and!; try done; constructor. }
  destruct Hrest as (cs & -> & Hat & Hcols & Hce & Hf). split_and!.
  - apply Forall_app. split.
    + eapply Forall_impl; [exact Hkeys|]. intros x (a & b & -> & _). left. eauto.
    + apply Forall_map. rewrite Forall_forall in Hat |- *. intros c Hc. right. split_and!; [done|by apply Hat|].
      intros Hns. specialize (Hce Hns). rewrite Forall_forall in Hce. by apply Hce.
  - apply Forall_app. split.
    + eapply Forall_impl; [exact Hkeys|]. intros x (a & b & -> & Ha & Hb). unfold cols_ok.
      cbn [key_pred fst columns app]. apply Forall_cons. split; [|apply Forall_singleton].
      * exists a. split; [apply parse_stable_name|by left].
      * exists b. split; [apply parse_stable_name|by right].
    + apply Forall_map. exact Hcols.
  - apply Forall_app. split.
    + eapply Forall_impl; [exact Hkeys|]. intros x (a & b & -> & Ha & Hb) c d [E|E].
      * unfold key_pred in E. injection E as _ _ -> ->. done.
      * cbn in E. apply elem_of_list_singleton in E as [= -> ->]. done.
    + apply Forall_map, Forall_forall. intros c _ a b [E|E]; [done|by apply elem_of_nil in E].
  - intros α. rewrite forallb_app. destruct (keys_ok_apick ns on ml mr α keys Hk) as [-> _]. f_equal.
    rewrite Hf. clear. induction cs as [|c cs IH]; [done|]. cbn. by rewrite IH.
Qed.
