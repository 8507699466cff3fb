(** Proofs about MERGE INTO. *)
From Coq Require Import NArith ZArith Lia.
From stdpp Require Import prelude list.
From Verif.Lib Require Import Text.
From Verif.Merge Require Import MergeModel MergeSpec.

(* ---- Expressions ---- *)

Fixpoint expr_ind' (P : expr -> Prop)
  (Ht : forall i, P (ETgt i)) (Hs : forall i, P (ESrc i)) (Hl : forall c, P (ELit c))
  (He : forall a b, P a -> P b -> P (EEq a b)) (Ha : forall a b, P a -> P b -> P (EAnd a b))
  (Hf : forall f args, Forall P args -> P (EApp f args)) (e : expr) : P e :=
  match e with
  | ETgt i => Ht i
  | ESrc i => Hs i
  | ELit c => Hl c
  | EEq a b => He a b (expr_ind' P Ht Hs Hl He Ha Hf a) (expr_ind' P Ht Hs Hl He Ha Hf b)
  | EAnd a b => Ha a b (expr_ind' P Ht Hs Hl He Ha Hf a) (expr_ind' P Ht Hs Hl He Ha Hf b)
  | EApp f args => Hf f args
      ((fix go (l : list expr) : Forall P l :=
          match l with
          | [] => Forall_nil_2 P
          | x :: l' => Forall_cons_2 P x l' (expr_ind' P Ht Hs Hl He Ha Hf x) (go l')
          end) args)
  end.

Lemma eval_no_source e : forall t s s', uses_source e = false -> eval e t s = eval e t s'.
Proof.
  induction e as [i|i|c|a b IHa IHb|a b IHa IHb|f args IH] using expr_ind';
    intros t s s' Hu; cbn [eval uses_source] in *; try done.
  - apply orb_false_iff in Hu as [H1 H2]. by rewrite (IHa _ _ s' H1), (IHb _ _ s' H2).
  - apply orb_false_iff in Hu as [H1 H2]. by rewrite (IHa _ _ s' H1), (IHb _ _ s' H2).
  - f_equal. induction IH as [|x l Hx Hl IHl]; [done|]. cbn [map existsb] in *.
    apply orb_false_iff in Hu as [H1 H2]. f_equal; [by apply Hx|by apply IHl].
Qed.
Lemma eval_no_target e : forall t t' s, uses_target e = false -> eval e t s = eval e t' s.
Proof.
  induction e as [i|i|c|a b IHa IHb|a b IHa IHb|f args IH] using expr_ind';
    intros t t' s Hu; cbn [eval uses_target] in *; try done.
  - apply orb_false_iff in Hu as [H1 H2]. by rewrite (IHa _ t' _ H1), (IHb _ t' _ H2).
  - apply orb_false_iff in Hu as [H1 H2]. by rewrite (IHa _ t' _ H1), (IHb _ t' _ H2).
  - f_equal. induction IH as [|x l Hx Hl IHl]; [done|]. cbn [map existsb] in *.
    apply orb_false_iff in Hu as [H1 H2]. f_equal; [by apply Hx|by apply IHl].
Qed.

Lemma truth_of_tv t : truth (of_tv t) = t.
Proof. by destruct t. Qed.
Lemma and3_true a b : and3 a b = Some true <-> a = Some true /\ b = Some true.
Proof. destruct a as [[]|], b as [[]|]; cbn; naive_solver. Qed.
Lemma or3_true a b : or3 a b = Some true <-> a = Some true \/ b = Some true.
Proof. destruct a as [[]|], b as [[]|]; cbn; naive_solver. Qed.

Notation tru e t s := (truth (eval e (Some t) (Some s)) = Some true).

Lemma split_true e t s : Forall (fun p => tru p t s) (split_conjunction e) <-> tru e t s.
Proof.
  induction e as [i|i|c|a b IHa IHb|a b IHa IHb|f args IH] using expr_ind';
    cbn [split_conjunction]; try by rewrite Forall_singleton.
  rewrite Forall_app, IHa, IHb. cbn [eval]. by rewrite truth_of_tv, and3_true.
Qed.

Lemma classify_target e : classify e = DTarget -> uses_source e = false.
Proof. unfold classify. by destruct (uses_target e), (uses_source e). Qed.
Lemma classify_source e : classify e = DSource -> uses_target e = false.
Proof. unfold classify. by destruct (uses_target e), (uses_source e). Qed.

Lemma eq3_true a b : eq3 a b = Some true <-> exists x, a = Some x /\ b = Some x.
Proof.
  destruct a as [x|], b as [y|]; cbn; split; try naive_solver.
  - intros [= H%bool_decide_eq_true]. subst. eauto.
  - intros (z & [= ->] & [= ->]). by rewrite bool_decide_true.
Qed.
Lemma key_equal_true t s k :
  key_equal t s k = true <->
  exists x, eval k.1 (Some t) None = Some x /\ eval k.2 None (Some s) = Some x.
Proof.
  unfold key_equal. destruct (eval k.1 _ _) as [x|], (eval k.2 _ _) as [y|]; split;
    try naive_solver.
  - intros H%bool_decide_eq_true. subst. eauto.
  - intros (z & [= ->] & [= ->]). by rewrite bool_decide_true.
Qed.

Lemma analyze_one_true p k t s :
  analyze_one p = Some k -> (key_equal t s k = true <-> tru p t s).
Proof.
  destruct p as [| | |a b| |]; cbn [analyze_one]; try done.
  destruct (classify a) eqn:Ea; try done; destruct (classify b) eqn:Eb; try done;
    intros [= <-]; rewrite key_equal_true; cbn [eval fst snd];
    rewrite truth_of_tv, eq3_true.
  - apply classify_target in Ea. apply classify_source in Eb.
    by rewrite (eval_no_source a _ None (Some s) Ea), (eval_no_target b None (Some t) _ Eb).
  - apply classify_source in Ea. apply classify_target in Eb.
    rewrite (eval_no_source b _ None (Some s) Eb), (eval_no_target a None (Some t) _ Ea).
    naive_solver.
Qed.

Lemma analyze_true ps t s :
  (Forall (fun k => key_equal t s k = true) (analyze ps).1 /\
   Forall (fun p => tru p t s) (analyze ps).2) <-> Forall (fun p => tru p t s) ps.
Proof.
  induction ps as [|p ps IH]; cbn [analyze fst snd]; [by rewrite !Forall_nil|].
  destruct (analyze ps) as [ks rs] eqn:E. cbn [fst snd] in IH.
  rewrite Forall_cons, <- IH.
  destruct (analyze_one p) as [k|] eqn:Ek; cbn [fst snd]; rewrite Forall_cons.
  - rewrite (analyze_one_true p k t s Ek). tauto.
  - tauto.
Qed.

Lemma fold_and_true es e t s :
  tru (fold_left EAnd es e) t s <-> tru e t s /\ Forall (fun p => tru p t s) es.
Proof.
  revert e. induction es as [|x es IH]; intros e; cbn [fold_left].
  - rewrite Forall_nil. tauto.
  - rewrite IH, Forall_cons. cbn [eval]. rewrite truth_of_tv, and3_true. tauto.
Qed.
Lemma conjunction_true es t s :
  filter_true (conjunction es) t s = true <-> Forall (fun p => tru p t s) es.
Proof.
  destruct es as [|e es]; cbn [conjunction filter_true]; [done|].
  by rewrite bool_decide_eq_true, fold_and_true, Forall_cons.
Qed.

Lemma joins_true m t s : joins m t s = true <-> tru (m_on m) t s.
Proof.
  unfold joins. rewrite <- split_true, <- analyze_true.
  destruct (analyze _) as [ks rs]. cbn [fst snd].
  rewrite andb_true_iff, conjunction_true.
  rewrite forallb_forall.
  rewrite (Forall_forall (fun k => key_equal t s k = true) ks).
  setoid_rewrite elem_of_list_In. done.
Qed.

Lemma matches_eq m ss t : filter (fun s => joins m t s = true) ss = matches m ss t.
Proof. apply list_filter_iff. intros s. apply joins_true. Qed.

Lemma unmatched_eq m ts ss :
  unmatched_sources m ts ss =
  filter (fun s => Forall (fun t => truth (eval (m_on m) (Some t) (Some s)) <> Some true)
    (map t_cells ts)) ss.
Proof.
  apply list_filter_iff. intros s. rewrite forallb_forall, Forall_map, Forall_forall.
  setoid_rewrite elem_of_list_In. setoid_rewrite negb_true_iff.
  setoid_rewrite <- not_true_iff_false. by setoid_rewrite joins_true.
Qed.

(* ---- CASE expressions ---- *)

Lemma case_when_app {A} (b1 b2 : list (pred * A)) other j :
  case_when (b1 ++ b2) other j = case_when b1 (case_when b2 other j) j.
Proof.
  induction b1 as [|[p a] b1 IH]; cbn [app case_when]; [done|]. by rewrite IH.
Qed.

Definition selected_none (base : pred) prior conds j : Prop :=
  Forall (fun p : pred => p j <> Some true) (first_matching base prior conds).

Lemma selected_base_false base prior conds j :
  base j = Some false -> selected_none base prior conds j.
Proof.
  unfold selected_none. intros Hb. revert prior.
  induction conds as [|c cs IH]; intros prior; cbn [first_matching]; constructor.
  - destruct prior as [p|]; rewrite Hb; cbn; [|done]. by destruct (p j) as [[]|].
  - apply IH.
Qed.
Lemma selected_prior_true base p conds j :
  p j = Some true -> selected_none base (Some p) conds j.
Proof.
  unfold selected_none. revert p.
  induction conds as [|c cs IH]; intros p Hp; cbn [first_matching]; constructor.
  - rewrite Hp. unfold is_true3. by destruct (and3 (base j) (cond_pred c j)) as [[]|].
  - apply IH. rewrite Hp. done.
Qed.

Lemma case_none {C A} (g : C -> pred -> list (pred * A)) (cs : list C) (ps : list pred) other j :
  (forall c p x, x ∈ g c p -> x.1 = p) ->
  Forall (fun p : pred => p j <> Some true) ps ->
  case_when (concat (zip_with g cs ps)) other j = other.
Proof.
  intros Hg. revert ps. induction cs as [|c cs IH]; intros ps Hps; cbn [zip_with concat]; [done|].
  destruct Hps as [|p ps Hp Hps]; cbn [zip_with concat]; [done|].
  rewrite case_when_app, IH by done.
  assert (Hc : forall x, x ∈ g c p -> x.1 = p) by (intros; by eapply Hg).
  clear -Hc Hp. induction (g c p) as [|[q a] l IHl]; cbn [case_when]; [done|].
  assert (q = p) as -> by (apply (Hc (q, a)), elem_of_list_here).
  rewrite bool_decide_false by done. apply IHl. intros x Hx. apply Hc. by right.
Qed.

Definition head_or {A} (l : list (pred * A)) (other : A) : A :=
  match l with [] => other | x :: _ => x.2 end.

Lemma holds_cond {A} (c : clause A) j :
  holds (c_cond c) (jcells j) (j_source j) <-> cond_pred (c_cond c) j = Some true.
Proof. unfold holds, cond_pred, jtrue, jeval. by destruct (c_cond c). Qed.

Lemma case_first {C A} (g : clause C -> pred -> list (pred * A)) (cs : list (clause C)) base prior
    other j :
  (forall c p x, x ∈ g c p -> x.1 = p) ->
  (forall c p p', map snd (g c p) = map snd (g c p')) ->
  base j = Some true ->
  (forall p, prior = Some p -> p j = Some false) ->
  case_when (concat (zip_with g cs (first_matching base prior (map c_cond cs)))) other j =
  match list_find (fun c : clause C => holds (c_cond c) (jcells j) (j_source j)) cs with
  | Some (_, c) => head_or (g c base) other
  | None => other
  end.
Proof.
  intros Hg Hs Hb. revert prior.
  induction cs as [|c cs IH]; intros prior Hp; cbn [map first_matching zip_with concat]; [done|].
  set (cm := (fun j0 => is_true3 (and3 (base j0) (cond_pred (c_cond c) j0))) : pred).
  set (sel := (match prior with
               | Some p => fun j0 => and3 (cm j0) (not3 (p j0))
               | None => cm end) : pred).
  set (pr := (match prior with
               | Some p => fun j0 => or3 (p j0) (cm j0)
               | None => cm end) : pred).
  change (case_when (g c sel ++ concat (zip_with g cs
    (first_matching base (Some pr) (map c_cond cs)))) other j =
    match list_find (fun c : clause C => holds (c_cond c) (jcells j) (j_source j)) (c :: cs) with
    | Some (_, c) => head_or (g c base) other
    | None => other
    end).
  rewrite case_when_app. cbn [list_find].
  assert (Hsel : sel j = cm j).
  { unfold sel. destruct prior as [p|]; [|done]. rewrite (Hp p eq_refl). unfold cm, is_true3.
    by destruct (and3 (base j) (cond_pred (c_cond c) j)) as [[]|]. }
  assert (Hpr : pr j = cm j).
  { unfold pr. destruct prior as [p|]; [|done]. rewrite (Hp p eq_refl). unfold cm, is_true3.
    by destruct (and3 (base j) (cond_pred (c_cond c) j)) as [[]|]. }
  assert (Hgc : forall x, x ∈ g c sel -> x.1 = sel) by (intros; by eapply Hg).
  destruct (decide (holds (c_cond c) (jcells j) (j_source j))) as [Hh|Hh].
  - assert (Hcm : cm j = Some true).
    { unfold cm. apply holds_cond in Hh. by rewrite Hb, Hh. }
    rewrite (case_none g cs _ other j Hg).
    2: { apply (selected_prior_true base pr). by rewrite Hpr. }
    specialize (Hs c sel base). unfold head_or. revert Hs Hgc.
    destruct (g c sel) as [|[q a] l], (g c base) as [|[q' a'] l']; cbn [map snd];
      intros Hs Hgc; try done.
    injection Hs as <- _. cbn [case_when snd].
    assert (q = sel) as -> by (apply (Hgc (q, a)), elem_of_list_here).
    by rewrite bool_decide_true by congruence.
  - assert (Hcm : cm j = Some false).
    { unfold cm, is_true3. rewrite Hb. rewrite holds_cond in Hh.
      by destruct (cond_pred _ _) as [[]|]. }
    assert (Hlast : forall o, case_when (g c sel) o j = o).
    { intros o. clear -Hgc Hsel Hcm. induction (g c sel) as [|[q a] l IHl]; [done|].
      cbn [case_when]. assert (q = sel) as -> by (apply (Hgc (q, a)), elem_of_list_here).
      rewrite bool_decide_false by congruence. apply IHl. intros x Hx. apply Hgc. by right. }
    rewrite Hlast, IH.
    + destruct (list_find _ cs) as [[]|]; done.
    + intros p [= <-]. congruence.
Qed.

Lemma first_action_find {A} (cs : list (clause A)) t s :
  first_action cs t s =
  match list_find (fun c : clause A => holds (c_cond c) t s) cs with
  | Some (_, c) => Some (c_action c)
  | None => None
  end.
Proof.
  induction cs as [|c cs IH]; cbn [first_action list_find]; [done|].
  destruct (decide _); [done|]. rewrite IH. by destruct (list_find _ _) as [[]|].
Qed.

(** The operation CASE uses zip_with directly; see it as one-branch lists. *)
Lemma zip_with_singletons {C A} (h : C -> A) (cs : list C) (ps : list pred) :
  zip_with (fun c p => (p, h c)) cs ps = concat (zip_with (fun c p => [(p, h c)]) cs ps).
Proof.
  revert ps. induction cs as [|c cs IH]; intros [|p ps]; cbn; try done. by rewrite IH.
Qed.

(* ---- The projection ---- *)

Lemma names_equal_same m a b : names_equal (m_case_sensitive m) a b = true <-> same_name m a b.
Proof.
  unfold names_equal, same_name. destruct (m_case_sensitive m); rewrite bool_decide_eq_true; [done|].
  assert (forall x y, same_letter x y <-> ascii_lower x = ascii_lower y) as Hl.
  { intros x y. unfold same_letter, ascii_lower.
    destruct (N.leb_spec 65 x), (N.leb_spec x 90), (N.leb_spec 65 y), (N.leb_spec y 90); cbn; lia. }
  revert b. induction a as [|x a IH]; intros [|y b]; cbn.
  - split; [constructor|done].
  - split; [done|]. intros H. by inversion H.
  - split; [done|]. intros H. by inversion H.
  - rewrite Forall2_cons, Hl, <- IH. split; [by intros [= -> ->]|by intros [-> ->]].
Qed.
Lemma source_expr_value m name j s :
  j_source j = Some s ->
  (e ← source_expr m name; Some (jeval e j)) = star_value m s name.
Proof.
  intros Hs. unfold source_expr, star_value.
  rewrite (list_find_ext _ (fun n => same_name m n name)) by (intros; apply names_equal_same).
  destruct (list_find _ _) as [[k n]|]; cbn; [|done]. unfold jeval. by rewrite Hs.
Qed.

Lemma default_jeval (o : option expr) e j :
  jeval (default e o) j = default (jeval e j) (x ← o; Some (jeval x j)).
Proof. by destruct o. Qed.

Lemma insert_value_value m name s :
  jeval (insert_value m name) (JRow None (Some s)) = default_value m s name.
Proof.
  unfold insert_value, default_value.
  rewrite (list_find_ext _ (fun d : text * expr => same_name m d.1 name)) by (intros; apply names_equal_same).
  by destruct (list_find _ _) as [[k [n e]]|].
Qed.

Lemma assigned_find assign i :
  assigned assign i =
  match list_find (fun a : nat * expr => a.1 = i) assign with
  | Some (_, (_, e)) => Some e
  | None => None
  end.
Proof. unfold assigned. by destruct (list_find _ _) as [[k [n e]]|]. Qed.

Section columns.
  Context (m : merge) (i : nat) (name : text).
  Definition gm (c : clause matched_action) (p : pred) : list (pred * expr) :=
    match c_action c with
    | MDelete => []
    | MUpdateAll => [(p, default (ETgt i) (source_expr m name))]
    | MUpdateSet assign => match assigned assign i with Some e => [(p, e)] | None => [] end
    end.
  Definition gs (c : clause by_source_action) (p : pred) : list (pred * expr) :=
    match c_action c with
    | SDelete => []
    | SUpdateSet assign => match assigned assign i with Some e => [(p, e)] | None => [] end
    end.
  Definition gt (c : clause by_target_action) (p : pred) : list (pred * expr) :=
    match c_action c with
    | TInsertAll => [(p, default (insert_value m name) (source_expr m name))]
    | TInsertColumns assign => [(p, default (insert_value m name) (assigned assign i))]
    end.
  Lemma gm_fst c p x : x ∈ gm c p -> x.1 = p.
  Proof.
    unfold gm. destruct (c_action c) as [| |a]; [|intros H|destruct (assigned a i); [intros H|]];
      try (by intros H%elem_of_nil); by apply elem_of_list_singleton in H as ->.
  Qed.
  Lemma gs_fst c p x : x ∈ gs c p -> x.1 = p.
  Proof.
    unfold gs. destruct (c_action c) as [|a]; [|destruct (assigned a i); [intros H|]];
      try (by intros H%elem_of_nil); by apply elem_of_list_singleton in H as ->.
  Qed.
  Lemma gt_fst c p x : x ∈ gt c p -> x.1 = p.
  Proof.
    unfold gt. destruct (c_action c) as [|a]; intros H; by apply elem_of_list_singleton in H as ->.
  Qed.
  Lemma gm_snd c p p' : map snd (gm c p) = map snd (gm c p').
  Proof. unfold gm. by destruct (c_action c) as [| |a]; [| |destruct (assigned a i)]. Qed.
  Lemma gs_snd c p p' : map snd (gs c p) = map snd (gs c p').
  Proof. unfold gs. by destruct (c_action c) as [|a]; [|destruct (assigned a i)]. Qed.
  Lemma gt_snd c p p' : map snd (gt c p) = map snd (gt c p').
  Proof. unfold gt. by destruct (c_action c) as [|a]. Qed.
End columns.

Notation PM m := (first_matching base_matched None (map c_cond (m_matched m))).
Notation PS m := (first_matching base_by_source None (map c_cond (m_by_source m))).
Notation PT m := (first_matching base_by_target None (map c_cond (m_by_target m))).

Lemma column_branches_eq m pm ps pt i name :
  column_branches m pm ps pt i name =
  concat (zip_with (gm m i name) (m_matched m) pm) ++
  concat (zip_with (gs i) (m_by_source m) ps) ++
  concat (zip_with (gt m i name) (m_by_target m) pt).
Proof. done. Qed.

Lemma column_matched m i name t s :
  let j := JRow (Some t) (Some s) in
  jeval (case_when (column_branches m (PM m) (PS m) (PT m) i name) (ETgt i) j) j =
  match first_action (m_matched m) (Some (t_cells t)) (Some s) with
  | None | Some MDelete => default None (t_cells t !! i)
  | Some MUpdateAll => default (default None (t_cells t !! i)) (star_value m s name)
  | Some (MUpdateSet assign) => set_value assign (t_cells t) (Some s) i
  end.
Proof.
  intros j. rewrite column_branches_eq, !case_when_app.
  rewrite (case_none (gt m i name)) by (first [apply gt_fst|by apply selected_base_false]).
  rewrite (case_none (gs i)) by (first [apply gs_fst|by apply selected_base_false]).
  rewrite case_first by (first [apply gm_fst|apply gm_snd|done]).
  rewrite first_action_find. cbn [jcells j_target j_source j fmap option_fmap option_map].
  destruct (list_find _ _) as [[k c]|]; [|done].
  unfold gm. destruct (c_action c) as [| |a]; cbn [head_or snd]; [done| |].
  - rewrite default_jeval, (source_expr_value m name j s) by done. done.
  - unfold set_value. rewrite assigned_find.
    destruct (list_find _ a) as [[k' [n e]]|]; cbn [head_or snd]; done.
Qed.

Lemma column_by_source m i name t :
  let j := JRow (Some t) None in
  jeval (case_when (column_branches m (PM m) (PS m) (PT m) i name) (ETgt i) j) j =
  match first_action (m_by_source m) (Some (t_cells t)) None with
  | None | Some SDelete => default None (t_cells t !! i)
  | Some (SUpdateSet assign) => set_value assign (t_cells t) None i
  end.
Proof.
  intros j. rewrite column_branches_eq, !case_when_app.
  rewrite (case_none (gt m i name)) by (first [apply gt_fst|by apply selected_base_false]).
  rewrite (case_none (gm m i name)) by (first [apply gm_fst|by apply selected_base_false]).
  rewrite case_first by (first [apply gs_fst|apply gs_snd|done]).
  rewrite first_action_find. cbn [jcells j_target j_source j fmap option_fmap option_map].
  destruct (list_find _ _) as [[k c]|]; [|done].
  unfold gs. destruct (c_action c) as [|a]; cbn [head_or snd]; [done|].
  unfold set_value. rewrite assigned_find.
  destruct (list_find _ a) as [[k' [n e]]|]; cbn [head_or snd]; done.
Qed.

Definition insert_cell (m : merge) (s : row) (i : nat) (name : text) : option cell :=
  match first_action (m_by_target m) None (Some s) with
  | None => None
  | Some TInsertAll => Some (default (default_value m s name) (star_value m s name))
  | Some (TInsertColumns assign) =>
    Some match list_find (fun a : nat * expr => a.1 = i) assign with
      | Some (_, (_, e)) => eval e None (Some s)
      | None => default_value m s name
      end
  end.

Lemma column_by_target m i name s :
  let j := JRow None (Some s) in
  jeval (case_when (column_branches m (PM m) (PS m) (PT m) i name) (ETgt i) j) j =
  default None (insert_cell m s i name).
Proof.
  intros j. rewrite column_branches_eq, !case_when_app.
  rewrite (case_none (gm m i name)) by (first [apply gm_fst|by apply selected_base_false]).
  rewrite (case_none (gs i)) by (first [apply gs_fst|by apply selected_base_false]).
  rewrite case_first by (first [apply gt_fst|apply gt_snd|done]).
  unfold insert_cell.
  rewrite first_action_find. cbn [jcells j_target j_source j fmap option_fmap option_map].
  destruct (list_find _ _) as [[k c]|]; [|done].
  unfold gt. destruct (c_action c) as [|a]; cbn [head_or snd default].
  - rewrite default_jeval, (source_expr_value m name j s) by done.
    unfold j. by rewrite insert_value_value.
  - unfold j. rewrite default_jeval, assigned_find, insert_value_value.
    destruct (list_find _ a) as [[k' [n e]]|]; done.
Qed.

Lemma insert_result_cells m s :
  insert_result m s =
  match first_action (m_by_target m) None (Some s) with
  | None => None
  | Some _ => Some (imap (fun i name => default None (insert_cell m s i name)) (m_target_names m))
  end.
Proof.
  unfold insert_result, insert_cell, updated_row.
  by destruct (first_action _ _ _) as [[|a]|].
Qed.

Definition matched_op (a : option matched_action) : op :=
  match a with None => Copy | Some MDelete => MatchedDelete | Some _ => MatchedUpdate end.
Definition by_source_op (a : option by_source_action) : op :=
  match a with None => Copy | Some SDelete => BySourceDelete | Some _ => BySourceUpdate end.

Definition om (c : clause matched_action) (p : pred) : list (pred * op) :=
  [(p, match c_action c with MDelete => MatchedDelete | _ => MatchedUpdate end)].
Definition os (c : clause by_source_action) (p : pred) : list (pred * op) :=
  [(p, match c_action c with SDelete => BySourceDelete | SUpdateSet _ => BySourceUpdate end)].
Lemma om_fst c p x : x ∈ om c p -> x.1 = p.
Proof. intros H. by apply elem_of_list_singleton in H as ->. Qed.
Lemma os_fst c p x : x ∈ os c p -> x.1 = p.
Proof. intros H. by apply elem_of_list_singleton in H as ->. Qed.

Lemma op_branches_eq m pm ps :
  op_branches m pm ps =
  [((fun j => not3 (present (j_target j))) : pred, Insert)] ++
  concat (zip_with om (m_matched m) pm) ++ concat (zip_with os (m_by_source m) ps).
Proof. unfold op_branches, om, os. by rewrite <- !zip_with_singletons. Qed.

Lemma op_matched m t s :
  case_when (op_branches m (PM m) (PS m)) Copy (JRow (Some t) (Some s)) =
  matched_op (first_action (m_matched m) (Some (t_cells t)) (Some s)).
Proof.
  rewrite op_branches_eq, !case_when_app. cbn [case_when]. rewrite bool_decide_false by done.
  rewrite (case_none os) by (first [apply os_fst|by apply selected_base_false]).
  rewrite case_first by (first [apply om_fst|done]).
  rewrite first_action_find. cbn [jcells j_target j_source fmap option_fmap option_map].
  destruct (list_find _ _) as [[k c]|]; [|done]. cbn. by destruct (c_action c).
Qed.
Lemma op_by_source m t :
  case_when (op_branches m (PM m) (PS m)) Copy (JRow (Some t) None) =
  by_source_op (first_action (m_by_source m) (Some (t_cells t)) None).
Proof.
  rewrite op_branches_eq, !case_when_app. cbn [case_when]. rewrite bool_decide_false by done.
  rewrite (case_none om) by (first [apply om_fst|by apply selected_base_false]).
  rewrite case_first by (first [apply os_fst|done]).
  rewrite first_action_find. cbn [jcells j_target j_source fmap option_fmap option_map].
  destruct (list_find _ _) as [[k c]|]; [|done]. cbn. by destruct (c_action c).
Qed.
Lemma op_by_target m s :
  case_when (op_branches m (PM m) (PS m)) Copy (JRow None (Some s)) = Insert.
Proof.
  rewrite op_branches_eq. cbn [app case_when]. by rewrite bool_decide_true.
Qed.

Definition kept_cells (m : merge) (t : row) : row :=
  imap (fun i _ => default None (t !! i)) (m_target_names m).
Lemma kept_cells_id m t : length t = length (m_target_names m) -> kept_cells m t = t.
Proof.
  intros Hl. apply list_eq. intros i. unfold kept_cells. rewrite list_lookup_imap.
  destruct (m_target_names m !! i) as [n|] eqn:En; cbn [fmap option_fmap option_map].
  - destruct (t !! i) eqn:Et; [done|]. apply lookup_ge_None in Et.
    apply lookup_lt_Some in En. lia.
  - apply lookup_ge_None in En. symmetry. apply lookup_ge_None. lia.
Qed.

Lemma project_matched m t s :
  length (t_cells t) = length (m_target_names m) ->
  project m (JRow (Some t) (Some s)) =
  WRow (default (t_cells t) (matched_result m (t_cells t) s)) (Some (t_path t)) (Some (t_index t))
    (matched_op (first_action (m_matched m) (Some (t_cells t)) (Some s))).
Proof.
  intros Hl. unfold project. rewrite op_matched. cbn [j_target fmap option_fmap option_map].
  f_equal.
  transitivity (imap (fun i name =>
    match first_action (m_matched m) (Some (t_cells t)) (Some s) with
    | None | Some MDelete => default None (t_cells t !! i)
    | Some MUpdateAll => default (default None (t_cells t !! i)) (star_value m s name)
    | Some (MUpdateSet assign) => set_value assign (t_cells t) (Some s) i
    end) (m_target_names m)).
  { apply imap_ext. intros i n _. apply column_matched. }
  unfold matched_result, updated_row.
  destruct (first_action _ _ _) as [[]|]; cbn [default]; try done; by apply kept_cells_id.
Qed.
Lemma project_by_source m t :
  length (t_cells t) = length (m_target_names m) ->
  project m (JRow (Some t) None) =
  WRow (default (t_cells t) (unmatched_result m (t_cells t))) (Some (t_path t)) (Some (t_index t))
    (by_source_op (first_action (m_by_source m) (Some (t_cells t)) None)).
Proof.
  intros Hl. unfold project. rewrite op_by_source. cbn [j_target fmap option_fmap option_map].
  f_equal.
  transitivity (imap (fun i name =>
    match first_action (m_by_source m) (Some (t_cells t)) None with
    | None | Some SDelete => default None (t_cells t !! i)
    | Some (SUpdateSet assign) => set_value assign (t_cells t) None i
    end) (m_target_names m)).
  { apply imap_ext. intros i n _. apply column_by_source. }
  unfold unmatched_result, updated_row.
  destruct (first_action _ _ _) as [[]|]; cbn [default]; try done; by apply kept_cells_id.
Qed.
Lemma project_by_target m s :
  project m (JRow None (Some s)) =
  WRow (imap (fun i name => default None (insert_cell m s i name)) (m_target_names m))
    None None Insert.
Proof.
  unfold project. rewrite op_by_target. cbn [j_target fmap option_fmap option_map]. f_equal.
  apply imap_ext. intros i n _. apply column_by_target.
Qed.

(* ---- Disjunctions ---- *)

Lemma disjunction_true ps j :
  disjunction ps j = Some true <-> Exists (fun p : pred => p j = Some true) ps.
Proof.
  destruct ps as [|p ps]; cbn [disjunction]; [by rewrite Exists_nil|].
  rewrite Exists_cons. generalize (p j) as a.
  induction ps as [|q ps IH]; intros a; cbn [fold_left].
  - rewrite Exists_nil. tauto.
  - rewrite IH, or3_true, Exists_cons. tauto.
Qed.

Lemma clause_preds_true {A} (base : pred) (cs : list (clause A)) j :
  Exists (fun p : pred => p j = Some true) (map (clause_pred base) cs) <->
  base j = Some true /\ is_Some (first_action cs (jcells j) (j_source j)).
Proof.
  rewrite Exists_exists. setoid_rewrite elem_of_list_fmap. rewrite first_action_find. split.
  - intros (p & (c & -> & Hc) & Hp). unfold clause_pred in Hp.
    assert (Hbh : base j = Some true /\ holds (c_cond c) (jcells j) (j_source j)).
    { unfold holds. destruct (c_cond c) as [e|]; [by apply and3_true in Hp|done]. }
    destruct Hbh as [Hb Hh]. split; [done|].
    destruct (list_find _ cs) as [[k c']|] eqn:E; [eauto|].
    apply list_find_None in E. rewrite Forall_forall in E. by destruct (E c Hc).
  - intros [Hb Hs]. destruct (list_find _ cs) as [[k c]|] eqn:E; [|by destruct Hs].
    apply list_find_Some in E as (Hk & Hh & _).
    exists (clause_pred base c). split; [exists c; split; [done|by eapply elem_of_list_lookup_2]|].
    unfold clause_pred. unfold holds in Hh. destruct (c_cond c); [|done].
    unfold jtrue, jeval. by rewrite Hb, Hh.
Qed.

Lemma insert_expr_true m j :
  insert_expr m j = Some true <->
  base_by_target j = Some true /\ is_Some (first_action (m_by_target m) (jcells j) (j_source j)).
Proof. unfold insert_expr. by rewrite disjunction_true, clause_preds_true. Qed.
Lemma row_delete_true m j :
  row_delete_expr m j = Some true <->
  base_matched j = Some true /\ is_Some (first_action (m_matched m) (jcells j) (j_source j)) \/
  base_by_source j = Some true /\ is_Some (first_action (m_by_source m) (jcells j) (j_source j)).
Proof. unfold row_delete_expr. by rewrite disjunction_true, Exists_app, !clause_preds_true. Qed.
Lemma rewrite_true m j :
  rewrite_filter m j = Some true <->
  (base_matched j = Some true /\ jtrue (m_on m) j = Some true) /\
    is_Some (first_action (m_matched m) (jcells j) (j_source j)) \/
  base_by_source j = Some true /\ is_Some (first_action (m_by_source m) (jcells j) (j_source j)).
Proof.
  unfold rewrite_filter. rewrite disjunction_true, Exists_app, !clause_preds_true.
  by rewrite and3_true.
Qed.

(* ---- The fast append path ---- *)

Lemma fast_case m i name s :
  case_when (fast_branches m i name) (ELit None) (JRow None (Some s)) =
  match first_action (m_by_target m) None (Some s) with
  | None => ELit None
  | Some TInsertAll => default (insert_value m name) (source_expr m name)
  | Some (TInsertColumns a) => default (insert_value m name) (assigned a i)
  end.
Proof.
  unfold fast_branches. induction (m_by_target m) as [|c cs IH]; [done|].
  cbn [map case_when first_action].
  pose proof (holds_cond c (JRow None (Some s))) as Hc.
  cbn [jcells j_target j_source fmap option_fmap option_map] in Hc.
  destruct (decide (holds (c_cond c) None (Some s))) as [Hh|Hh].
  - rewrite bool_decide_true by tauto. by destruct (c_action c).
  - rewrite bool_decide_false by tauto. apply IH.
Qed.
Lemma fast_filter_true m s :
  fast_filter m (JRow None (Some s)) = Some true <->
  is_Some (first_action (m_by_target m) None (Some s)).
Proof.
  unfold fast_filter. rewrite disjunction_true.
  induction (m_by_target m) as [|c cs IH]; cbn [map first_action].
  - rewrite Exists_nil. split; [done|]. by intros [].
  - rewrite Exists_cons, IH.
    pose proof (holds_cond c (JRow None (Some s))) as Hc.
    cbn [jcells j_target j_source fmap option_fmap option_map] in Hc.
    destruct (decide (holds (c_cond c) None (Some s))) as [Hh|Hh].
    + split; [eauto|]. intros _. left. tauto.
    + split; [|tauto]. intros [H|H]; [tauto|done].
Qed.
Lemma fast_project_eq m s :
  fast_project m s =
  WRow (imap (fun i name => default None (insert_cell m s i name)) (m_target_names m)) None None
    (match insert_result m s with Some _ => Insert | None => Noop end).
Proof.
  unfold fast_project. f_equal.
  - apply imap_ext. intros i n _. rewrite fast_case. unfold insert_cell.
    destruct (first_action _ _ _) as [[|a]|]; [| |done]; cbn [default].
    + rewrite default_jeval, (source_expr_value m n _ s) by done. by rewrite insert_value_value.
    + rewrite default_jeval, assigned_find, insert_value_value.
      by destruct (list_find _ a) as [[k' [n' e]]|].
  - rewrite insert_result_cells. pose proof (fast_filter_true m s) as Hf.
    destruct (first_action _ _ _).
    + by rewrite bool_decide_true by (apply Hf; eauto).
    + rewrite bool_decide_false; [done|]. intros H%Hf. by destruct H.
Qed.

(* ---- Scans ---- *)

Notation triples tb := (concat (map scan_file tb)).
Definition mk_trow (i : nat) (p : N * nat * row) : trow := TRow p.1.1 p.1.2 p.2 (N.of_nat i).

Lemma scan_eq tb : scan tb = imap mk_trow (triples tb).
Proof. done. Qed.

Lemma omap_imap_indep {A B C} (f : nat -> A -> B) (g : B -> option C) (h : A -> option C) l :
  (forall i x, g (f i x) = h x) -> omap g (imap f l) = omap h l.
Proof.
  revert f. induction l as [|x l IH]; intros f H; [done|].
  rewrite imap_cons. cbn. rewrite H.
  assert (E : omap g (imap (f ∘ S) l) = omap h l) by (apply IH; intros; apply H).
  destruct (h x); [f_equal|]; apply E.
Qed.
Lemma map_imap_indep {A B C} (f : nat -> A -> B) (g : B -> C) (h : A -> C) l :
  (forall i x, g (f i x) = h x) -> map g (imap f l) = map h l.
Proof.
  revert f. induction l as [|x l IH]; intros f H; [done|].
  rewrite imap_cons. cbn [map]. rewrite H. f_equal. apply IH. intros; apply H.
Qed.

Lemma scan_cells tb : map t_cells (scan tb) = rows_of tb.
Proof.
  rewrite scan_eq, (map_imap_indep _ _ snd) by done. unfold rows_of.
  rewrite concat_map, !map_map. f_equal. apply map_ext. intros f. unfold scan_file.
  by rewrite map_map.
Qed.
Lemma scan_elem tb t :
  t ∈ scan tb ->
  exists f, f ∈ tb /\ t_path t = f_path f /\ (t_index t, t_cells t) ∈ f_rows f.
Proof.
  rewrite scan_eq. intros (i & Hi)%elem_of_list_lookup. rewrite list_lookup_imap in Hi.
  destruct (triples tb !! i) as [p|] eqn:E; [|done]. injection Hi as <-.
  apply elem_of_list_lookup_2 in E. rewrite elem_of_list_In, in_concat in E.
  destruct E as (l & Hl & Hp). apply elem_of_list_In, elem_of_list_fmap in Hl as (f & -> & Hf).
  apply elem_of_list_In, elem_of_list_fmap in Hp as ([k r] & -> & Hk).
  exists f. done.
Qed.
Lemma elem_scan tb f k r :
  f ∈ tb -> (k, r) ∈ f_rows f ->
  exists t, t ∈ scan tb /\ t_path t = f_path f /\ t_index t = k /\ t_cells t = r.
Proof.
  intros Hf Hk. assert (E : (f_path f, k, r) ∈ triples tb).
  { rewrite elem_of_list_In, in_concat. exists (scan_file f). split.
    - apply elem_of_list_In, elem_of_list_fmap. eauto.
    - apply elem_of_list_In, elem_of_list_fmap. by exists (k, r). }
  apply elem_of_list_lookup in E as (i & Hi).
  exists (mk_trow i (f_path f, k, r)). split; [|done].
  rewrite scan_eq. apply elem_of_list_lookup. exists i. by rewrite list_lookup_imap, Hi.
Qed.
Lemma scan_ids_NoDup tb : NoDup (map t_id (scan tb)).
Proof.
  apply NoDup_alt. intros i j x Hi Hj. rewrite scan_eq in Hi, Hj.
  change (map t_id) with (fmap (M := list) t_id) in Hi, Hj.
  rewrite list_lookup_fmap, list_lookup_imap in Hi, Hj.
  destruct (triples tb !! i); [|done]. destruct (triples tb !! j); [|done].
  cbn in Hi, Hj. simplify_eq. apply (inj N.of_nat). congruence.
Qed.

(* ---- Cardinality ---- *)

Definition matched_id (j : jrow) : option N :=
  match j_target j, j_source j with Some t, Some _ => Some (t_id t) | _, _ => None end.
Lemma check_spec seen js :
  check_cardinality seen js = true <->
  NoDup (omap matched_id js) /\ forall x, x ∈ omap matched_id js -> x ∉ seen.
Proof.
  revert seen. induction js as [|j js IH]; intros seen; cbn [check_cardinality].
  - split; [|done]. intros _. split; [constructor|]. intros x H. by apply elem_of_nil in H.
  - assert (E : omap matched_id (j :: js) =
      match matched_id j with
      | Some x => x :: omap matched_id js | None => omap matched_id js end) by done.
    rewrite E. clear E. destruct j as [[t|] [s|]]; cbn [j_target j_source matched_id];
      try apply IH.
    case_bool_decide as Hin.
    + split; [done|]. intros [_ H]. by destruct (H (t_id t)); [left|].
    + rewrite IH. rewrite NoDup_cons. setoid_rewrite elem_of_cons. split.
      * intros [Hn Hx]. split; [split; [|done]|].
        -- intros Hc. apply (Hx _ Hc). by left.
        -- intros x [->|Hxx]; [done|]. intros Hs. apply (Hx x Hxx). by right.
      * intros [[Hn Hd] Hx]. split; [done|]. intros x Hxx [->|Hs]; [done|].
        apply (Hx x); [by right|done].
Qed.

Lemma matched_id_target m ss t :
  omap matched_id (join_target m ss t) =
  replicate (length (matches m ss (t_cells t))) (t_id t).
Proof.
  unfold join_target. rewrite matches_eq. destruct (matches m ss (t_cells t)) as [|s l]; [done|].
  induction (s :: l) as [|x l' IH]; [done|]. cbn [map length replicate]. cbn. f_equal. apply IH.
Qed.
Lemma matched_id_sources us : omap matched_id (map (fun s => JRow None (Some s)) us) = [].
Proof. by induction us. Qed.
Lemma omap_concat_map {A B C} (g : B -> option C) (f : A -> list B) l :
  omap g (concat (map f l)) = concat (map (fun x => omap g (f x)) l).
Proof.
  induction l as [|x l IH]; cbn [map concat]; [done|]. by rewrite omap_app, IH.
Qed.

Lemma NoDup_replicated {A B} (f : A -> B) (n : A -> nat) l :
  NoDup (map f l) ->
  (NoDup (concat (map (fun x => replicate (n x) (f x)) l)) <-> Forall (fun x => n x <= 1) l).
Proof.
  induction l as [|x l IH]; cbn [map concat]; intros Hnd.
  - split; intros _; constructor.
  - inversion Hnd as [|? ? Hx Hl]; subst. rewrite NoDup_app, Forall_cons, (IH Hl). split.
    + intros (H1 & _ & H3). split; [|done].
      destruct (n x) as [|[|k]]; [lia|lia|]. cbn in H1.
      apply NoDup_cons in H1 as [H1 _]. by destruct H1; left.
    + intros [H1 H3]. split_and!; [| |done].
      * destruct (n x) as [|[|k]]; [constructor| |lia]. apply NoDup_singleton.
      * intros y Hy Hc. apply elem_of_replicate in Hy as [-> _].
        apply Hx. rewrite elem_of_list_In, in_concat in Hc.
        destruct Hc as (r & Hr & Hy). apply in_map_iff in Hr as (z & <- & Hz).
        apply elem_of_list_In, elem_of_replicate in Hy as [-> _].
        apply elem_of_list_In. by apply in_map.
Qed.

Lemma full_join_check m ts ss :
  NoDup (map t_id ts) ->
  check_cardinality [] (full_join m ts ss) = true <->
  Forall (fun t => length (matches m ss (t_cells t)) <= 1) ts.
Proof.
  intros Hnd. rewrite check_spec. unfold full_join.
  rewrite omap_app, matched_id_sources, app_nil_r, omap_concat_map.
  erewrite map_ext by (intros t; apply matched_id_target).
  rewrite (NoDup_replicated t_id (fun t => length (matches m ss (t_cells t))) ts Hnd).
  split; [tauto|]. intros H. split; [done|]. intros x _ Hx. by apply elem_of_nil in Hx.
Qed.

Lemma should_check_spec m :
  should_check_cardinality (m_matched m) = false <-> several_allowed m.
Proof.
  unfold several_allowed, should_check_cardinality.
  destruct (m_matched m) as [|[[e|] []] [|? ?]]; split; intros H; try done; try tauto;
    destruct H as [H|H]; discriminate H.
Qed.

Definition unique_ok (m : merge) (unique : bool) (ts ss : list row) : Prop :=
  unique = true -> Forall (fun t => length (matches m ss t) <= 1) ts.

Lemma fast_matched_nil m : can_fast_append m = true -> m_matched m = [] /\ m_by_source m = [].
Proof.
  unfold can_fast_append, insert_only.
  by destruct (m_matched m), (m_by_source m), (m_by_target m).
Qed.

Lemma expand_none m unique ri tb ss :
  unique_ok m unique (rows_of tb) ss ->
  expand m unique ri (scan tb) ss = None <-> ambiguous m (rows_of tb) ss.
Proof.
  intros Hu. unfold expand, ambiguous. rewrite <- should_check_spec.
  destruct (can_fast_append m) eqn:Ef.
  - apply fast_matched_nil in Ef as [-> _]. split; [done|]. intros [H _]. by destruct H.
  - pose proof (full_join_check m (scan tb) ss (scan_ids_NoDup tb)) as Hc.
    assert (Hs : Forall (fun t => length (matches m ss (t_cells t)) <= 1) (scan tb) <->
                 Forall (fun t => length (matches m ss t) <= 1) (rows_of tb))
      by (by rewrite <- scan_cells, Forall_map).
    rewrite Hs in Hc. clear Hs.
    assert (Hne : Exists (fun t => 2 <= length (matches m ss t)) (rows_of tb) <->
                  check_cardinality [] (full_join m (scan tb) ss) = false).
    { rewrite <- not_true_iff_false, Hc. split.
      - intros He Hf. apply Exists_exists in He as (t & Ht & H2).
        rewrite Forall_forall in Hf. specialize (Hf t Ht). lia.
      - intros Hn. apply not_Forall_Exists in Hn; [|apply _].
        eapply Exists_impl; [exact Hn|]. intros t Ht. cbn in Ht. lia. }
    rewrite Hne.
    destruct (should_check_cardinality (m_matched m)) eqn:Es; cbn [andb]; [|naive_solver].
    destruct unique; cbn [negb andb].
    + split; [done|]. intros [_ H]. apply not_true_iff_false in H. destruct H.
      by apply Hc, Hu.
    + destruct (check_cardinality _ _); cbn [negb]; naive_solver.
Qed.
