(** Proofs for join reordering. *)
From Coq Require Import NArith ZArith ZifyN Ascii String Lia.
From stdpp Require Import prelude list gmap.
From Verif.Lib Require Import Text.
From Verif.Sql Require Import LexModel MarkerProofs.
From Verif.Optimizer Require Import ReorderModel ReorderSpec.

(** ** Names *)
Lemma parse_usize_decimal (n : N) : parse_usize (decimal n) = Some (N.to_nat n).
Proof.
  unfold parse_usize.
  pose proof (decimal_digits n) as Hd. pose proof (decimal_nonempty n) as Hn.
  pose proof (decimal_value n) as Hv.
  destruct (decimal n) as [|c s] eqn:E; [done|].
  assert (Hc : is_digit c = true) by (cbn in Hd; by apply andb_true_iff in Hd as [? _]).
  assert (Hp : (c =? 43)%N = false).
  { unfold is_digit in Hc. apply andb_true_iff in Hc as [H1%N.leb_le H2%N.leb_le].
    apply N.eqb_neq. lia. }
  cbv beta iota zeta. rewrite Hp, bool_decide_true by done. rewrite Hd. cbn [andb]. by rewrite Hv.
Qed.
Lemma split_dot_app (a b : text) :
  forallb is_digit a = true -> split_dot (a ++ 46%N :: b) = Some (a, b).
Proof.
  induction a as [|c a IH]; intros Ha; [done|].
  cbn in Ha. apply andb_true_iff in Ha as [Hc Ha].
  assert (Hp : (c =? 46)%N = false).
  { unfold is_digit in Hc. apply andb_true_iff in Hc as [H1%N.leb_le H2%N.leb_le].
    apply N.eqb_neq. lia. }
  cbn [split_dot app]. rewrite Hp, IH by done. done.
Qed.
Lemma parse_stable_name (c : stable) : parse_stable (stable_name c) = Some c.
Proof.
  destruct c as [r c]. unfold stable_name, parse_stable. cbn [fst snd app].
  rewrite split_dot_app by apply decimal_digits. cbn [mbind option_bind].
  rewrite !parse_usize_decimal. cbn [mbind option_bind]. by rewrite !Nat2N.id.
Qed.
Lemma stable_name_inj (a b : stable) : stable_name a = stable_name b -> a = b.
Proof.
  intros H. apply (f_equal parse_stable) in H. rewrite !parse_stable_name in H. by inversion H.
Qed.

(** ** Expressions *)
Lemma expr_ind' (P : expr -> Prop) :
  (forall n i, P (ECol n i)) -> (forall c, P (ELit c)) ->
  (forall a b, P a -> P b -> P (EEq a b)) -> (forall a b, P a -> P b -> P (EAnd a b)) ->
  (forall f args, Forall P args -> P (EApp f args)) -> forall e, P e.
Proof.
  intros H1 H2 H3 H4 H5. fix IH 1. intros [n i|c|a b|a b|f args].
  - apply H1.
  - apply H2.
  - apply H3; apply IH.
  - apply H4; apply IH.
  - apply H5. revert args. fix IHl 1. intros [|a args]; constructor; [apply IH|apply IHl].
Qed.

(** An assignment gives each relation a row. *)
Notation asg := (gmap nat row).
Definition aval (α : asg) (c : stable) : cell :=
  match α !! c.1 with Some r => cell_at r c.2 | None => None end.
Definition apick (α : asg) (m : colmap) : row := map (aval α) m.
(** The value of an expression over stable names. *)
Fixpoint sem (α : asg) (e : expr) : cell :=
  match e with
  | ECol n _ => match parse_stable n with Some c => aval α c | None => None end
  | ELit c => c
  | EEq a b => eq_cell (sem α a) (sem α b)
  | EAnd a b => and_cell (sem α a) (sem α b)
  | EApp f args => f (map (sem α) args)
  end.
(** All columns of an expression have stable names that satisfy [P]. *)
Definition cols_ok (P : stable -> Prop) (e : expr) : Prop :=
  Forall (fun ni => exists c, parse_stable ni.1 = Some c /\ P c) (columns e).

Lemma cols_ok_impl (P Q : stable -> Prop) e :
  cols_ok P e -> (forall c, P c -> Q c) -> cols_ok Q e.
Proof.
  intros H HPQ. eapply Forall_impl; [exact H|]. intros [n i] (c & Hc & HP). exists c. auto.
Qed.
Lemma Forall_concat_map {A B} (P : B -> Prop) (f : A -> list B) (l : list A) :
  Forall P (concat (map f l)) <-> Forall (fun a => Forall P (f a)) l.
Proof.
  induction l as [|a l IH]; cbn; [split; constructor|].
  rewrite Forall_app, Forall_cons, IH. done.
Qed.

Lemma sem_ext (α β : asg) (e : expr) :
  cols_ok (fun c => aval α c = aval β c) e -> sem α e = sem β e.
Proof.
  induction e as [n i|c|a b IHa IHb|a b IHa IHb|f args IH] using expr_ind'; intros H.
  - inversion_clear H as [|?? (c & Hc & E) _]. cbn in *. by rewrite Hc.
  - done.
  - unfold cols_ok in H. cbn in H. apply Forall_app in H as [Ha Hb]. cbn. by rewrite IHa, IHb.
  - unfold cols_ok in H. cbn in H. apply Forall_app in H as [Ha Hb]. cbn. by rewrite IHa, IHb.
  - unfold cols_ok in H. cbn in H. apply Forall_concat_map in H.
    cbn. f_equal. induction args as [|a args IHargs]; [done|].
    apply Forall_cons in H as [Ha H]. apply Forall_cons in IH as [IHa IH].
    cbn. f_equal; [by apply IHa|by apply IHargs].
Qed.

(** Rewriting the columns of an expression. *)
Lemma replace_cols_sem (f : text -> nat -> option expr) (r : row) (α : asg) (e e' : expr) :
  replace_cols f e = Some e' ->
  (forall n i x, (n, i) ∈ columns e -> f n i = Some x -> eval_expr r (ECol n i) = sem α x) ->
  eval_expr r e = sem α e'.
Proof.
  revert e'. induction e as [n i|c|a b IHa IHb|a b IHa IHb|g args IH] using expr_ind'; intros e' He Hf.
  - cbn in He. apply Hf; [|done]. cbn. apply elem_of_list_singleton. done.
  - cbn in He. by injection He as <-.
  - cbn in He. apply bind_Some in He as (a' & Ha & He). apply bind_Some in He as (b' & Hb & He).
    injection He as <-. cbn. f_equal; [apply IHa|apply IHb]; try done;
    intros n i x Hin; apply Hf; cbn; apply elem_of_app; auto.
  - cbn in He. apply bind_Some in He as (a' & Ha & He). apply bind_Some in He as (b' & Hb & He).
    injection He as <-. cbn. f_equal; [apply IHa|apply IHb]; try done;
    intros n i x Hin; apply Hf; cbn; apply elem_of_app; auto.
  - cbn in He. apply bind_Some in He as (args' & Ha & He). injection He as <-. cbn. f_equal.
    apply mapM_Some in Ha. cbn in Hf.
    revert args' Ha. induction args as [|a args IHargs]; intros args' Ha; inversion_clear Ha; [done|].
    apply Forall_cons in IH as [IHa IH]. cbn. f_equal.
    + apply IHa; [done|]. intros n i x Hin. apply Hf. cbn. apply elem_of_app. auto.
    + apply IHargs; [done| |done]. intros n i x Hin. apply Hf. cbn. apply elem_of_app. auto.
Qed.
Lemma replace_cols_eval (f : text -> nat -> option expr) (r : row) (α : asg) (e e' : expr) :
  replace_cols f e = Some e' ->
  (forall n i x, (n, i) ∈ columns e -> f n i = Some x -> sem α (ECol n i) = eval_expr r x) ->
  sem α e = eval_expr r e'.
Proof.
  revert e'. induction e as [n i|c|a b IHa IHb|a b IHa IHb|g args IH] using expr_ind'; intros e' He Hf.
  - cbn in He. apply Hf; [|done]. cbn. apply elem_of_list_singleton. done.
  - cbn in He. by injection He as <-.
  - cbn in He. apply bind_Some in He as (a' & Ha & He). apply bind_Some in He as (b' & Hb & He).
    injection He as <-. cbn. f_equal; [apply IHa|apply IHb]; try done;
    intros n i x Hin; apply Hf; cbn; apply elem_of_app; auto.
  - cbn in He. apply bind_Some in He as (a' & Ha & He). apply bind_Some in He as (b' & Hb & He).
    injection He as <-. cbn. f_equal; [apply IHa|apply IHb]; try done;
    intros n i x Hin; apply Hf; cbn; apply elem_of_app; auto.
  - cbn in He. apply bind_Some in He as (args' & Ha & He). injection He as <-. cbn. f_equal.
    apply mapM_Some in Ha. cbn in Hf.
    revert args' Ha. induction args as [|a args IHargs]; intros args' Ha; inversion_clear Ha; [done|].
    apply Forall_cons in IH as [IHa IH]. cbn. f_equal.
    + apply IHa; [done|]. intros n i x Hin. apply Hf. cbn. apply elem_of_app. auto.
    + apply IHargs; [done| |done]. intros n i x Hin. apply Hf. cbn. apply elem_of_app. auto.
Qed.
Lemma replace_cols_total (f : text -> nat -> option expr) (e : expr) :
  Forall (fun ni => is_Some (f ni.1 ni.2)) (columns e) -> is_Some (replace_cols f e).
Proof.
  induction e as [n i|c|a b IHa IHb|a b IHa IHb|g args IH] using expr_ind'; intros H.
  - by inversion_clear H.
  - by eexists.
  - cbn in H. apply Forall_app in H as [Ha Hb]. destruct (IHa Ha) as [a' Ea], (IHb Hb) as [b' Eb].
    cbn. rewrite Ea. cbn. rewrite Eb. by eexists.
  - cbn in H. apply Forall_app in H as [Ha Hb]. destruct (IHa Ha) as [a' Ea], (IHb Hb) as [b' Eb].
    cbn. rewrite Ea. cbn. rewrite Eb. by eexists.
  - cbn in H. apply Forall_concat_map in H.
    assert (is_Some (mapM (replace_cols f) args)) as [args' E].
    { apply mapM_is_Some. induction args as [|a args IHargs]; constructor.
      - apply Forall_cons in H as [Ha H]. apply Forall_cons in IH as [IHa IH]. auto.
      - apply Forall_cons in H as [Ha H]. apply Forall_cons in IH as [IHa IH]. auto. }
    cbn. rewrite E. by eexists.
Qed.
(** The columns of the rewritten expression come from the function. *)
Lemma replace_cols_columns (f : text -> nat -> option expr) (P : text * nat -> Prop) (e e' : expr) :
  replace_cols f e = Some e' ->
  (forall n i x, (n, i) ∈ columns e -> f n i = Some x -> Forall P (columns x)) ->
  Forall P (columns e').
Proof.
  revert e'. induction e as [n i|c|a b IHa IHb|a b IHa IHb|g args IH] using expr_ind'; intros e' He Hf.
  - cbn in He. eapply Hf; [|done]. cbn. apply elem_of_list_singleton. done.
  - cbn in He. injection He as <-. constructor.
  - cbn in He. apply bind_Some in He as (a' & Ha & He). apply bind_Some in He as (b' & Hb & He).
    injection He as <-. cbn. apply Forall_app. split; [apply IHa|apply IHb]; try done;
    intros n i x Hin; apply Hf; cbn; apply elem_of_app; auto.
  - cbn in He. apply bind_Some in He as (a' & Ha & He). apply bind_Some in He as (b' & Hb & He).
    injection He as <-. cbn. apply Forall_app. split; [apply IHa|apply IHb]; try done;
    intros n i x Hin; apply Hf; cbn; apply elem_of_app; auto.
  - cbn in He. apply bind_Some in He as (args' & Ha & He). injection He as <-. cbn.
    apply mapM_Some in Ha. cbn in Hf.
    revert args' Ha. induction args as [|a args IHargs]; intros args' Ha; inversion_clear Ha; [constructor|].
    apply Forall_cons in IH as [IHa IH]. cbn. apply Forall_app. split.
    + apply IHa; [done|]. intros n i x Hin. apply Hf. cbn. apply elem_of_app. auto.
    + apply IHargs; [done| |done]. intros n i x Hin. apply Hf. cbn. apply elem_of_app. auto.
Qed.
(** Columns are replaced by columns. *)
Lemma replace_cols_conjuncts (f : text -> nat -> option expr) (e e' : expr) :
  replace_cols f e = Some e' ->
  (forall n i x, f n i = Some x -> exists n' i', x = ECol n' i') ->
  map col_eq (conjuncts e') = map col_eq (conjuncts e).
Proof.
  intros He Hf. revert e' He.
  induction e as [n i|c|a b IHa IHb|a b IHa IHb|g args IH] using expr_ind'; intros e' He.
  - cbn in He. destruct (Hf _ _ _ He) as (n' & i' & ->). done.
  - cbn in He. by injection He as <-.
  - cbn in He. apply bind_Some in He as (a' & Ha & He). apply bind_Some in He as (b' & Hb & He).
    injection He as <-. cbn. f_equal.
    assert (forall x x', replace_cols f x = Some x' ->
      match x with ECol _ _ => true | _ => false end = match x' with ECol _ _ => true | _ => false end) as Hx.
    { intros x x' Hx. destruct x as [n i|c|u v|u v|g args]; cbn in Hx.
      - destruct (Hf _ _ _ Hx) as (n' & i' & ->). done.
      - by injection Hx as <-.
      - apply bind_Some in Hx as (? & _ & Hx). apply bind_Some in Hx as (? & _ & Hx). by injection Hx as <-.
      - apply bind_Some in Hx as (? & _ & Hx). apply bind_Some in Hx as (? & _ & Hx). by injection Hx as <-.
      - apply bind_Some in Hx as (? & _ & Hx). by injection Hx as <-. }
    apply Hx in Ha, Hb. by destruct a, a', b, b'.
  - cbn in He. apply bind_Some in He as (a' & Ha & He). apply bind_Some in He as (b' & Hb & He).
    injection He as <-. cbn. rewrite !map_app. f_equal; auto.
  - cbn in He. apply bind_Some in He as (args' & Ha & He). by injection He as <-.
Qed.

(** ** Conjunctions *)
Lemma holds_and a b : holds (and_cell a b) = holds a && holds b.
Proof. unfold holds, and_cell. destruct (truth a) as [[]|], (truth b) as [[]|]; done. Qed.
Lemma holds_conjuncts α e : forallb (fun c => holds (sem α c)) (conjuncts e) = holds (sem α e).
Proof.
  induction e as [n i|c|a b IHa IHb|a b IHa IHb|g args IH] using expr_ind'; cbn; try by rewrite andb_true_r.
  rewrite forallb_app, IHa, IHb. by rewrite holds_and.
Qed.
Lemma holds_conjoin α e es :
  holds (sem α (conjoin e es)) = forallb (fun c => holds (sem α c)) (e :: es).
Proof.
  unfold conjoin. revert e. induction es as [|c es IH]; intros e; cbn [fold_left]; [cbn; by rewrite andb_true_r|].
  rewrite IH. cbn. rewrite holds_and. by rewrite andb_assoc.
Qed.
Lemma conjuncts_conjoin e es : conjuncts (conjoin e es) = conjuncts e ++ concat (map conjuncts es).
Proof.
  unfold conjoin. revert e. induction es as [|c es IH]; intros e; cbn [fold_left]; [by rewrite app_nil_r|].
  rewrite IH. cbn. by rewrite <- app_assoc.
Qed.
Lemma columns_conjoin e es : columns (conjoin e es) = columns e ++ concat (map columns es).
Proof.
  unfold conjoin. revert e. induction es as [|c es IH]; intros e; cbn [fold_left]; [by rewrite app_nil_r|].
  rewrite IH. cbn. by rewrite <- app_assoc.
Qed.
(** Not a conjunction. *)
Definition atomic (e : expr) : Prop := conjuncts e = [e].
Lemma conjuncts_atomic e : Forall atomic (conjuncts e).
Proof.
  induction e as [n i|c|a b IHa IHb|a b IHa IHb|g args IH] using expr_ind'; cbn;
    try by (constructor; [done|constructor]).
  by apply Forall_app.
Qed.
Lemma concat_atomic es : Forall atomic es -> concat (map conjuncts es) = es.
Proof. induction 1 as [|e es He Hes IH]; [done|]. cbn. rewrite He, IH. done. Qed.
Lemma conjuncts_columns (P : text * nat -> Prop) e :
  Forall P (columns e) <-> Forall (fun c => Forall P (columns c)) (conjuncts e).
Proof.
  induction e as [n i|c|a b IHa IHb|a b IHa IHb|g args IH] using expr_ind'; cbn [conjuncts];
    try by rewrite Forall_singleton.
  cbn. rewrite !Forall_app, IHa, IHb. done.
Qed.

(** Which conjuncts are taken to be key pairs. *)
Definition dropped (ps : list (stable * stable)) (c : expr) : bool :=
  match c with EEq (ECol a _) (ECol b _) => is_pair a b ps | _ => false end.
Lemma residual_conjuncts ps e :
  match residual ps e with None => [] | Some x => conjuncts x end =
  filter (fun c => dropped ps c = false) (conjuncts e).
Proof.
  induction e as [n i|c|a b IHa IHb|a b IHa IHb|g args IH] using expr_ind'; cbn [residual conjuncts].
  - by rewrite filter_cons_True.
  - by rewrite filter_cons_True.
  - destruct a as [n i| | | |]; try by rewrite filter_cons_True.
    destruct b as [n' i'| | | |]; try by rewrite filter_cons_True.
    destruct (is_pair n n' ps) eqn:E.
    + rewrite filter_cons_False; [done|]. cbn. by rewrite E.
    + by rewrite filter_cons_True.
  - rewrite filter_app, <- IHa, <- IHb.
    destruct (residual ps a), (residual ps b); cbn; by rewrite ?app_nil_r.
  - by rewrite filter_cons_True.
Qed.
Lemma residual_preds_spec e :
  residual_preds e = filter (fun c => dropped (e_pairs e) c = false) (conjuncts (e_filter e)).
Proof. apply residual_conjuncts. Qed.
