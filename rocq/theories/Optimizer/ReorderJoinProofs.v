(** Rows of joins as solutions: assignments of rows to relations that satisfy predicates. *)
From Coq Require Import Lia.
From stdpp Require Import prelude list gmap.
From Verif.Lib Require Import Text.
From Verif.Optimizer Require Import ReorderModel ReorderSpec ReorderProofs.

(** ** Lists *)
Lemma bind_app_l {A B} (f : A -> list B) (l k : list A) : (l ++ k) ≫= f = (l ≫= f) ++ (k ≫= f).
Proof. apply bind_app. Qed.
Lemma bind_assoc {A B C} (l : list A) (f : A -> list B) (g : B -> list C) :
  (l ≫= f) ≫= g = l ≫= fun a => f a ≫= g.
Proof. induction l as [|a l IH]; [done|]. rewrite !bind_cons, bind_app. by f_equal. Qed.
Lemma bind_map {A B C} (l : list A) (f : A -> B) (g : B -> list C) :
  map f l ≫= g = l ≫= fun a => g (f a).
Proof. induction l as [|a l IH]; [done|]. cbn [map]. rewrite !bind_cons. by f_equal. Qed.
Lemma map_bind {A B C} (l : list A) (f : A -> list B) (g : B -> C) :
  map g (l ≫= f) = l ≫= fun a => map g (f a).
Proof. induction l as [|a l IH]; [done|]. rewrite !bind_cons, map_app. by f_equal. Qed.
Lemma map_is_bind {A B} (l : list A) (f : A -> B) : map f l = l ≫= fun a => [f a].
Proof. induction l as [|a l IH]; [done|]. cbn [map]. rewrite !bind_cons. cbn. by f_equal. Qed.
Lemma bind_ext_in {A B} (f g : A -> list B) (l : list A) :
  (forall a, a ∈ l -> f a = g a) -> l ≫= f = l ≫= g.
Proof. intros H. apply Forall_bind_ext. by apply Forall_forall. Qed.
Lemma bind_perm_in {A B} (f g : A -> list B) (l : list A) :
  (forall a, a ∈ l -> f a ≡ₚ g a) -> l ≫= f ≡ₚ l ≫= g.
Proof.
  induction l as [|a l IH]; intros H; [done|]. rewrite !bind_cons. f_equiv.
  - apply H. left.
  - apply IH. intros b Hb. apply H. by right.
Qed.
Lemma bind_nil_r {A B} (l : list A) : (l ≫= fun _ : A => [] : list B) = [].
Proof. induction l as [|a l IH]; [done|]. by rewrite bind_cons. Qed.
Lemma bind_app_r {A B} (l : list A) (f g : A -> list B) :
  l ≫= (fun a => f a ++ g a) ≡ₚ (l ≫= f) ++ (l ≫= g).
Proof.
  induction l as [|a l IH]; [done|]. rewrite !bind_cons, IH.
  rewrite <- !(assoc (++)). f_equiv. rewrite !(assoc (++)). f_equiv. apply (comm (++)).
Qed.
Lemma bind_swap {A B C} (l : list A) (k : list B) (f : A -> B -> list C) :
  (l ≫= fun a => k ≫= fun b => f a b) ≡ₚ (k ≫= fun b => l ≫= fun a => f a b).
Proof.
  induction l as [|a l IH].
  - rewrite (bind_ext_in (fun b : B => ([] : list A) ≫= fun a => f a b) (fun _ => []) k) by done.
    by rewrite bind_nil_r.
  - rewrite bind_cons, IH.
    rewrite <- bind_app_r. apply bind_perm_in. intros b _. by rewrite bind_cons.
Qed.

(** ** Assignments *)
Fixpoint asgs (rows : nat -> list row) (ids : list nat) : list asg :=
  match ids with
  | [] => [∅]
  | i :: ids' => rows i ≫= fun r => asgs rows ids' ≫= fun a => [<[i := r]> a]
  end.
Lemma asgs_app rows l k :
  asgs rows (l ++ k) = asgs rows l ≫= fun a => asgs rows k ≫= fun b => [a ∪ b].
Proof.
  induction l as [|i l IH]; cbn [asgs app].
  - rewrite bind_singleton. rewrite (bind_ext_in _ (fun b => [b])).
    + rewrite <- map_is_bind. by rewrite map_id.
    + intros b _. by rewrite (left_id ∅ (∪)).
  - rewrite bind_assoc. apply bind_ext_in. intros r _. rewrite bind_assoc, IH, bind_assoc.
    apply bind_ext_in. intros a _. rewrite bind_assoc, bind_singleton.
    apply bind_ext_in. intros b _. rewrite bind_singleton. by rewrite insert_union_l.
Qed.
Lemma asgs_perm rows l k : NoDup l -> l ≡ₚ k -> asgs rows l ≡ₚ asgs rows k.
Proof.
  intros Hl Hp. revert Hl. induction Hp as [|i l k Hp IH|i j l|l1 l2 l3 H12 IH12 H23 IH23]; intros Hl.
  - done.
  - cbn [asgs]. apply bind_perm_in. intros r _. apply bind_Permutation. apply IH.
    by inversion Hl.
  - cbn [asgs]. inversion_clear Hl as [|?? Hi Hl'].
    assert (Hij : j <> i) by (intros ->; apply Hi; left).
    rewrite (bind_ext_in _ (fun r => rows i ≫= fun s => asgs rows l ≫= fun a => [<[j := r]> (<[i := s]> a)])).
    2:{ intros r _. rewrite bind_assoc. apply bind_ext_in. intros s _. rewrite bind_assoc.
        apply bind_ext_in. intros a _. by rewrite bind_singleton. }
    rewrite bind_swap. apply bind_perm_in. intros s _.
    rewrite bind_assoc. apply bind_perm_in. intros r _. rewrite bind_assoc.
    apply bind_perm_in. intros a _. rewrite bind_singleton. by rewrite insert_commute.
  - rewrite IH12 by done. apply IH23. by rewrite <- H12.
Qed.
Lemma asgs_dom rows ids a : a ∈ asgs rows ids -> forall i, is_Some (a !! i) <-> i ∈ ids.
Proof.
  revert a. induction ids as [|j ids IH]; intros a Ha i; cbn [asgs] in Ha.
  - apply elem_of_list_singleton in Ha as ->. rewrite lookup_empty. split; [by intros []|by intros ?%elem_of_nil].
  - apply elem_of_list_bind in Ha as (r & Ha & Hr). apply elem_of_list_bind in Ha as (b & Ha & Hb).
    apply elem_of_list_singleton in Ha as ->.
    rewrite elem_of_cons. destruct (decide (i = j)) as [->|Hij].
    + rewrite lookup_insert. split; [by left|by eexists].
    + rewrite lookup_insert_ne by done. rewrite (IH b Hb). naive_solver.
Qed.
Lemma aval_union_l (a b : asg) c : is_Some (a !! c.1) -> aval (a ∪ b) c = aval a c.
Proof. intros [r Hr]. unfold aval. by rewrite (lookup_union_Some_l _ _ _ _ Hr), Hr. Qed.
Lemma aval_union_r (a b : asg) c : a !! c.1 = None -> aval (a ∪ b) c = aval b c.
Proof. intros Hr. unfold aval. by rewrite (lookup_union_r _ _ _ Hr). Qed.

(** ** Solutions *)
Definition sols {B} (P : asg -> bool) (F : asg -> B) (A : list asg) : list B :=
  A ≫= fun a => if P a then [F a] else [].
Lemma sols_map {B C} (P : asg -> bool) (F : asg -> B) (h : B -> C) A :
  map h (sols P F A) = sols P (fun a => h (F a)) A.
Proof. unfold sols. rewrite map_bind. apply bind_ext_in. intros a _. by destruct (P a). Qed.
Lemma sols_ext {B} (P Q : asg -> bool) (F G : asg -> B) A :
  (forall a, a ∈ A -> P a = Q a) -> (forall a, a ∈ A -> P a = true -> F a = G a) ->
  sols P F A = sols Q G A.
Proof.
  intros HP HF. unfold sols. apply bind_ext_in. intros a Ha. rewrite <- (HP a Ha).
  destruct (P a) eqn:E; [|done]. by rewrite (HF a Ha E).
Qed.
Lemma sols_perm {B} (P : asg -> bool) (F : asg -> B) A A' : A ≡ₚ A' -> sols P F A ≡ₚ sols P F A'.
Proof. intros H. unfold sols. by rewrite H. Qed.
Lemma join_rows_perm keep L L' R R' :
  L ≡ₚ L' -> R ≡ₚ R' -> join_rows keep L R ≡ₚ join_rows keep L' R'.
Proof.
  intros HL HR. unfold join_rows. rewrite HL. apply bind_perm_in. intros l _. by rewrite HR.
Qed.
(** A join of solutions is the solutions of the join. *)
Lemma join_sols keep P1 P2 P (F1 F2 F : asg -> row) (A B : list asg) :
  (forall a b, a ∈ A -> b ∈ B -> P (a ∪ b) = P1 a && P2 b && keep (F1 a) (F2 b)) ->
  (forall a b, a ∈ A -> b ∈ B -> F (a ∪ b) = F1 a ++ F2 b) ->
  join_rows keep (sols P1 F1 A) (sols P2 F2 B) = sols P F (A ≫= fun a => B ≫= fun b => [a ∪ b]).
Proof.
  intros HP HF. unfold join_rows, sols. rewrite !bind_assoc. apply bind_ext_in. intros a Ha.
  rewrite bind_assoc.
  destruct (P1 a) eqn:E1.
  - rewrite bind_singleton, bind_assoc. apply bind_ext_in. intros b Hb. rewrite bind_singleton.
    rewrite HP, HF, E1 by done. cbn [andb].
    destruct (P2 b) eqn:E2; [rewrite bind_singleton; done|done].
  - symmetry. rewrite (bind_ext_in _ (fun _ => [])); [by rewrite bind_nil_r|].
    intros b Hb. rewrite bind_singleton, HP, E1 by done. done.
Qed.

(** ** Plans *)
Lemma join_rows_width keep L R wl wr :
  Forall (fun r => length r = wl) L -> Forall (fun r => length r = wr) R ->
  Forall (fun r => length r = wl + wr) (join_rows keep L R).
Proof.
  rewrite !Forall_forall. intros HL HR r Hr. unfold join_rows in Hr.
  apply elem_of_list_bind in Hr as (a & Hr & Ha). apply elem_of_list_bind in Hr as (b & Hr & Hb).
  destruct (keep a b); [|by apply elem_of_nil in Hr].
  apply elem_of_list_singleton in Hr as ->. rewrite app_length, HL, HR by done. done.
Qed.
Lemma project_width proj rs w :
  Forall (fun r => length r = w) rs ->
  Forall (fun r => length r = match proj with None => w | Some cols => length cols end)
    (map (project proj) rs).
Proof.
  intros H. apply Forall_map. eapply Forall_impl; [exact H|]. intros r Hr.
  destruct proj as [cols|]; cbn; [|done]. unfold pick. by rewrite map_length.
Qed.
Lemma eval_width p : wf p -> Forall (fun r => length r = width p) (eval p).
Proof.
  induction p as [agg w rows|l IHl r IHr on ns f proj|l IHl r IHr f proj|l IHl r IHr|cols input IH];
    cbn [wf eval width].
  - done.
  - intros (Hl & Hr & _). apply project_width, join_rows_width; auto.
  - intros (Hl & Hr & _). apply project_width, join_rows_width; auto.
  - intros (Hl & Hr). apply join_rows_width; auto.
  - intros H. apply Forall_map. eapply Forall_impl; [by apply IH|]. intros r _. cbn.
    unfold pick. by rewrite map_length.
Qed.
Lemma cell_at_apick α m i : cell_at (apick α m) i = match m !! i with Some c => aval α c | None => None end.
Proof.
  unfold cell_at, apick. rewrite list_lookup_fmap. by destruct (m !! i).
Qed.
Lemma pick_apick α m cols out :
  pick_cols m cols = Some out -> pick cols (apick α m) = apick α out.
Proof.
  unfold pick_cols, pick. intros H%mapM_Some. induction H as [|i c cols out Hc _ IH]; [done|].
  cbn. rewrite cell_at_apick, Hc. f_equal. done.
Qed.
