(** A stable insertion sort, standing for the stable [sort_by] of Rust slices, and
    sorted association lists, standing for [BTreeMap]. *)
From Coq Require Import ZArith Lia.
From stdpp Require Import prelude list sorting.

Section isort.
  Context {A : Type} (le : A -> A -> bool).
  Fixpoint isort_insert (x : A) (l : list A) : list A :=
    match l with
    | [] => [x]
    | y :: l' => if le x y then x :: y :: l' else y :: isort_insert x l'
    end.
  Definition isort (l : list A) : list A := foldr isort_insert [] l.

  Lemma isort_insert_perm x l : isort_insert x l ≡ₚ x :: l.
  Proof.
    induction l as [|y l IH]; cbn; [done|]. destruct (le x y); [done|].
    rewrite IH. apply Permutation_swap.
  Qed.
  Lemma isort_perm l : isort l ≡ₚ l.
  Proof. induction l as [|x l IH]; cbn; [done|]. rewrite isort_insert_perm. by rewrite IH. Qed.
  Lemma isort_elem x l : x ∈ isort l <-> x ∈ l.
  Proof. by rewrite isort_perm. Qed.

  Context (Htot : forall x y, le x y = true \/ le y x = true)
          (Htr : forall x y z, le x y = true -> le y z = true -> le x z = true).
  Lemma isort_insert_sorted x l :
    StronglySorted (fun a b => le a b = true) l -> StronglySorted (fun a b => le a b = true) (isort_insert x l).
  Proof.
    induction 1 as [|y l Hs IH Hall]; cbn; [repeat constructor|].
    destruct (le x y) eqn:E.
    - constructor; [by constructor|]. constructor; [done|].
      eapply Forall_impl; [exact Hall|]. intros z Hz. by eapply Htr.
    - constructor; [done|]. rewrite isort_insert_perm. constructor; [|done].
      destruct (Htot x y) as [H|H]; [congruence|done].
  Qed.
  Lemma isort_sorted l : StronglySorted (fun a b => le a b = true) (isort l).
  Proof. induction l as [|x l IH]; cbn; [constructor|]. by apply isort_insert_sorted. Qed.
  (** An already sorted list is left alone. *)
  Lemma isort_id l : StronglySorted (fun a b => le a b = true) l -> isort l = l.
  Proof.
    induction 1 as [|x l Hs IH Hall]; cbn; [done|]. fold (isort l). rewrite IH.
    destruct l as [|y l]; cbn; [done|]. inversion Hall as [|?? Hxy]; subst. by rewrite Hxy.
  Qed.
End isort.

(** [sort_by_key] ascending and descending. *)
Definition sort_asc {A} (key : A -> Z) (l : list A) : list A := isort (fun x y => Z.leb (key x) (key y)) l.
Definition sort_desc {A} (key : A -> Z) (l : list A) : list A := isort (fun x y => Z.leb (key y) (key x)) l.

Lemma sort_asc_perm {A} (key : A -> Z) l : sort_asc key l ≡ₚ l.
Proof. apply isort_perm. Qed.
Lemma sort_desc_perm {A} (key : A -> Z) l : sort_desc key l ≡ₚ l.
Proof. apply isort_perm. Qed.
Lemma sort_asc_sorted {A} (key : A -> Z) l :
  StronglySorted (fun x y => (key x <= key y)%Z) (sort_asc key l).
Proof.
  unfold sort_asc. eapply StronglySorted_ind with (P := StronglySorted (fun x y => (key x <= key y)%Z));
    [constructor| |apply (isort_sorted (fun x y => Z.leb (key x) (key y)))]; cbn.
  - intros a l' _ IH Hall. constructor; [done|]. eapply Forall_impl; [exact Hall|]. intros b Hb. cbn in Hb. lia.
  - intros x y. lia.
  - intros x y z. lia.
Qed.
Lemma sort_desc_sorted {A} (key : A -> Z) l :
  StronglySorted (fun x y => (key y <= key x)%Z) (sort_desc key l).
Proof.
  unfold sort_desc. eapply StronglySorted_ind with (P := StronglySorted (fun x y => (key y <= key x)%Z));
    [constructor| |apply (isort_sorted (fun x y => Z.leb (key y) (key x)))]; cbn.
  - intros a l' _ IH Hall. constructor; [done|]. eapply Forall_impl; [exact Hall|]. intros b Hb. cbn in Hb. lia.
  - intros x y. lia.
  - intros x y z. lia.
Qed.

(** [BTreeMap::insert] on a list sorted by key. *)
Fixpoint bt_insert {V} (k : Z) (v : V) (l : list (Z * V)) : list (Z * V) :=
  match l with
  | [] => [(k, v)]
  | (k', v') :: l' =>
      if Z.ltb k k' then (k, v) :: l
      else if Z.eqb k k' then (k, v) :: l'
      else (k', v') :: bt_insert k v l'
  end.
Definition bt_of_list {V} (l : list (Z * V)) : list (Z * V) :=
  foldl (fun m p => bt_insert p.1 p.2 m) [] l.

Definition bt_sorted {V} (l : list (Z * V)) : Prop := StronglySorted (fun a b => (a.1 < b.1)%Z) l.
Lemma bt_insert_elem {V} k (v : V) l p : p ∈ bt_insert k v l -> p = (k, v) \/ p ∈ l.
Proof.
  induction l as [|[k' v'] l IH]; cbn; [set_solver|]. destruct (Z.ltb k k'); [set_solver|].
  destruct (Z.eqb k k'); [set_solver|]. intros [->|H]%elem_of_cons; [set_solver|]. destruct (IH H); set_solver.
Qed.
Lemma bt_insert_keys {V} k (v : V) l x : x ∈ (bt_insert k v l).*1 <-> x = k \/ x ∈ l.*1.
Proof.
  induction l as [|[k' v'] l IH]; cbn; [set_solver|]. destruct (Z.ltb k k'); cbn; [set_solver|].
  destruct (Z.eqb k k') eqn:E; cbn; rewrite ?elem_of_cons; [apply Z.eqb_eq in E; subst; set_solver|].
  rewrite IH. tauto.
Qed.
Lemma bt_insert_sorted {V} k (v : V) l : bt_sorted l -> bt_sorted (bt_insert k v l).
Proof.
  unfold bt_sorted. induction 1 as [|[k' v'] l Hs IH Hall]; cbn; [repeat constructor|].
  destruct (Z.ltb k k') eqn:E.
  - constructor; [by constructor|]. constructor; [cbn; lia|].
    eapply Forall_impl; [exact Hall|]. intros q Hq. cbn in *. lia.
  - destruct (Z.eqb k k') eqn:E'.
    + constructor; [done|]. eapply Forall_impl; [exact Hall|]. intros q Hq. cbn in *. lia.
    + constructor; [done|]. apply Forall_forall. intros q [->|Hq]%bt_insert_elem; cbn; [lia|].
      rewrite Forall_forall in Hall. by apply Hall.
Qed.
Lemma bt_insert_new {V} k (v : V) l : bt_sorted l -> (k, v) ∈ bt_insert k v l.
Proof.
  induction l as [|[k' v'] l IH]; cbn; [set_solver|]. inversion 1; subst.
  destruct (Z.ltb k k'); [set_solver|]. destruct (Z.eqb k k'); [set_solver|]. apply elem_of_cons. right. auto.
Qed.
Lemma bt_insert_old {V} k (v : V) l p : p ∈ l -> p.1 <> k -> p ∈ bt_insert k v l.
Proof.
  induction l as [|[k' v'] l IH]; cbn; [set_solver|]. intros [->|H]%elem_of_cons Hn; cbn in Hn.
  - destruct (Z.ltb k k'); [set_solver|]. destruct (Z.eqb_spec k k'); [congruence|]. set_solver.
  - destruct (Z.ltb k k'); [set_solver|]. destruct (Z.eqb k k'); [set_solver|].
    apply elem_of_cons. right. auto.
Qed.
Lemma bt_foldl_elem {V} (l m : list (Z * V)) p :
  p ∈ foldl (fun m p => bt_insert p.1 p.2 m) m l -> p ∈ m \/ p ∈ l.
Proof.
  revert m. induction l as [|[k v] l IH]; intros m; cbn; [by left|].
  intros [[->|H]%bt_insert_elem|H]%IH; set_solver.
Qed.
Lemma bt_foldl_keys {V} (l m : list (Z * V)) x :
  x ∈ (foldl (fun m p => bt_insert p.1 p.2 m) m l).*1 <-> x ∈ m.*1 \/ x ∈ l.*1.
Proof.
  revert m. induction l as [|[k v] l IH]; intros m; cbn; [set_solver|].
  rewrite IH, bt_insert_keys. cbn. set_solver.
Qed.
Lemma bt_foldl_sorted {V} (l m : list (Z * V)) :
  bt_sorted m -> bt_sorted (foldl (fun m p => bt_insert p.1 p.2 m) m l).
Proof.
  revert m. induction l as [|[k v] l IH]; intros m Hm; cbn; [done|]. by apply IH, bt_insert_sorted.
Qed.
Lemma bt_sorted_NoDup {V} (l : list (Z * V)) : bt_sorted l -> NoDup l.*1.
Proof.
  induction 1 as [|[k v] l Hs IH Hall]; cbn; constructor; [|done].
  intros ([k' v'] & Hk & Hp)%elem_of_list_fmap. cbn in Hk. subst k'.
  rewrite Forall_forall in Hall. specialize (Hall _ Hp). cbn in Hall. lia.
Qed.
Lemma bt_sorted_filter {V} (P : Z * V -> Prop) `{forall x, Decision (P x)} (l : list (Z * V)) :
  bt_sorted l -> bt_sorted (filter P l).
Proof.
  induction 1 as [|p l Hs IH Hall]; [constructor|]. rewrite filter_cons. destruct (decide (P p)); [|done].
  constructor; [done|]. apply Forall_forall. intros q [_ Hq]%elem_of_list_filter.
  rewrite Forall_forall in Hall. by apply Hall.
Qed.

(** A sort puts its result in any order that its comparison respects. *)
Lemma isort_insert_R {A} (le : A -> A -> bool) (R : A -> A -> Prop) x l :
  (forall a b, le a b = true -> R a b) -> (forall a b, le a b = false -> R b a) ->
  (forall a b c, R a b -> R b c -> R a c) ->
  StronglySorted R l -> StronglySorted R (isort_insert le x l).
Proof.
  intros H1 H2 H3. induction 1 as [|y l Hs IH Hall]; cbn; [repeat constructor|].
  destruct (le x y) eqn:E.
  - constructor; [by constructor|]. constructor; [by apply H1|].
    eapply Forall_impl; [exact Hall|]. intros z Hz. eapply H3; [by apply H1|done].
  - constructor; [done|]. rewrite isort_insert_perm. constructor; [by apply H2|done].
Qed.
Lemma isort_R {A} (le : A -> A -> bool) (R : A -> A -> Prop) l :
  (forall a b, le a b = true -> R a b) -> (forall a b, le a b = false -> R b a) ->
  (forall a b c, R a b -> R b c -> R a c) -> StronglySorted R (isort le l).
Proof.
  intros H1 H2 H3. induction l as [|x l IH]; cbn; [constructor|]. by apply isort_insert_R.
Qed.
