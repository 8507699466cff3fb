(** List lemmas used by several components. *)
From stdpp Require Import prelude list.

Lemma elem_of_flat_map {A B} (f : A -> list B) (l : list A) (y : B) :
  y ∈ flat_map f l <-> exists x, x ∈ l /\ y ∈ f x.
Proof.
  rewrite elem_of_list_In, in_flat_map.
  setoid_rewrite elem_of_list_In. done.
Qed.

Lemma elem_of_map_iff {A B} (f : A -> B) (l : list A) (y : B) :
  y ∈ map f l <-> exists x, y = f x /\ x ∈ l.
Proof. apply elem_of_list_fmap. Qed.

Lemma elem_of_seq_iff n m x : x ∈ seq n m <-> n <= x < n + m.
Proof. apply elem_of_seq. Qed.

Lemma forallb_elem {A} (f : A -> bool) (l : list A) :
  forallb f l = true <-> (forall x, x ∈ l -> f x = true).
Proof. rewrite forallb_forall. setoid_rewrite elem_of_list_In. done. Qed.

Lemma NoDup_concat_iff {A} (ls : list (list A)) :
  NoDup (concat ls) <->
  (forall l, l ∈ ls -> NoDup l) /\
  (forall i j l l' x, ls !! i = Some l -> ls !! j = Some l' -> x ∈ l -> x ∈ l' -> i = j).
Proof.
  induction ls as [|l ls IH]; simpl.
  - split; [|intros; constructor]. intros _. split; [set_solver|]. intros i j; by rewrite lookup_nil.
  - rewrite NoDup_app, IH. split.
    + intros (H1 & H2 & H3 & H4). split.
      * intros l' [->|Hl]%elem_of_cons; auto.
      * intros [|i] [|j] l1 l2 x Hi Hj Hx1 Hx2; simplify_eq/=; [done| | |].
        -- exfalso. eapply H2; [exact Hx1|]. apply elem_of_list_In, in_concat.
           exists l2. split; apply elem_of_list_In; [eapply elem_of_list_lookup_2; eauto|done].
        -- exfalso. eapply H2; [exact Hx2|]. apply elem_of_list_In, in_concat.
           exists l1. split; apply elem_of_list_In; [eapply elem_of_list_lookup_2; eauto|done].
        -- f_equal. eapply H4; eauto.
    + intros (H1 & H2). split_and!.
      * apply H1. set_solver.
      * intros x Hx Hc. apply elem_of_list_In, in_concat in Hc as (l' & Hl' & Hx').
        apply elem_of_list_In in Hl', Hx'. apply elem_of_list_lookup in Hl' as [j Hj].
        by specialize (H2 0 (S j) l l' x eq_refl Hj Hx Hx').
      * intros l' Hl. apply H1. set_solver.
      * intros i j l1 l2 x Hi Hj Hx1 Hx2.
        specialize (H2 (S i) (S j) l1 l2 x Hi Hj Hx1 Hx2). lia.
Qed.

Lemma elem_of_concat {A} (ls : list (list A)) x :
  x ∈ concat ls <-> exists l, l ∈ ls /\ x ∈ l.
Proof.
  rewrite elem_of_list_In, in_concat.
  split; intros (l & H1 & H2); exists l; split; by apply elem_of_list_In.
Qed.

Lemma NoDup_length_bound (l : list nat) n :
  NoDup l -> (forall x, x ∈ l -> x < n) -> length l <= n.
Proof.
  intros Hnd Hlt. rewrite <- (seq_length n 0).
  apply (NoDup_incl_length (A:=nat)); [by apply NoDup_ListNoDup|].
  intros x Hx. apply in_seq. split; [lia|]. simpl. apply Hlt. by apply elem_of_list_In.
Qed.

Lemma NoDup_map_inj {A B} (f : A -> B) (l : list A) :
  (forall x y, x ∈ l -> y ∈ l -> f x = f y -> x = y) -> NoDup l -> NoDup (map f l).
Proof.
  induction l as [|a l IH]; simpl; intros Hinj Hnd; [constructor|].
  apply NoDup_cons in Hnd as [Hni Hnd]. apply NoDup_cons. split.
  - intros (x & Hx & Hin)%elem_of_map_iff. apply Hni.
    assert (a = x) as -> by (apply Hinj; set_solver). done.
  - apply IH; [|done]. intros x y Hx Hy. apply Hinj; set_solver.
Qed.

Lemma NoDup_flat_map {A B} (f : A -> list B) (l : list A) :
  NoDup l -> (forall x, x ∈ l -> NoDup (f x)) ->
  (forall x y z, x ∈ l -> y ∈ l -> z ∈ f x -> z ∈ f y -> x = y) ->
  NoDup (flat_map f l).
Proof.
  induction l as [|a l IH]; simpl; intros Hnd Hf Hdisj; [constructor|].
  apply NoDup_cons in Hnd as [Hni Hnd]. apply NoDup_app. split_and!.
  - apply Hf. set_solver.
  - intros z Hz (y & Hy & Hz')%elem_of_flat_map. apply Hni.
    assert (a = y) as -> by (eapply Hdisj; set_solver). done.
  - apply IH; [done|intros; apply Hf; set_solver|].
    intros x y z Hx Hy. apply Hdisj; set_solver.
Qed.
