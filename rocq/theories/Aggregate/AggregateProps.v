(** C88: aggregates do not depend on how the rows are distributed. *)
From Coq Require Import ZArith NArith ZifyN ZifyBool Lia.
From stdpp Require Import prelude list gmap.
From Verif.Functions Require Import IntModel.
From Verif.Aggregate Require Import AggregateModel.
Local Open Scope Z_scope.

Lemma foldl_concat {A B} (f : A -> B -> A) a l : foldl f a (concat l) = foldl (foldl f) a l.
Proof. revert a. induction l as [|x l IH]; intros a; [done|]. cbn [concat foldl]. by rewrite foldl_app, IH. Qed.
(** One invariant for the states of partitions and for merged states. *)
Lemma distributed_invariant {S R} (init : S) update merge (rep : S -> list R -> Prop) :
  rep init [] ->
  (forall s l r, rep s l -> rep (update s r) (l ++ [r])) ->
  (forall s l s' l', rep s l -> rep s' l' -> rep (merge s s') (l ++ l')) ->
  forall parts, rep (distributed init update merge parts) (concat parts).
Proof.
  intros H0 Hu Hm parts. unfold distributed.
  assert (forall l, rep (foldl update init l) l) as Hp.
  { intros l. induction l as [|r l IH] using rev_ind; [done|]. rewrite foldl_app. cbn [foldl]. by apply Hu. }
  induction parts as [|p parts IH] using rev_ind; [done|]. rewrite map_app, foldl_app, concat_app. cbn [map foldl concat]. rewrite app_nil_r.
  by apply Hm.
Qed.

(** ** mode *)
Section Mode.
Context {V : Type} `{Countable V} (ltb : V -> V -> bool).
(** How often a value occurs. *)
Definition occurrences (v : V) (rows : list (option V)) : Z := Z.of_nat (length (filter (fun r => r = Some v) rows)).
(** The most frequent value, of these the lowest or the highest one. *)
Definition is_mode (lowest : bool) (rows : list (option V)) (v : V) : Prop :=
  0 < occurrences v rows /\
  forall w, occurrences w rows <= occurrences v rows /\
    (occurrences w rows = occurrences v rows -> w <> v -> if lowest then ltb v w = true else ltb w v = true).

Definition counts_rep (m : gmap V Z) (rows : list (option V)) : Prop :=
  forall v, m !! v = if decide (0 < occurrences v rows) then Some (occurrences v rows) else None.
Lemma occurrences_app v l1 l2 : occurrences v (l1 ++ l2) = occurrences v l1 + occurrences v l2.
Proof. unfold occurrences. rewrite filter_app, app_length. lia. Qed.
Lemma occurrences_nonneg v l : 0 <= occurrences v l.
Proof. unfold occurrences. lia. Qed.
Lemma occurrences_one v w : occurrences v [Some w] = if decide (w = v) then 1 else 0.
Proof. unfold occurrences. cbn. destruct (decide (w = v)) as [->|Hne]; [by rewrite decide_True|]. by rewrite decide_False by congruence. Qed.
Lemma occurrences_none v : occurrences v [None] = 0.
Proof. unfold occurrences. cbn. by rewrite decide_False. Qed.
Lemma add_count_lookup (m : gmap V Z) v c w : add_count m v c !! w = if decide (v = w) then Some (default 0 (m !! v) + c) else m !! w.
Proof. unfold add_count. case_decide; [subst; by rewrite lookup_insert|by rewrite lookup_insert_ne]. Qed.
Lemma merge_lookup (l : list (V * Z)) (m : gmap V Z) v : NoDup l.*1 ->
  foldl (fun (m : gmap V Z) '(v, c) => add_count m v c) m l !! v =
    match (list_to_map l : gmap V Z) !! v with Some c => Some (default 0 (m !! v) + c) | None => m !! v end.
Proof.
  revert m. induction l as [|[w c] l IH]; intros m Hnd; [done|]. cbn [foldl fmap list_fmap fst] in *. apply NoDup_cons in Hnd as [Hw Hnd].
  rewrite IH by done. cbn [list_to_map foldr]. change (foldr _ ∅ l) with (list_to_map l : gmap V Z). unfold uncurry. rewrite !add_count_lookup.
  destruct (decide (w = v)) as [->|Hne].
  - change (list_to_map ((v, c) :: l)) with (<[v := c]> (list_to_map l : gmap V Z)). rewrite lookup_insert.
    assert ((list_to_map l : gmap V Z) !! v = None) as -> by (by apply not_elem_of_list_to_map_1). done.
  - change (list_to_map ((w, c) :: l)) with (<[w := c]> (list_to_map l : gmap V Z)). by rewrite lookup_insert_ne.
Qed.
Lemma counts_distributed parts : counts_rep (distributed ∅ mode_update mode_merge parts) (concat parts).
Proof.
  apply (distributed_invariant (∅ : gmap V Z) mode_update mode_merge counts_rep).
  - intros v. rewrite lookup_empty. by case_decide.
  - intros m l r Hm v. rewrite occurrences_app. pose proof (occurrences_nonneg v l) as Hn. destruct r as [w|]; cbn [mode_update].
    + rewrite add_count_lookup, occurrences_one. destruct (decide (w = v)) as [->|Hne].
      * rewrite decide_True by lia. rewrite Hm. destruct (decide (0 < occurrences v l)); unfold default, from_option, id; f_equal; lia.
      * rewrite Z.add_0_r. apply Hm.
    + rewrite occurrences_none, Z.add_0_r. apply Hm.
  - intros m l m' l' Hm Hm' v. unfold mode_merge. rewrite merge_lookup by apply NoDup_fst_map_to_list. rewrite list_to_map_to_list, Hm', Hm, occurrences_app.
    pose proof (occurrences_nonneg v l). pose proof (occurrences_nonneg v l').
    repeat case_decide; cbn [default from_option]; unfold default, id; try lia; f_equal; lia.
Qed.

Context (irreflexive : forall x, ltb x x = false) (transitive : forall x y z, ltb x y = true -> ltb y z = true -> ltb x z = true)
  (total : forall x y, x = y \/ ltb x y = true \/ ltb y x = true).
(** The best of the entries seen. *)
Definition best_entry (lowest : bool) (l : list (V * Z)) (e : V * Z) : Prop :=
  e ∈ l /\ forall w, w ∈ l -> snd w <= snd e /\ (snd w = snd e -> fst w <> fst e -> if lowest then ltb (fst e) (fst w) = true else ltb (fst w) (fst e) = true).
Lemma primitive_best tb l : Forall (fun e : V * Z => 0 < snd e) l -> NoDup l.*1 ->
  match foldl (mode_step ltb tb) (None, 0) l with
  | (None, c) => l = [] /\ c = 0
  | (Some v, c) => best_entry (bool_decide (tb = Lowest)) l (v, c)
  end.
Proof.
  induction l as [|[v c] l IH] using rev_ind; [done|]. intros Hp Hnd. apply Forall_app in Hp as [Hp Hc]. apply Forall_cons_1 in Hc as [Hc _]. cbn [snd] in Hc.
  rewrite fmap_app in Hnd. apply NoDup_app in Hnd as (Hnd & Hdis & _). specialize (IH Hp Hnd). rewrite foldl_app. cbn [foldl].
  assert (v ∉ l.*1) as Hv. { intros Hin. apply (Hdis v Hin). cbn. by left. }
  destruct (foldl _ _ l) as [[b|] m].
  - destruct IH as [Hin Hbest]. cbn [mode_step]. destruct (Z.compare_spec c m) as [->|Hlt|Hgt].
    + assert (b <> v) as Hbv. { intros ->. apply Hv. apply elem_of_list_fmap. by exists (v, m). }
      assert (if bool_decide (tb = Lowest) then (ltb v b = true \/ ltb v b = false /\ ltb b v = true) else (ltb b v = true \/ ltb b v = false /\ ltb v b = true)) as Hcase.
      { case_bool_decide; destruct (total b v) as [?|[T|T]]; try done; [right; split; [|done]|by left|by left|right; split; [|done]].
        - destruct (ltb v b) eqn:E; [|done]. pose proof (transitive _ _ _ E T). rewrite irreflexive in *. done.
        - destruct (ltb b v) eqn:E; [|done]. pose proof (transitive _ _ _ E T). rewrite irreflexive in *. done. }
      assert (forall lw : bool, (if lw then ltb v b = true else ltb b v = true) -> (forall w, w ∈ l -> w.2 <= m /\ (w.2 = m -> w.1 <> b -> if lw then ltb b w.1 = true else ltb w.1 b = true)) ->
        best_entry lw (l ++ [(v, m)]) (v, m)) as Hnew.
      { intros lw Hl Hb. split; [apply elem_of_app; right; by left|]. intros w [Hw| ->%elem_of_list_singleton]%elem_of_app; [|done]. cbn [fst snd].
        destruct (Hb w Hw) as [H1 H2]. split; [done|]. intros E Hne. destruct (decide (w.1 = b)) as [->|Hwb]; [by destruct lw|]. specialize (H2 E Hwb).
        destruct lw; eauto. }
      assert (forall lw : bool, (if lw then ltb b v = true else ltb v b = true) -> (forall w, w ∈ l -> w.2 <= m /\ (w.2 = m -> w.1 <> b -> if lw then ltb b w.1 = true else ltb w.1 b = true)) ->
        best_entry lw (l ++ [(v, m)]) (b, m)) as Hold.
      { intros lw Hl Hb. split; [apply elem_of_app; by left|]. intros w [Hw| ->%elem_of_list_singleton]%elem_of_app; [by apply Hb|]. cbn [fst snd]. by split. }
      cbn [fst snd] in Hbest. destruct (decide (tb = Lowest)) as [Et|Et].
      * rewrite (bool_decide_true (tb = Lowest)) in * by done. rewrite (bool_decide_false (tb <> Lowest)) by naive_solver. cbn [andb].
        destruct Hcase as [C|[C1 C2]]; [rewrite C; by apply (Hnew true)|rewrite C1; by apply (Hold true)].
      * rewrite (bool_decide_false (tb = Lowest)) in * by done. rewrite (bool_decide_true (tb <> Lowest)) by done. cbn [andb].
        destruct Hcase as [C|[C1 C2]]; [rewrite C; by apply (Hnew false)|rewrite C1; by apply (Hold false)].
    + split; [apply elem_of_app; by left|]. intros w [Hw| ->%elem_of_list_singleton]%elem_of_app; [by apply Hbest|]. cbn [fst snd]. split; [lia|]. lia.
    + split; [apply elem_of_app; right; by left|]. cbn [fst snd]. intros w [Hw| ->%elem_of_list_singleton]%elem_of_app; [|done].
      destruct (Hbest w Hw) as [H1 _]. cbn [snd] in H1. split; [lia|]. lia.
  - destruct IH as [-> ->]. cbn [mode_step]. destruct (Z.compare_spec c 0); try lia. split; [by left|]. by intros w ->%elem_of_list_singleton.
Qed.
Lemma string_best tb l : NoDup l.*1 ->
  match foldl (max_by_step ltb tb) None l with
  | None => l = []
  | Some e => best_entry (bool_decide (tb <> Highest)) l e
  end.
Proof.
  induction l as [|[v c] l IH] using rev_ind; [done|]. intros Hnd.
  rewrite fmap_app in Hnd. apply NoDup_app in Hnd as (Hnd & Hdis & _). specialize (IH Hnd). rewrite foldl_app. cbn [foldl].
  assert (v ∉ l.*1) as Hv. { intros Hin. apply (Hdis v Hin). cbn. by left. }
  destruct (foldl _ _ l) as [[b m]|].
  - destruct IH as [Hin Hbest]. cbn [max_by_step]. unfold compare_entries. cbn [fst snd] in *.
    assert (b <> v) as Hbv. { intros ->. apply Hv. apply elem_of_list_fmap. by exists (v, m). }
    assert (forall lw : bool, (c < m \/ c = m /\ if lw then ltb b v = true else ltb v b = true) ->
      (forall w, w ∈ l -> w.2 <= m /\ (w.2 = m -> w.1 <> b -> if lw then ltb b w.1 = true else ltb w.1 b = true)) -> best_entry lw (l ++ [(v, c)]) (b, m)) as Hold.
    { intros lw Hl Hb. split; [apply elem_of_app; by left|]. intros w [Hw| ->%elem_of_list_singleton]%elem_of_app; [by apply Hb|]. cbn [fst snd].
      destruct Hl as [Hl|[-> Hl]]; split; try lia; done. }
    assert (forall lw : bool, (m < c \/ c = m /\ if lw then ltb v b = true else ltb b v = true) ->
      (forall w, w ∈ l -> w.2 <= m /\ (w.2 = m -> w.1 <> b -> if lw then ltb b w.1 = true else ltb w.1 b = true)) -> best_entry lw (l ++ [(v, c)]) (v, c)) as Hnew.
    { intros lw Hl Hb. split; [apply elem_of_app; right; by left|]. intros w [Hw| ->%elem_of_list_singleton]%elem_of_app; [|done]. cbn [fst snd].
      destruct (Hb w Hw) as [H1 H2]. split; [lia|]. intros E Hne. destruct Hl as [Hl|[-> Hl]]; [lia|].
      destruct (decide (w.1 = b)) as [->|Hwb]; [by destruct lw|]. specialize (H2 E Hwb). destruct lw; eauto. }
    destruct (Z.compare_spec m c) as [E|Hlt|Hgt]; [|apply Hnew; [by left|done]|apply Hold; [by left|done]].
    assert (ltb b v = true /\ ltb v b = false \/ ltb v b = true /\ ltb b v = false) as Hc.
    { destruct (total b v) as [?|[T|T]]; [done|left|right]; (split; [done|]).
      - destruct (ltb v b) eqn:E'; [|done]. pose proof (transitive _ _ _ E' T). rewrite irreflexive in *. done.
      - destruct (ltb b v) eqn:E'; [|done]. pose proof (transitive _ _ _ E' T). rewrite irreflexive in *. done. }
    destruct tb; [rewrite bool_decide_true in * by done|rewrite bool_decide_true in * by done|rewrite bool_decide_false in * by naive_solver];
      destruct Hc as [[C1 C2]|[C1 C2]]; rewrite ?C1, ?C2; first [apply Hold; [by right|done]|apply Hnew; [by right|done]].
  - subst l. cbn [max_by_step]. split; [by left|]. by intros w ->%elem_of_list_singleton.
Qed.
Lemma best_is_mode lowest rows (m : gmap V Z) l e : counts_rep m rows -> l ≡ₚ map_to_list m -> best_entry lowest l e -> is_mode lowest rows (fst e).
Proof.
  intros Hm Hl [Hin Hb]. destruct e as [v c]. cbn [fst snd] in *.
  assert (forall w d, (w, d) ∈ l <-> 0 < occurrences w rows /\ d = occurrences w rows) as Hl'.
  { intros w d. rewrite Hl, elem_of_map_to_list, Hm. case_decide; naive_solver. }
  apply Hl' in Hin as [Hpos ->]. split; [done|]. intros w. pose proof (occurrences_nonneg w rows) as Hn.
  destruct (decide (0 < occurrences w rows)) as [Hw|Hw].
  - specialize (Hb (w, occurrences w rows)). cbn [fst snd] in Hb. apply Hb. by apply Hl'.
  - split; lia.
Qed.
Lemma mode_unique lowest rows v w : is_mode lowest rows v -> is_mode lowest rows w -> v = w.
Proof.
  intros [_ H1] [_ H2]. destruct (decide (v = w)) as [|Hne]; [done|]. destruct (H1 w) as [A1 A2]. destruct (H2 v) as [B1 B2].
  specialize (A2 ltac:(lia) ltac:(done)). specialize (B2 ltac:(lia) Hne). destruct lowest; pose proof (transitive _ _ _ A2 B2); rewrite irreflexive in *; done.
Qed.
Lemma entries_facts rows (m : gmap V Z) l : counts_rep m rows -> l ≡ₚ map_to_list m ->
  Forall (fun e => 0 < snd e) l /\ NoDup l.*1 /\ (l = [] <-> forall r, r ∈ rows -> r = None).
Proof.
  intros Hm Hl. split; [|split].
  - apply list.Forall_forall. intros [w d] Hw. rewrite Hl, elem_of_map_to_list, Hm in Hw. case_decide; [|done]. injection Hw as <-. done.
  - rewrite Hl. apply NoDup_fst_map_to_list.
  - split.
    + intros ->. intros [v|] Hr; [|done]. exfalso. symmetry in Hl. apply Permutation_nil_r in Hl || apply Permutation_nil in Hl || apply Permutation_sym, Permutation_nil in Hl. apply map_to_list_empty_iff in Hl. subst m.
      specialize (Hm v). rewrite lookup_empty in Hm. case_decide as E; [done|]. apply E. unfold occurrences.
      assert (Some v ∈ filter (fun r => r = Some v) rows) as Hf by (by apply elem_of_list_filter). destruct (filter _ rows); [by apply elem_of_nil in Hf|]. cbn [length]. lia.
    + intros Hr. assert (m = ∅) as ->.
      { apply map_eq. intros v. rewrite lookup_empty, Hm. case_decide as E; [|done]. unfold occurrences in E.
        destruct (filter _ rows) as [|x f] eqn:F; [cbn in E; lia|]. assert (x ∈ filter (fun r => r = Some v) rows) as Hx by (rewrite F; by left).
        apply elem_of_list_filter in Hx as [-> Hx]. by apply Hr in Hx. }
      rewrite map_to_list_empty in Hl. by apply Permutation_nil_r in Hl.
Qed.
(** For every distribution and every order of the hash map, mode is the most frequent value; among several the
    lowest one if asked for, otherwise the highest one. *)
Theorem C88_mode tb parts entries : entries ≡ₚ map_to_list (distributed (∅ : gmap V Z) mode_update mode_merge parts) ->
  (forall v, mode_primitive ltb tb entries = Some v <-> is_mode (bool_decide (tb = Lowest)) (concat parts) v) /\
  (mode_primitive ltb tb entries = None <-> forall r, r ∈ concat parts -> r = None).
Proof.
  intros Hl. pose proof (counts_distributed parts) as Hm. destruct (entries_facts _ _ _ Hm Hl) as (Hp & Hnd & He).
  pose proof (primitive_best tb entries Hp Hnd) as Hb. unfold mode_primitive. destruct (foldl _ _ entries) as [[v|] c]; cbn [fst].
  - pose proof (best_is_mode _ _ _ _ _ Hm Hl Hb) as Hmode. cbn [fst] in Hmode. split.
    + intros w. split; [by intros [= <-]|]. intros Hw. f_equal. by eapply mode_unique.
    + split; [done|]. intros Hr%He. subst entries. destruct Hb as [Hin _]. by apply elem_of_nil in Hin.
  - destruct Hb as [-> ->]. split; [|by rewrite <- He]. intros w. split; [done|]. intros [Hpos _]. exfalso.
    pose proof (proj1 He eq_refl) as Hr. unfold occurrences in Hpos.
    destruct (filter _ (concat parts)) as [|x f] eqn:F; [cbn in Hpos; lia|]. assert (x ∈ filter (fun r => r = Some w) (concat parts)) as Hx by (rewrite F; by left).
    apply elem_of_list_filter in Hx as [-> Hx]. by apply Hr in Hx.
Qed.
(** For strings it is the highest one only if asked for. *)
Theorem C88_mode_string tb parts entries : entries ≡ₚ map_to_list (distributed (∅ : gmap V Z) mode_update mode_merge parts) ->
  (forall v, mode_string ltb tb entries = Some v <-> is_mode (bool_decide (tb <> Highest)) (concat parts) v) /\
  (mode_string ltb tb entries = None <-> forall r, r ∈ concat parts -> r = None).
Proof.
  intros Hl. pose proof (counts_distributed parts) as Hm. destruct (entries_facts _ _ _ Hm Hl) as (Hp & Hnd & He).
  pose proof (string_best tb entries Hnd) as Hb. unfold mode_string. destruct (foldl _ _ entries) as [e|]; cbn [fmap option_fmap option_map].
  - pose proof (best_is_mode _ _ _ _ _ Hm Hl Hb) as Hmode. split.
    + intros w. split; [by intros [= <-]|]. intros Hw. f_equal. by eapply mode_unique.
    + split; [done|]. intros Hr%He. subst entries. destruct Hb as [Hin _]. by apply elem_of_nil in Hin.
  - subst entries. split; [|by rewrite <- He]. intros w. split; [done|]. intros [Hpos _]. exfalso.
    pose proof (proj1 He eq_refl) as Hr. unfold occurrences in Hpos.
    destruct (filter _ (concat parts)) as [|x f] eqn:F; [cbn in Hpos; lia|]. assert (x ∈ filter (fun r => r = Some w) (concat parts)) as Hx by (rewrite F; by left).
    apply elem_of_list_filter in Hx as [-> Hx]. by apply Hr in Hx.
Qed.
End Mode.
Print Assumptions C88_mode.
Print Assumptions C88_mode_string.
Example C88_mode_example :
  let parts := [[Some 5; None; Some 3]; [Some 3; Some 4]; []; [Some 5]] in
  let entries := map_to_list (distributed (∅ : gmap Z Z) mode_update mode_merge parts) in
  (forall x : Z, (x <? x) = false) /\ mode_primitive Z.ltb Any entries = Some 5 /\ mode_primitive Z.ltb Lowest entries = Some 3 /\
  mode_string Z.ltb Any entries = Some 3 /\ mode_string Z.ltb Highest entries = Some 5.
Proof. split; [intros x; lia|]. split_and!; vm_compute; reflexivity. Qed.

(** ** max_by and min_by *)
(** The value of a row whose ordering is extreme; NULL when there is no ordering. *)
Definition is_extreme {V} (is_max : bool) (rows : list (option V * option Z)) (v : option V) (o : Z) : Prop :=
  (v, Some o) ∈ rows /\ forall w p, (w, Some p) ∈ rows -> if is_max then p <= o else o <= p.
Definition by_rep {V} (is_max : bool) (st : by_state V) (rows : list (option V * option Z)) : Prop :=
  match snd st with
  | None => fst st = None /\ forall w p, (w, Some p) ∉ rows
  | Some o => is_extreme is_max rows (fst st) o
  end.
Lemma by_step {V} is_max (st : by_state V) rows rows' (row : option V * option Z) :
  by_rep is_max st rows -> by_rep is_max row rows' -> by_rep is_max (by_update is_max st row) (rows ++ rows').
Proof.
  unfold by_rep, by_update. destruct st as [v [o|]], row as [w [p|]]; cbn [fst snd].
  - intros [H1 H2] [H3 H4].
    destruct (Z.compare_spec p o), is_max; cbn [negb fst snd];
      first [ by (split; [apply elem_of_app; by left|]; intros x q [Hq|Hq]%elem_of_app; [by eapply H2|]; specialize (H4 _ _ Hq); cbv beta iota in H4; lia)
            | (split; [apply elem_of_app; by right|]; intros x q [Hq|Hq]%elem_of_app; [|by eapply H4]; specialize (H2 _ _ Hq); cbv beta iota in H2; lia) ].
  - intros [H1 H2] [_ H4]. split; [apply elem_of_app; by left|]. intros x q [Hq|Hq]%elem_of_app; [by eapply H2|]. by apply H4 in Hq.
  - intros [_ H2] [H3 H4]. cbn [fst snd]. split; [apply elem_of_app; by right|]. intros x q [Hq|Hq]%elem_of_app; [by apply H2 in Hq|by eapply H4].
  - intros [-> H2] [_ H4]. split; [done|]. intros x q [Hq|Hq]%elem_of_app; [by eapply H2|by eapply H4].
Qed.
Theorem C88_max_min_by {V} is_max (parts : list (list (option V * option Z))) :
  let v := fst (distributed (None, None) (by_update is_max) (by_merge is_max) parts) in
  (exists o, is_extreme is_max (concat parts) v o) \/ (v = None /\ forall w p, (w, Some p) ∉ concat parts).
Proof.
  assert (by_rep is_max (distributed (None, None) (by_update is_max) (by_merge is_max) parts) (concat parts)) as H.
  { apply (distributed_invariant (None, None) (by_update is_max) (by_merge is_max) (by_rep is_max)).
    - split; [done|]. intros w p Hin. by apply elem_of_nil in Hin.
    - intros st l [w [p|]] Hs.
      + apply by_step; [done|]. split; [by left|]. intros x q [= -> ->]%elem_of_list_singleton. destruct is_max; lia.
      + unfold by_update, by_rep in *. cbn [fst snd] in *. destruct (snd st) as [o|].
        * destruct Hs as [H1 H2]. split; [apply elem_of_app; by left|]. intros x q [Hq|Hq%elem_of_list_singleton]%elem_of_app; [by eapply H2|done].
        * destruct Hs as [H1 H2]. split; [done|]. intros x q [Hq|Hq%elem_of_list_singleton]%elem_of_app; [by eapply H2|done].
    - intros st l st' l' Hs Hs'. by apply by_step. }
  unfold by_rep in H. cbv zeta. destruct (snd _) as [o|]; [left; by exists o|by right].
Qed.
Print Assumptions C88_max_min_by.
(** If no ordering occurs twice, the result is the same for every distribution and every order of the rows. *)
Theorem C88_max_min_by_same {V} is_max (parts parts' : list (list (option V * option Z))) :
  (forall v w o, (v, Some o) ∈ concat parts -> (w, Some o) ∈ concat parts -> v = w) -> concat parts ≡ₚ concat parts' ->
  fst (distributed (None, None) (by_update is_max) (by_merge is_max) parts) = fst (distributed (None, None) (by_update is_max) (by_merge is_max) parts').
Proof.
  intros Hu Hp. destruct (C88_max_min_by is_max parts) as [(o & H1 & H2)|[-> H1]], (C88_max_min_by is_max parts') as [(o' & H3 & H4)|[-> H3]].
  - rewrite <- Hp in H3. setoid_rewrite <- Hp in H4. specialize (H2 _ _ H3). specialize (H4 _ _ H1). assert (o = o') as <- by (destruct is_max; lia). by eapply Hu.
  - rewrite Hp in H1. by apply H3 in H1.
  - rewrite <- Hp in H3. by apply H1 in H3.
  - done.
Qed.
Print Assumptions C88_max_min_by_same.
Example C88_max_min_by_example :
  let rows := [[(Some 1, Some 10); (Some 2, None)]; []; [(None, Some 30); (Some 3, Some 20)]] in
  distributed (None, None) (by_update true) (by_merge true) rows = (None, Some 30) /\
  distributed (None, None) (by_update false) (by_merge false) rows = (Some 1, Some 10).
Proof. split; vm_compute; reflexivity. Qed.

(** ** try_avg *)
Definition total (rows : list (option Z)) : Z := foldr Z.add 0 (omap id rows).
Definition total_abs (rows : list (option Z)) : Z := foldr (fun x s => Z.abs x + s) 0 (omap id rows).
Definition values (rows : list (option Z)) : Z := Z.of_nat (length (omap id rows)).
(** The nearest whole number to [s / n], away from 0 in the middle; and [s / n] cut towards 0. *)
Definition nearest (s n q : Z) : Prop := 2 * Z.abs (q * n - s) <= n /\ (2 * Z.abs (q * n - s) = n -> Z.abs s < Z.abs (q * n)).
Definition cut (s n q : Z) : Prop := Z.abs (q * n) <= Z.abs s < Z.abs (q * n) + n /\ 0 <= q * s.
Lemma total_app l1 l2 : total (l1 ++ l2) = total l1 + total l2.
Proof. unfold total. rewrite omap_app. induction (omap id l1) as [|x l IH]; [done|]. cbn [app foldr]. lia. Qed.
Lemma total_abs_app l1 l2 : total_abs (l1 ++ l2) = total_abs l1 + total_abs l2.
Proof. unfold total_abs. rewrite omap_app. induction (omap id l1) as [|x l IH]; [done|]. cbn [app foldr]. lia. Qed.
Lemma total_abs_bound l : Z.abs (total l) <= total_abs l.
Proof. unfold total, total_abs. induction (omap id l) as [|x r IH]; [done|]. cbn [foldr]. lia. Qed.
Lemma values_app l1 l2 : values (l1 ++ l2) = values l1 + values l2.
Proof. unfold values. rewrite omap_app, app_length. lia. Qed.
Lemma values_nonneg l : 0 <= values l.
Proof. unfold values. lia. Qed.
Lemma total_none l : values l = 0 -> total l = 0.
Proof. unfold values, total. destruct (omap id l); [done|]. cbn [length]. lia. Qed.
Definition avg_rep (st : avg_state) (rows : list (option Z)) : Prop :=
  failed st = false -> count st = values rows /\ sum st = (if decide (values rows = 0) then None else Some (total rows)).
Definition avg_safe (st : avg_state) : Prop := failed st = false.
Lemma default_sum st rows : avg_rep st rows -> failed st = false -> default 0 (sum st) = total rows.
Proof. intros H F. destruct (H F) as [_ ->]. case_decide as E; [|done]. by rewrite total_none. Qed.
Lemma avg_update_rep f st rows r : avg_rep st rows -> avg_rep (avg_update f st r) (rows ++ [r]).
Proof.
  intros Hr. destruct r as [v|]; cbn [avg_update].
  - destruct (failed st) eqn:F; [unfold avg_rep; congruence|]. rewrite (default_sum st rows) by done. destruct (Hr F) as [Hc _].
    destruct (f _); [|by intros ?]. unfold checked. destruct (fits 64 _); [|by intros ?]. intros _. cbn [count sum].
    rewrite total_app, values_app. change (values [Some v]) with 1. change (total [Some v]) with (v + 0). pose proof (values_nonneg rows). rewrite decide_False by lia. split; [lia|]. f_equal. lia.
  - unfold avg_rep. rewrite total_app, values_app. change (values [None]) with 0. change (total [None]) with 0. rewrite !Z.add_0_r. exact Hr.
Qed.
Lemma avg_part_rep f rows : avg_rep (foldl (avg_update f) avg_init rows) rows.
Proof. induction rows as [|r rows IH] using rev_ind; [by split|]. rewrite foldl_app. cbn [foldl]. by apply avg_update_rep. Qed.
Lemma merge_counts_spec n l m : merge_counts n l = Some m -> m = n + foldr Z.add 0 l.
Proof.
  revert n. induction l as [|c l IH]; intros n; cbn [merge_counts foldr]; [intros [= <-]; lia|]. unfold checked. destruct (fits 64 _); [|done]. cbn [mbind option_bind].
  intros ->%IH. lia.
Qed.
Lemma merge_sums_spec f s l s' : merge_sums f s l = Some s' -> s' = (if decide (l = []) then s else Some (default 0 s + foldr Z.add 0 l)).
Proof.
  revert s. induction l as [|v l IH]; intros s; cbn [merge_sums foldr]; [by intros [= <-]|]. destruct (f _); [|done]. intros ->%IH.
  rewrite (decide_False (P := v :: l = [])) by done. case_decide; [subst l|]; cbn [default from_option foldr]; unfold id; f_equal; unfold default, from_option, id; lia.
Qed.
Lemma avg_merge_rep f st rows parts : avg_rep st rows ->
  avg_rep (avg_merge_batch f st (map (fun part => avg_emit (foldl (avg_update f) avg_init part)) parts)) (rows ++ concat parts).
Proof.
  intros Hr. unfold avg_merge_batch. set (batch := map _ parts). destruct (existsb snd batch) eqn:Ee; [by intros ?|].
  destruct (merge_counts _ _) as [n|] eqn:Ec; [|by intros ?]. destruct (merge_sums _ _ _) as [s|] eqn:Es; [|by intros ?].
  intros F. cbn [failed count sum] in *. destruct (Hr F) as [Hc Hs]. apply merge_counts_spec in Ec. apply merge_sums_spec in Es.
  assert (foldr Z.add 0 (omap (fun x => snd (fst x)) batch) = values (concat parts) /\ foldr Z.add 0 (omap (fun x => fst (fst x)) batch) = total (concat parts) /\
    (omap (fun x => fst (fst x)) batch = [] <-> values (concat parts) = 0)) as (H1 & H2 & H3).
  { clear -Ee. subst batch. induction parts as [|p parts IH]; [done|]. cbn [map existsb concat] in *. apply orb_false_iff in Ee as [E1 E2]. destruct (IH E2) as (I1 & I2 & I3).
    pose proof (avg_part_rep f p) as Hp. unfold avg_emit in E1. unfold avg_rep in Hp. unfold avg_emit at 1 3 5. destruct (failed (foldl _ _ p)) eqn:F; [done|].
    destruct (Hp eq_refl) as [Hc Hs]. rewrite Hc, Hs. rewrite values_app, total_app. pose proof (values_nonneg p). pose proof (values_nonneg (concat parts)).
    cbn [omap list_omap fst snd foldr]. change (list_omap ?g) with (omap g). case_decide as E.
    - rewrite (total_none p E). split; [rewrite I1; lia|]. split; [rewrite I2; lia|]. rewrite I3. lia.
    - cbn [foldr]. split; [rewrite I1; lia|]. split; [rewrite I2; lia|]. split; [done|lia]. }
  rewrite H1 in Ec. rewrite H2 in Es. rewrite values_app, total_app. split; [lia|]. pose proof (values_nonneg rows). pose proof (values_nonneg (concat parts)). rewrite Es. rewrite (default_sum st rows) by done.
  rewrite Hs. destruct (decide (omap _ batch = [])) as [E|E].
  - apply H3 in E. rewrite E, (total_none _ E), !Z.add_0_r. done.
  - rewrite decide_False; [done|]. intros E'. apply E, H3. lia.
Qed.
Lemma avg_final_rep f batches : avg_rep (avg_final f batches) (concat (concat batches)).
Proof.
  unfold avg_final. induction batches as [|b batches IH] using rev_ind; [by split|]. rewrite map_app, foldl_app, !concat_app. cbn [map foldl concat]. rewrite app_nil_r.
  by apply avg_merge_rep.
Qed.
Lemma cut_quot s n : 0 < n -> cut s n (Z.quot s n).
Proof.
  intros Hn. pose proof (Z.quot_rem' s n) as E. unfold cut. set (q := Z.quot s n) in *. set (r := Z.rem s n) in *.
  destruct (Z.le_gt_cases 0 s) as [Hs|Hs].
  - pose proof (Z.rem_bound_pos s n Hs Hn) as Hr. fold r in Hr. assert (0 <= q) by (apply Z.quot_pos; lia). split; nia.
  - pose proof (Z.rem_bound_pos (- s) n ltac:(lia) Hn) as Hr. rewrite Z.rem_opp_l in Hr by lia. fold r in Hr.
    assert (0 <= - q). { unfold q. rewrite <- Z.quot_opp_l by lia. apply Z.quot_pos; lia. } split; nia.
Qed.
Lemma nearest_pos s n : 0 < n -> 0 <= s -> nearest s n (Z.quot (s + Z.quot n 2) n).
Proof.
  intros Hn Hs. rewrite (Z.quot_div_nonneg n 2) by lia. assert (0 <= n / 2) as Hh by (apply Z.div_pos; lia). rewrite Z.quot_div_nonneg by lia.
  pose proof (Z.div_mod n 2 ltac:(lia)) as E1. pose proof (Z.mod_pos_bound n 2 ltac:(lia)) as E2. set (h := n / 2) in *. set (b := n mod 2) in *.
  pose proof (Z.div_mod (s + h) n ltac:(lia)) as E3. pose proof (Z.mod_pos_bound (s + h) n ltac:(lia)) as E4.
  assert (0 <= (s + h) / n) as E5 by (apply Z.div_pos; lia). set (q := (s + h) / n) in *. unfold nearest.
  assert (0 <= q * n) as E6 by nia. rewrite (Z.mul_comm n q) in E3. set (p := q * n) in *. clearbody p. lia.
Qed.
Lemma nearest_quot s n : 0 < n -> nearest s n (Z.quot (if 0 <=? s then s + Z.quot n 2 else s - Z.quot n 2) n).
Proof.
  intros Hn. destruct (Z.leb_spec 0 s) as [Hge|Hlt]; [by apply nearest_pos|]. pose proof (nearest_pos (- s) n Hn ltac:(lia)) as H.
  replace (s - Z.quot n 2) with (- (- s + Z.quot n 2)) by lia. rewrite Z.quot_opp_l by lia. unfold nearest in *. set (q := Z.quot (- s + Z.quot n 2) n) in *.
  rewrite Z.mul_opp_l. set (p := q * n) in *. clearbody p. lia.
Qed.
(** Whenever try_avg returns a number, for any distribution, it is the average of the rows that are not NULL. *)
Theorem C88_try_avg f batches q : let rows := concat (concat batches) in
  (avg_decimal f (avg_final f batches) = Some q -> 0 < values rows /\ cut (total rows) (values rows) q) /\
  (avg_interval f (avg_final f batches) = Some q -> 0 < values rows /\ nearest (total rows) (values rows) q).
Proof.
  intros rows. pose proof (avg_final_rep f batches) as Hr. fold rows in Hr. pose proof (values_nonneg rows). unfold avg_decimal, avg_interval. unfold avg_rep in Hr.
  destruct (failed (avg_final f batches)); [done|]. destruct (Hr eq_refl) as [-> ->]. destruct (Z.eqb_spec (values rows) 0) as [E|E]; [done|].
  cbn [orb]. rewrite decide_False by done. cbn [mbind option_bind]. generalize dependent (values rows). generalize (total rows). clear. intros s n _ Hn Hz. split.
  - destruct (f _); [|done]. intros [= <-]. split; [lia|]. apply cut_quot. lia.
  - unfold checked. destruct (fits 64 _); [|done]. cbn [mbind option_bind]. destruct (f _); [|done]. intros [= <-]. split; [lia|].
    apply nearest_quot. lia.
Qed.
Print Assumptions C88_try_avg.
Example C88_try_avg_example :
  let rows := [[[Some 5; None; Some 4]]; [[]; [Some (-2); Some 3]]] in
  avg_decimal (fits_decimal 3) (avg_final (fits_decimal 3) rows) = Some 2 /\ avg_interval fits_i32 (avg_final fits_i32 rows) = Some 3.
Proof. split; vm_compute; reflexivity. Qed.
(** It returns a number if no sum of some of the rows can be too large. *)
Theorem C88_try_avg_total f batches : let rows := concat (concat batches) in
  (forall s, Z.abs s <= total_abs rows -> f s = true) -> 0 < values rows < 2 ^ 63 ->
  avg_decimal f (avg_final f batches) <> None /\ (total_abs rows < 2 ^ 31 -> avg_interval f (avg_final f batches) <> None).
Proof.
  intros rows Hf Hv.
  assert (forall n, 0 <= n <= values rows -> checked 64 n = Some n) as Hc.
  { intros n Hn. unfold checked, fits, int_min, int_max. change (2 ^ (64 - 1)) with (2 ^ 63). by replace (_ && _) with true by lia. }
  assert (forall part, total_abs part <= total_abs rows -> values part <= values rows -> failed (foldl (avg_update f) avg_init part) = false) as Hpart.
  { intros part. induction part as [|r part IH] using rev_ind; [done|]. rewrite total_abs_app, values_app. intros H1 H2. rewrite foldl_app. cbn [foldl].
    assert (0 <= total_abs [r] /\ 0 <= values [r]) as [A1 A2].
    { pose proof (total_abs_bound [r]). pose proof (values_nonneg [r]). lia. }
    specialize (IH ltac:(lia) ltac:(lia)). pose proof (avg_part_rep f part) as Hr. destruct r as [v|]; [|done]. cbn [avg_update]. rewrite IH.
    rewrite (default_sum _ part) by done. destruct (Hr IH) as [-> _]. change (total_abs [Some v]) with (Z.abs v + 0) in *. change (values [Some v]) with 1 in *.
    rewrite Hf by (pose proof (total_abs_bound part); lia). pose proof (values_nonneg part). rewrite Hc by lia. done. }
  assert (forall st done_ parts, avg_rep st done_ -> failed st = false -> total_abs (done_ ++ concat parts) <= total_abs rows -> values (done_ ++ concat parts) <= values rows ->
    failed (avg_merge_batch f st (map (fun part => avg_emit (foldl (avg_update f) avg_init part)) parts)) = false) as Hmerge.
  { intros st d parts Hr Hfail H1 H2. destruct (Hr Hfail) as [Hcount _]. pose proof (default_sum _ _ Hr Hfail) as Hsum. unfold avg_merge_batch.
    assert (forall p, total_abs p >= 0) as Habs by (intros p; pose proof (total_abs_bound p); lia).
    rewrite total_abs_app in H1. rewrite values_app in H2. pose proof (values_nonneg d) as Hd. pose proof (Habs d) as Hd'.
    assert (map (fun part => avg_emit (foldl (avg_update f) avg_init part)) parts = map (fun part => ((if decide (values part = 0) then None else Some (total part)), Some (values part), false)) parts) as ->.
    { assert (total_abs (concat parts) <= total_abs rows) as B1 by lia. assert (values (concat parts) <= values rows) as B2 by lia. clear -Hpart B1 B2 Habs.
      induction parts as [|p parts IH]; [done|]. cbn [concat map] in *. rewrite total_abs_app in B1. rewrite values_app in B2. pose proof (Habs p). pose proof (Habs (concat parts)).
      pose proof (values_nonneg p). pose proof (values_nonneg (concat parts)). f_equal; [|apply IH; lia].
      pose proof (Hpart p ltac:(lia) ltac:(lia)) as F. destruct (avg_part_rep f p F) as [C S]. unfold avg_emit. by rewrite F, C, S. }
    assert (existsb snd (map (fun part => ((if decide (values part = 0) then None else Some (total part)), Some (values part), false)) parts) = false) as ->.
    { clear. induction parts; done. }
    assert (exists n, merge_counts (count st) (omap (fun x : option Z * option Z * bool => snd (fst x)) (map (fun part => ((if decide (values part = 0) then None else Some (total part)), Some (values part), false)) parts)) = Some n) as [n ->].
    { rewrite Hcount. revert H2 Hd. generalize (values d). clear -Hc. induction parts as [|p parts IH]; intros z H2 Hd; [eauto|]. cbn [map omap list_omap fst snd merge_counts concat] in *.
      rewrite values_app in H2. pose proof (values_nonneg p). pose proof (values_nonneg (concat parts)). rewrite Hc by lia. cbn [mbind option_bind]. apply IH; lia. }
    assert (exists s, merge_sums f (sum st) (omap (fun x : option Z * option Z * bool => fst (fst x)) (map (fun part => ((if decide (values part = 0) then None else Some (total part)), Some (values part), false)) parts)) = Some s) as [s ->].
    { assert (Z.abs (default 0 (sum st)) + total_abs (concat parts) <= total_abs rows) as B. { rewrite Hsum. pose proof (total_abs_bound d). lia. }
      revert B. generalize (sum st). clear -Hf Habs. induction parts as [|p parts IH]; intros z B; [eauto|]. cbn [map omap list_omap fst snd concat] in *.
      rewrite total_abs_app in B. pose proof (Habs p). pose proof (Habs (concat parts)). pose proof (total_abs_bound p). case_decide; [apply IH; lia|]. cbn [merge_sums].
      rewrite Hf by lia. apply IH. cbn [default from_option]. unfold default, from_option, id in *. lia. }
    done. }
  assert (failed (avg_final f batches) = false) as F.
  { unfold avg_final. assert (forall bs, total_abs (concat (concat bs)) <= total_abs rows -> values (concat (concat bs)) <= values rows ->
      failed (foldl (avg_merge_batch f) avg_init (map (map (fun part => avg_emit (foldl (avg_update f) avg_init part))) bs)) = false) as H; [|by apply H].
    intros bs. induction bs as [|b bs IH] using rev_ind; [done|]. rewrite !concat_app. cbn [concat]. rewrite app_nil_r. intros H1 H2.
    rewrite map_app, foldl_app. cbn [map foldl]. apply (Hmerge _ (concat (concat bs))); [apply avg_final_rep| |done|done].
    rewrite total_abs_app in H1. rewrite values_app in H2. pose proof (values_nonneg (concat b)). pose proof (total_abs_bound (concat b)). apply IH; lia. }
  destruct (avg_final_rep f batches F) as [C S]. fold rows in C, S. rewrite decide_False in S by lia. unfold avg_decimal, avg_interval. rewrite F, C, S.
  replace (values rows =? 0) with false by lia. cbn [orb mbind option_bind]. pose proof (total_abs_bound rows) as Hb. split.
  - rewrite Hf; [done|]. destruct (cut_quot (total rows) (values rows) ltac:(lia)) as [Hq _]. nia.
  - intros H31. assert (0 <= Z.quot (values rows) 2 <= values rows) as Hh by (split; [apply Z.quot_pos; lia|Z.to_euclidean_division_equations; lia]).
    assert (Z.quot (values rows) 2 < 2 ^ 62) as Hh2 by (Z.to_euclidean_division_equations; lia).
    unfold checked, fits at 1, int_min, int_max. change (2 ^ (64 - 1)) with (2 ^ 63).
    replace ((- 2 ^ 63 <=? (if 0 <=? total rows then total rows + Z.quot (values rows) 2 else total rows - Z.quot (values rows) 2)) &&
      ((if 0 <=? total rows then total rows + Z.quot (values rows) 2 else total rows - Z.quot (values rows) 2) <=? 2 ^ 63 - 1)) with true by (destruct (0 <=? total rows); lia).
    cbn [mbind option_bind]. rewrite Hf; [done|]. destruct (nearest_quot (total rows) (values rows) ltac:(lia)) as [N1 N2].
    set (q := Z.quot _ (values rows)) in *. clearbody q. destruct (Z.eq_dec (Z.abs (total rows)) 0) as [Z0|Z0]; nia.
Qed.
Print Assumptions C88_try_avg_total.
Example C88_try_avg_total_example : let rows := concat (concat [[[Some 5; None; Some 4]]; [[]; [Some (-2); Some 3]]]) in
  (forall s, Z.abs s <= total_abs rows -> fits_i32 s = true) /\ values rows = 4.
Proof. cbv zeta. split; [|vm_compute; reflexivity]. intros s Hs. change (total_abs _) with 14 in Hs. unfold fits_i32, fits, int_min, int_max. change (2 ^ (32 - 1)) with 2147483648. lia. Qed.
(** For decimals with [p] digits and for intervals: what is returned has the type, and it is returned if the absolute values add up to less than the type holds. *)
Theorem C88_try_avg_range p batches q : 0 <= p -> let rows := concat (concat batches) in
  (avg_decimal (fits_decimal p) (avg_final (fits_decimal p) batches) = Some q -> Z.abs q < 10 ^ p) /\
  (total_abs rows < 10 ^ p -> 0 < values rows < 2 ^ 63 -> avg_decimal (fits_decimal p) (avg_final (fits_decimal p) batches) <> None) /\
  (avg_interval fits_i32 (avg_final fits_i32 batches) = Some q -> - 2 ^ 31 <= q < 2 ^ 31) /\
  (total_abs rows < 2 ^ 31 -> 0 < values rows < 2 ^ 63 -> avg_interval fits_i32 (avg_final fits_i32 batches) <> None).
Proof.
  intros Hp rows.
  assert (forall s, fits_i32 s = true <-> - 2 ^ 31 <= s < 2 ^ 31) as Hi.
  { intros s. unfold fits_i32, fits, int_min, int_max. change (2 ^ (32 - 1)) with (2 ^ 31). lia. }
  split; [|split; [|split]].
  - unfold avg_decimal. destruct (_ || _); [done|]. destruct (sum _); [|done]. cbn [mbind option_bind]. unfold fits_decimal at 1.
    destruct (_ && _) eqn:E; [|done]. intros [= <-]. lia.
  - intros Ha Hv. apply C88_try_avg_total; [|done]. intros s Hs. unfold fits_decimal. fold rows in Hs. lia.
  - unfold avg_interval. destruct (_ || _); [done|]. destruct (sum _); [|done]. cbn [mbind option_bind]. destruct (checked _ _); [|done]. cbn [mbind option_bind].
    destruct (fits_i32 _) eqn:E; [|done]. intros [= <-]. by apply Hi.
  - intros Ha Hv. apply C88_try_avg_total; [|done..]. intros s Hs. fold rows in Hs. apply Hi. lia.
Qed.
Print Assumptions C88_try_avg_range.
Example C88_try_avg_range_example : let rows := concat (concat [[[Some 5; None; Some 4]]; [[]; [Some (-2); Some 3]]]) in total_abs rows < 10 ^ 2 /\ values rows = 4.
Proof. split; vm_compute; reflexivity. Qed.
(** Whether it does depends on the order and on the distribution: a sum on the way may be too large. *)
Theorem C88_try_avg_order_refuted : exists batches batches' q, concat (concat batches) = concat (concat batches') /\
  avg_interval fits_i32 (avg_final fits_i32 batches) = None /\ avg_interval fits_i32 (avg_final fits_i32 batches') = Some q.
Proof.
  exists [[[Some 2147483647; Some 1; Some (-2)]]], [[[Some 2147483647]; [Some 1; Some (-2)]]], 715827882. split; [done|]. split; vm_compute; reflexivity.
Qed.
Print Assumptions C88_try_avg_order_refuted.
(** Decimals are cut, not rounded. *)
Theorem C88_try_avg_decimal_refuted : exists batches q, avg_decimal (fits_decimal 10) (avg_final (fits_decimal 10) batches) = Some q /\
  ~ nearest (total (concat (concat batches))) (values (concat (concat batches))) q.
Proof. exists [[[Some 2]; [Some 1; Some 2]]], 1. split; [vm_compute; reflexivity|]. intros [H _]. vm_compute in H. by apply H. Qed.
Print Assumptions C88_try_avg_decimal_refuted.

(** ** Bitmaps *)
(** The bit with number [j] of a bitmap; bits after its end are 0. *)
Definition bit (b : list N) (j : Z) : bool := N.testbit (default 0%N (b !! Z.to_nat (j / 8))) (Z.to_N (j mod 8)).
Definition position (j : Z) : Prop := 0 <= j < 32768.
Lemma default_Some (x : N) : default 0%N (Some x) = x.
Proof. done. Qed.
Lemma set_bit_length b r : length (set_bit b r) = length b.
Proof. destruct r; [|done]. cbn [set_bit]. by rewrite alter_length. Qed.
Lemma position_byte j : position j -> (Z.to_nat (j / 8) < BYTES)%nat.
Proof. unfold position, BYTES. intros Hj. pose proof (Z.div_lt_upper_bound j 8 4096 ltac:(lia) ltac:(lia)). pose proof (Z.div_pos j 8 ltac:(lia) ltac:(lia)). lia. Qed.
Lemma set_bit_bit b p j : length b = BYTES -> position j -> bit (set_bit b (Some p)) j = bit b j || (p mod 32768 =? j).
Proof.
  intros Hl Hj. cbn [set_bit]. change BITS with 32768. set (q := p mod 32768). pose proof (Z.mod_pos_bound p 32768 ltac:(lia)) as Hq. fold q in Hq. unfold bit.
  destruct (lookup_lt_is_Some_2 b (Z.to_nat (j / 8)) ltac:(rewrite Hl; by apply position_byte)) as [x Hx].
  pose proof (Z.div_mod q 8 ltac:(lia)) as Dq. pose proof (Z.mod_pos_bound q 8 ltac:(lia)) as Mq. pose proof (Z.div_mod j 8 ltac:(lia)) as Dj. pose proof (Z.mod_pos_bound j 8 ltac:(lia)) as Mj.
  unfold position in Hj. assert (0 <= q / 8) by (apply Z.div_pos; lia). assert (0 <= j / 8) by (apply Z.div_pos; lia).
  destruct (decide (Z.to_nat (q / 8) = Z.to_nat (j / 8))) as [E|E].
  - rewrite E, list_lookup_alter, Hx. unfold default, fmap, option_fmap, option_map, from_option, id. rewrite N.lor_spec. f_equal. destruct (Z.eqb_spec q j) as [->|Hne].
    + rewrite N.shiftl_spec_high' by lia. by rewrite N.sub_diag.
    + destruct (N.lt_ge_cases (Z.to_N (j mod 8)) (Z.to_N (q mod 8))); [by rewrite N.shiftl_spec_low by lia|]. rewrite N.shiftl_spec_high' by lia. apply N.bits_above_log2. cbn. lia.
  - rewrite list_lookup_alter_ne by done. destruct (Z.eqb_spec q j) as [->|Hne]; [done|]. by rewrite orb_false_r.
Qed.
Lemma or_bytes_length b s : length (or_bytes b s) = length b.
Proof. revert s. induction b as [|x b IH]; intros [|y s]; cbn [or_bytes length]; auto. Qed.
Lemma or_bytes_lookup b s i : or_bytes b s !! i = (fun x => N.lor x (default 0%N (s !! i))) <$> b !! i.
Proof.
  revert s i. induction b as [|x b IH]; intros s i; [by destruct s|]. destruct s as [|y s]; cbn [or_bytes].
  - rewrite lookup_nil. cbn [default from_option]. destruct ((x :: b) !! i); cbn [fmap option_fmap option_map]; [|done]. f_equal. unfold default, from_option. by rewrite N.lor_0_r.
  - destruct i as [|i]; [done|]. cbn [lookup list_lookup]. apply IH.
Qed.
Lemma or_bytes_bit b s j : length b = BYTES -> position j -> bit (or_bytes b s) j = bit b j || bit s j.
Proof.
  intros Hl Hj. unfold bit. rewrite or_bytes_lookup. destruct (lookup_lt_is_Some_2 b (Z.to_nat (j / 8)) ltac:(rewrite Hl; by apply position_byte)) as [x ->].
  cbn [fmap option_fmap option_map]. rewrite !default_Some. by rewrite N.lor_spec.
Qed.
Lemma and_input_length b s : length (and_input_bytes b s) = length b.
Proof. revert s. induction b as [|x b IH]; intros [|y s]; cbn [and_input_bytes length]; auto. by rewrite map_length. Qed.
Lemma and_input_lookup b s i : and_input_bytes b s !! i = (fun x => N.land x (default 0%N (s !! i))) <$> b !! i.
Proof.
  revert s i. induction b as [|x b IH]; intros s i; [by destruct s|]. destruct s as [|y s]; cbn [and_input_bytes].
  - rewrite list_lookup_fmap. destruct ((x :: b) !! i); [|done]. cbn [fmap option_fmap option_map]. f_equal. rewrite lookup_nil. unfold default, from_option. by rewrite N.land_0_r.
  - destruct i as [|i]; [done|]. cbn [lookup list_lookup]. apply IH.
Qed.
Lemma and_input_bit b s j : length b = BYTES -> position j -> bit (and_input_bytes b s) j = bit b j && bit s j.
Proof.
  intros Hl Hj. unfold bit. rewrite and_input_lookup. destruct (lookup_lt_is_Some_2 b (Z.to_nat (j / 8)) ltac:(rewrite Hl; by apply position_byte)) as [x ->].
  cbn [fmap option_fmap option_map]. rewrite !default_Some. by rewrite N.land_spec.
Qed.
Lemma and_state_input b s : length s = length b -> and_state_bytes b s = and_input_bytes b s.
Proof. revert s. induction b as [|x b IH]; intros [|y s] E; try done. cbn [and_state_bytes and_input_bytes]. f_equal. apply IH. by injection E. Qed.
Lemma zeros_bit j : position j -> bit (replicate BYTES 0%N) j = false.
Proof. intros Hj. unfold bit. rewrite lookup_replicate_2 by (by apply position_byte). done. Qed.
Lemma ones_bit j : position j -> bit (replicate BYTES 255%N) j = true.
Proof.
  intros Hj. unfold bit. rewrite lookup_replicate_2 by (by apply position_byte). cbn [default from_option]. unfold default, from_option, id.
  pose proof (Z.mod_pos_bound j 8 ltac:(lia)) as H. assert (j mod 8 = 0 \/ j mod 8 = 1 \/ j mod 8 = 2 \/ j mod 8 = 3 \/ j mod 8 = 4 \/ j mod 8 = 5 \/ j mod 8 = 6 \/ j mod 8 = 7) as C by lia.
  repeat destruct C as [->|C]; try done. by rewrite C.
Qed.
(** bitmap_construct_agg has exactly the bits of the positions in the rows. *)
Theorem C88_bitmap_construct parts : let b := construct_final parts in
  length b = BYTES /\ forall j, position j -> (bit b j = true <-> exists p, Some p ∈ concat parts /\ p mod 32768 = j).
Proof.
  apply (distributed_invariant (replicate BYTES 0%N) set_bit or_bytes (fun b rows => length b = BYTES /\
    forall j, position j -> (bit b j = true <-> exists p, Some p ∈ rows /\ p mod 32768 = j))).
  - split; [apply replicate_length|]. intros j Hj. rewrite zeros_bit by done. split; [done|]. intros (p & Hp & _). by apply elem_of_nil in Hp.
  - intros b rows r [Hl Hb]. split; [by rewrite set_bit_length|]. intros j Hj. setoid_rewrite elem_of_app. destruct r as [p|].
    + rewrite set_bit_bit by done. rewrite orb_true_iff, Hb, Z.eqb_eq by done. split.
      * intros [(p' & ? & ?)|E]; [eauto|]. exists p. split; [right; by apply elem_of_list_singleton|done].
      * intros (p' & [Hp|[= ->]%elem_of_list_singleton] & E); eauto.
    + cbn [set_bit]. rewrite Hb by done. split; [intros (p & ? & ?); eauto|]. intros (p & [Hp|Hp%elem_of_list_singleton] & E); [eauto|done].
  - intros b rows s rows' [Hl Hb] [Hl' Hs]. split; [by rewrite or_bytes_length|]. intros j Hj. rewrite or_bytes_bit, orb_true_iff, Hb, Hs by done.
    setoid_rewrite elem_of_app. naive_solver.
Qed.
Print Assumptions C88_bitmap_construct.
Example C88_bitmap_construct_example : let b := construct_final [[Some 3; None]; [Some 32779]; [Some (-1); Some 3]] in
  bit b 3 = true /\ bit b 11 = true /\ bit b 32767 = true /\ bit b 4 = false.
Proof. split_and!; vm_compute; reflexivity. Qed.
(** bitmap_or_agg has the bits that some bitmap has, bitmap_and_agg those that all have; an error exactly if one is too long. *)
Definition too_long (rows : list (option (list N))) : Prop := exists x, Some x ∈ rows /\ (BYTES < length x)%nat.
Lemma bitmap_rep f (init : list N) g (good : list (option (list N)) -> list N -> Prop) :
  good [] init -> length init = BYTES ->
  (forall rows b, good rows b -> good (rows ++ [None]) b) ->
  (forall rows b x, length b = BYTES -> good rows b -> good (rows ++ [Some x]) (f b x)) ->
  (forall rows rows' b s, length b = BYTES -> length s = BYTES -> good rows b -> good rows' s -> good (rows ++ rows') (g b s)) ->
  (forall b x, length (f b x) = length b) -> (forall b x, length x = length b -> length (g b x) = length b) ->
  forall parts, (distributed (Some init) (row_update f) (state_merge g) parts = None <-> too_long (concat parts)) /\
    forall b, distributed (Some init) (row_update f) (state_merge g) parts = Some b -> length b = BYTES /\ good (concat parts) b.
Proof.
  intros H0 Hl Hn Hf Hg Lf Lg. apply (distributed_invariant (Some init) (row_update f) (state_merge g) (fun o rows => (o = None <-> too_long rows) /\ forall b, o = Some b -> length b = BYTES /\ good rows b)).
  - split; [|by intros b [= <-]]. split; [done|]. intros (x & Hx & _). by apply elem_of_nil in Hx.
  - intros o rows r [Ho Hb]. unfold row_update, too_long in *. setoid_rewrite elem_of_app. destruct o as [b|].
    + cbn [mbind option_bind]. destruct (Hb b eq_refl) as [Hlen Hgood]. assert (~ exists x, Some x ∈ rows /\ (BYTES < length x)%nat) as Hno by (by rewrite <- Ho). destruct r as [x|].
      * case_bool_decide as E.
        -- split; [|done]. split; [|done]. intros _. exists x. split; [right; by apply elem_of_list_singleton|done].
        -- split; [|intros b' [= <-]; split; [by rewrite Lf|by apply Hf]]. split; [done|]. intros (y & [Hy|[= ->]%elem_of_list_singleton] & E'); [exfalso; eauto|done].
      * split; [|intros b' [= <-]; split; [done|by apply Hn]]. split; [done|]. intros (y & [Hy|Hy%elem_of_list_singleton] & E'); [exfalso; eauto|done].
    + cbn [mbind option_bind]. split; [|done]. split; [|done]. intros _. destruct (proj1 Ho eq_refl) as (x & ? & ?). eauto.
  - intros o rows o' rows' [Ho Hb] [Ho' Hb']. unfold state_merge, too_long in *. setoid_rewrite elem_of_app. destruct o as [b|].
    + destruct (Hb b eq_refl) as [Hlen Hgood]. assert (~ exists x, Some x ∈ rows /\ (BYTES < length x)%nat) as Hno by (by rewrite <- Ho). destruct o' as [s|]; cbn [mbind option_bind].
      * destruct (Hb' s eq_refl) as [Hlen' Hgood']. assert (~ exists x, Some x ∈ rows' /\ (BYTES < length x)%nat) as Hno' by (by rewrite <- Ho'). rewrite bool_decide_true by congruence.
        split; [|intros b' [= <-]; split; [rewrite Lg by congruence; done|by apply Hg]]. split; [done|]. intros (y & [Hy|Hy] & E'); exfalso; eauto.
      * split; [|done]. split; [|done]. intros _. destruct (proj1 Ho' eq_refl) as (x & ? & ?). eauto.
    + cbn [mbind option_bind]. split; [|done]. split; [|done]. intros _. destruct (proj1 Ho eq_refl) as (x & ? & ?). eauto.
Qed.
Theorem C88_bitmap_or parts :
  (or_final parts = None <-> too_long (concat parts)) /\
  forall b, or_final parts = Some b -> length b = BYTES /\ forall j, position j -> (bit b j = true <-> exists x, Some x ∈ concat parts /\ bit x j = true).
Proof.
  apply (bitmap_rep or_bytes (replicate BYTES 0%N) or_bytes (fun rows b => forall j, position j -> (bit b j = true <-> exists x, Some x ∈ rows /\ bit x j = true))).
  - intros j Hj. rewrite zeros_bit by done. split; [done|]. intros (x & Hx & _). by apply elem_of_nil in Hx.
  - apply replicate_length.
  - intros rows b Hb j Hj. rewrite Hb by done. setoid_rewrite elem_of_app. split; [naive_solver|]. intros (x & [Hx|Hx%elem_of_list_singleton] & E); [eauto|done].
  - intros rows b x Hl Hb j Hj. rewrite or_bytes_bit, orb_true_iff, Hb by done. setoid_rewrite elem_of_app. setoid_rewrite elem_of_list_singleton. naive_solver.
  - intros rows rows' b s Hl Hl' Hb Hs j Hj. rewrite or_bytes_bit, orb_true_iff, Hb, Hs by done. setoid_rewrite elem_of_app. naive_solver.
  - intros. apply or_bytes_length.
  - intros. apply or_bytes_length.
Qed.
Print Assumptions C88_bitmap_or.
Theorem C88_bitmap_and parts :
  (and_final parts = None <-> too_long (concat parts)) /\
  forall b, and_final parts = Some b -> length b = BYTES /\ forall j, position j -> (bit b j = true <-> forall x, Some x ∈ concat parts -> bit x j = true).
Proof.
  apply (bitmap_rep and_input_bytes (replicate BYTES 255%N) and_state_bytes (fun rows b => forall j, position j -> (bit b j = true <-> forall x, Some x ∈ rows -> bit x j = true))).
  - intros j Hj. rewrite ones_bit by done. split; [|done]. intros _ x Hx. by apply elem_of_nil in Hx.
  - apply replicate_length.
  - intros rows b Hb j Hj. rewrite Hb by done. setoid_rewrite elem_of_app. split; [|naive_solver]. intros H x [Hx|Hx%elem_of_list_singleton]; [eauto|done].
  - intros rows b x Hl Hb j Hj. rewrite and_input_bit, andb_true_iff, Hb by done. setoid_rewrite elem_of_app. setoid_rewrite elem_of_list_singleton. naive_solver.
  - intros rows rows' b s Hl Hl' Hb Hs j Hj. rewrite and_state_input, and_input_bit, andb_true_iff, Hb, Hs by congruence. setoid_rewrite elem_of_app. naive_solver.
  - intros. apply and_input_length.
  - intros b x E. rewrite and_state_input by done. apply and_input_length.
Qed.
Print Assumptions C88_bitmap_and.
Example C88_bitmap_or_and_example :
  (b ← or_final [[Some [1; 2]%N; None]; [Some [4]%N]]; Some (take 3 b)) = Some [5; 2; 0]%N /\
  (b ← and_final [[Some [7; 2]%N; None]; []; [Some [5]%N]]; Some (take 3 b)) = Some [5; 0; 0]%N.
Proof. split; vm_compute; reflexivity. Qed.
