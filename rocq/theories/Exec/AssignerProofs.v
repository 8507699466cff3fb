From stdpp Require Import prelude list sorting.
From Coq Require Import Lia.
From Verif.Lib Require Import ListFacts.
From Verif.Exec Require Import GraphModel AssignerModel AssignerSpec.

Lemma filter_all {A} (P : A -> Prop) `{!forall x, Decision (P x)} (l : list A) :
  (forall x, x ∈ l -> P x) -> filter P l = l.
Proof.
  induction l as [|x l IH]; intros Hl; [done|].
  rewrite filter_cons_True by (apply Hl; set_solver). f_equal. apply IH. set_solver.
Qed.
Lemma filter_none {A} (P : A -> Prop) `{!forall x, Decision (P x)} (l : list A) :
  (forall x, x ∈ l -> ~ P x) -> filter P l = [].
Proof.
  induction l as [|x l IH]; intros Hl; [done|].
  rewrite filter_cons_False by (apply Hl; set_solver). apply IH. set_solver.
Qed.

Lemma sublist_filter {A} (P : A -> Prop) `{!forall x, Decision (P x)} (l : list A) :
  filter P l `sublist_of` l.
Proof.
  induction l as [|x l IH]; [done|]. rewrite filter_cons.
  destruct (decide (P x)); by constructor.
Qed.

(** * Index sets *)
Section ix.
Context {A : Type} `{EqDecision A}.
Implicit Types l ks : list A.

Lemma ix_insert_elem l k x : x ∈ ix_insert l k <-> x ∈ l \/ x = k.
Proof.
  unfold ix_insert. case_bool_decide as Hk; [|set_solver].
  split; [auto|]. intros [?| ->]; done.
Qed.
Lemma ix_insert_NoDup l k : NoDup l -> NoDup (ix_insert l k).
Proof.
  intros Hl. unfold ix_insert. case_bool_decide as Hk; [done|].
  apply NoDup_app; repeat split; [done| |apply NoDup_singleton].
  intros x Hx ->%elem_of_list_singleton. done.
Qed.
Lemma ix_extend_elem ks l x : x ∈ ix_extend l ks <-> x ∈ l \/ x ∈ ks.
Proof.
  revert l. induction ks as [|k ks IH]; intros l; cbn; [set_solver|].
  change (foldl ix_insert (ix_insert l k) ks) with (ix_extend (ix_insert l k) ks).
  rewrite IH, ix_insert_elem. set_solver.
Qed.
Lemma ix_extend_NoDup ks l : NoDup l -> NoDup (ix_extend l ks).
Proof.
  revert l. induction ks as [|k ks IH]; intros l Hl; cbn; [done|].
  apply IH, ix_insert_NoDup, Hl.
Qed.
Lemma ix_extend_fresh ks l : NoDup (l ++ ks) -> ix_extend l ks = l ++ ks.
Proof.
  revert l. induction ks as [|k ks IH]; intros l Hl; cbn; [by rewrite app_nil_r|].
  change (foldl ix_insert (ix_insert l k) ks) with (ix_extend (ix_insert l k) ks).
  assert (ix_insert l k = l ++ [k]) as ->.
  { unfold ix_insert. apply NoDup_app in Hl as (_ & Hd & _).
    case_bool_decide as Hk; [|done]. destruct (Hd k Hk). set_solver. }
  rewrite IH; rewrite <- app_assoc; done.
Qed.
Lemma ix_swap_remove_perm l k : NoDup l -> ix_swap_remove l k ≡ₚ filter (fun x => x <> k) l.
Proof.
  intros Hl. unfold ix_swap_remove.
  destruct (list_find (fun x => x = k) l) as [[i y]|] eqn:E.
  - apply list_find_Some in E as (Hi & Hy & _). simpl in Hy. subst y.
    destruct (last l) as [x|] eqn:Hlast.
    2:{ apply last_None in Hlast. subst. done. }
    apply last_Some in Hlast as [l' ->].
    rewrite app_length. simpl. replace (length l' + 1 - 1) with (length l') by lia.
    apply NoDup_app in Hl as (Hl' & Hd & _).
    rewrite filter_app.
    destruct (decide (i < length l')) as [Hlt|Hge].
    + rewrite lookup_app_l in Hi by done.
      rewrite insert_app_l by done.
      rewrite take_app_alt by (by rewrite insert_length).
      assert (x <> k) as Hxk.
      { intros ->. apply (Hd k); [by eapply elem_of_list_lookup_2|set_solver]. }
      rewrite filter_cons_True, filter_nil by done.
      apply elem_of_list_split_length in Hi as (a & b & -> & ->).
      rewrite insert_app_r_alt by lia. rewrite Nat.sub_diag. simpl.
      apply NoDup_app in Hl' as (_ & Hd1 & Hb).
      apply NoDup_cons in Hb as [Hkb Hb].
      rewrite filter_app, filter_cons_False by (intros ?; done).
      assert (filter (fun y => y <> k) a = a) as ->.
      { apply filter_all. intros z Hz ->. apply (Hd1 k); [done|set_solver]. }
      assert (filter (fun y => y <> k) b = b) as ->.
      { apply filter_all. intros z Hz ->. done. }
      rewrite <- app_assoc. f_equiv. by rewrite Permutation_cons_append.
    + rewrite lookup_app_r in Hi by lia.
      destruct (i - length l') as [|?] eqn:Ei; [|done]. simpl in Hi. injection Hi as ->.
      rewrite insert_app_r_alt by lia. rewrite Ei. simpl.
      rewrite take_app_alt by done.
      rewrite filter_cons_False, filter_nil, app_nil_r by (intros ?; done).
      assert (filter (fun y => y <> k) l' = l') as ->; [|done].
      apply filter_all. intros z Hz ->. apply (Hd k); [done|set_solver].
  - apply list_find_None in E.
    assert (filter (fun y => y <> k) l = l) as ->; [|done].
    apply filter_all. intros z Hz. rewrite Forall_forall in E. exact (E z Hz).
Qed.
Lemma ix_swap_remove_absent l k : k ∉ l -> ix_swap_remove l k = l.
Proof.
  intros Hk. unfold ix_swap_remove.
  destruct (list_find (fun x => x = k) l) as [[i y]|] eqn:E; [|done].
  apply list_find_Some in E as (Hi & Hy & _). simpl in Hy. subst y.
  destruct Hk. by eapply elem_of_list_lookup_2.
Qed.
End ix.

(** * The worker table *)
Lemma w_get_elem w x l : NoDup (map fst l) -> w_get w l = Some x <-> (w, x) ∈ l.
Proof.
  induction l as [|[i y] r IH]; intros Hnd; [cbn; set_solver|].
  cbn in Hnd. apply NoDup_cons in Hnd as [Hi Hr]. cbn [w_get].
  rewrite elem_of_cons. case_bool_decide as E.
  - subst i. split; [intros [= ->]; auto|].
    intros [[= ->]|Hx]; [done|]. destruct Hi. apply elem_of_list_fmap. by exists (w, x).
  - rewrite (IH Hr). split; [auto|]. intros [[= <- <-]|?]; done.
Qed.
Lemma w_get_Some_elem w x l : w_get w l = Some x -> (w, x) ∈ l.
Proof.
  induction l as [|[i y] r IH]; cbn [w_get]; [done|].
  case_bool_decide as E; [intros [= ->]; subst; set_solver|intros ?%IH; set_solver].
Qed.
Lemma w_get_None w l : w_get w l = None <-> w ∉ map fst l.
Proof.
  induction l as [|[i y] r IH]; cbn [w_get map]; [set_solver|].
  case_bool_decide as E; [|set_solver]. subst. cbn. set_solver.
Qed.
Lemma w_alter_ids f w l : map fst (w_alter f w l) = map fst l.
Proof.
  induction l as [|[i y] r IH]; cbn [w_alter]; [done|].
  case_bool_decide; cbn; [done|]. by f_equal.
Qed.
Lemma w_get_alter f w w' l :
  w_get w' (w_alter f w l) = if bool_decide (w' = w) then f <$> w_get w l else w_get w' l.
Proof.
  induction l as [|[i y] r IH]; cbn [w_alter w_get]; [by case_bool_decide|].
  destruct (decide (i = w)) as [->|Hiw].
  - rewrite (bool_decide_true (w = w)) by done. cbn [w_get].
    destruct (decide (w = w')) as [->|Hw].
    + rewrite !bool_decide_true by done. done.
    + rewrite (bool_decide_false (w = w')), (bool_decide_false (w' = w)) by congruence. done.
  - rewrite (bool_decide_false (i = w)) by done. cbn [w_get].
    destruct (decide (i = w')) as [->|Hw].
    + rewrite (bool_decide_true (w' = w')), (bool_decide_false (w' = w)) by done. done.
    + rewrite (bool_decide_false (i = w')) by done. exact IH.
Qed.
Lemma w_get_app w l1 l2 :
  w_get w (l1 ++ l2) = match w_get w l1 with Some x => Some x | None => w_get w l2 end.
Proof.
  induction l1 as [|[i y] r IH]; cbn [app w_get]; [done|]. by case_bool_decide.
Qed.
Lemma w_get_map g w l :
  w_get w (map (fun ix => (ix.1, g ix.2)) l) = g <$> w_get w l.
Proof.
  induction l as [|[i y] r IH]; cbn [map w_get fst snd]; [done|]. by case_bool_decide.
Qed.

(** * Handing out slots *)
Definition order (free : list (nat * list nat)) : list (nat * nat) :=
  flat_map (fun p => map (pair p.1) (rev p.2)) free.

Lemma next_slot_Some free p free' : next_slot free = Some (p, free') -> order free = p :: order free'.
Proof.
  revert p free'. induction free as [|[w sl] r IH]; intros p free' Hn; [done|]. cbn in Hn.
  destruct (last sl) as [s|] eqn:Hl.
  - injection Hn as <- <-. apply last_Some in Hl as [sl' ->].
    unfold order. cbn [flat_map fst snd].
    rewrite app_length. cbn [length]. replace (length sl' + 1 - 1) with (length sl') by lia.
    rewrite take_app_alt by done. rewrite rev_app_distr. done.
  - destruct (next_slot r) as [[p' r']|] eqn:E; [|done]. injection Hn as <- <-.
    apply last_None in Hl. subst sl. cbn. exact (IH _ _ eq_refl).
Qed.
Lemma next_slot_None free : next_slot free = None -> order free = [].
Proof.
  induction free as [|[w sl] r IH]; intros Hn; [done|]. cbn in Hn.
  destruct (last sl) as [s|] eqn:Hl; [done|].
  destruct (next_slot r) as [[p' r']|] eqn:E; [done|].
  apply last_None in Hl. subst sl. cbn. by apply IH.
Qed.

Definition placed_as (ps : placement * task_set) (x : task_set * place) : Prop :=
  x.1 = ps.2 /\ (ps.1 = OnDriver <-> x.2 = ToDriver).

Lemma try_region_Some r free out free' :
  try_region free r = Some (out, free') ->
  Forall2 placed_as r out /\ order free = omap worker_place out ++ order free'.
Proof.
  revert free out free'. induction r as [|[p s] r IH]; intros free out free' Ht; cbn in Ht.
  - injection Ht as <- <-. split; [constructor|done].
  - destruct p.
    + destruct (try_region free r) as [[out1 f1]|] eqn:E; [|done].
      injection Ht as <- <-. destruct (IH _ _ _ E) as [H2 Ho].
      split; [constructor; [by split|done]|exact Ho].
    + destruct (next_slot free) as [[[w n] f1]|] eqn:En; [|done].
      destruct (try_region f1 r) as [[out1 f2]|] eqn:E; [|done].
      injection Ht as <- <-. destruct (IH _ _ _ E) as [H2 Ho].
      split; [constructor; [split; [done|split; discriminate]|done]|].
      rewrite (next_slot_Some _ _ _ En), Ho. done.
Qed.
Lemma region_demand_cons p s r :
  region_demand ((p, s) :: r) = match p with OnWorker => 1 | OnDriver => 0 end + region_demand r.
Proof. by destruct p. Qed.
Lemma placed_demand r out :
  Forall2 placed_as r out -> length (omap worker_place out) = region_demand r.
Proof.
  induction 1 as [|[p s] [s' q] r out [Hs Hp] H IH]; [done|].
  cbn in Hs, Hp. rewrite region_demand_cons.
  destruct p, q; cbn [omap list_omap worker_place snd].
  - exact IH.
  - pose proof (proj1 Hp eq_refl). done.
  - pose proof (proj2 Hp eq_refl). done.
  - cbn. f_equal. exact IH.
Qed.
Lemma try_region_None r free : try_region free r = None -> length (order free) < region_demand r.
Proof.
  revert free. induction r as [|[p s] r IH]; intros free Ht; cbn in Ht; [done|].
  rewrite region_demand_cons. destruct p.
  - destruct (try_region free r) as [[out1 f1]|] eqn:E; [done|]. by apply IH.
  - destruct (next_slot free) as [[[w n] f1]|] eqn:En.
    + rewrite (next_slot_Some _ _ _ En). cbn.
      destruct (try_region f1 r) as [[out1 f2]|] eqn:E; [done|]. specialize (IH _ E). lia.
    + rewrite (next_slot_None _ En). cbn. lia.
Qed.

Lemma assign_loop_spec q free outs rest :
  assign_loop free q = (outs, rest) ->
  exists n,
    n <= length q /\ rest = drop n q /\
    Forall2 placed_as (concat (take n q)) outs /\
    (exists tail, order free = omap worker_place outs ++ tail) /\
    (n < length q -> length (order free) < sum_list_with region_demand (take (S n) q)).
Proof.
  revert free outs rest. induction q as [|r q IH]; intros free outs rest Ha; cbn in Ha.
  - injection Ha as <- <-. exists 0. cbn. repeat split; [done|constructor|by eexists|lia].
  - destruct (try_region free r) as [[out free']|] eqn:Et.
    + destruct (assign_loop free' q) as [outs' rest'] eqn:El. injection Ha as <- <-.
      destruct (IH _ _ _ El) as (n & Hn & -> & H2 & [tail Ht] & Hmax).
      destruct (try_region_Some _ _ _ _ Et) as [H2' Ho].
      exists (S n). cbn [take drop length concat]. repeat split.
      * lia.
      * by apply Forall2_app.
      * exists tail. rewrite Ho, Ht, omap_app, <- app_assoc. done.
      * intros Hlt. assert (n < length q) as Hlt' by lia. specialize (Hmax Hlt').
        rewrite Ho, app_length, (placed_demand _ _ H2').
        cbn [sum_list_with]. cbn [take sum_list_with] in *. lia.
    + injection Ha as <- <-. exists 0. cbn [take drop concat length].
      repeat split; [lia|constructor|by eexists|].
      intros _. cbn. pose proof (try_region_None _ _ Et). lia.
Qed.

Lemma filter_imap_pair (sl : list (list key)) n k :
  n ∈ map fst (filter (fun p : nat * list key => p.2 = []) (imap (fun i x => (k + i, x)) sl)) <->
  k <= n /\ sl !! (n - k) = Some [].
Proof.
  rewrite elem_of_map_iff. split.
  - intros ((i, s) & -> & [Hs Hi]%elem_of_list_filter). cbn in Hs. subst s. cbn.
    apply elem_of_lookup_imap in Hi as (j & x & [= -> ->] & Hj).
    split; [lia|]. by replace (k + j - k) with j by lia.
  - intros [Hk Hn]. exists (n, []). split; [done|]. apply elem_of_list_filter. split; [done|].
    apply elem_of_lookup_imap. exists (n - k), []. split; [|done]. f_equal. lia.
Qed.
Lemma vacant_numbers_elem x n :
  n ∈ vacant_numbers x <-> exists sl st, x = Active sl st /\ sl !! n = Some [].
Proof.
  destruct x as [sl st|]; cbn.
  - change (imap pair sl) with (imap (fun i x => (0 + i, x)) sl).
    rewrite filter_imap_pair, Nat.sub_0_r. split; [intros [_ ?]; by exists sl, st|].
    intros (? & ? & [= <- <-] & ?). split; [lia|done].
  - split; [set_solver|]. intros (? & ? & ? & ?). done.
Qed.
Lemma imap_fst {A} (f : nat -> nat) (l : list A) :
  map fst (imap (fun i x => (f i, x)) l) = map f (seq 0 (length l)).
Proof.
  revert f. induction l as [|x l IH]; intros f; [done|].
  rewrite imap_cons. cbn. f_equal.
  change (imap ((fun i x0 => (f i, x0)) ∘ S) l) with (imap (fun i x0 => ((f ∘ S) i, x0)) l).
  rewrite IH, <- seq_shift, map_map. done.
Qed.
Lemma NoDup_map_filter {A B} (f : A -> B) (P : A -> Prop) `{!forall x, Decision (P x)} l :
  NoDup (map f l) -> NoDup (map f (filter P l)).
Proof.
  induction l as [|x l IH]; intros Hnd; [constructor|].
  cbn [map] in Hnd. apply NoDup_cons in Hnd as [Hx Hl]. rewrite filter_cons.
  destruct (decide (P x)); [|by apply IH]. cbn [map]. apply NoDup_cons. split; [|by apply IH].
  rewrite elem_of_map_iff. intros (y & Hy & [_ Hin]%elem_of_list_filter).
  apply Hx. rewrite Hy. apply elem_of_map_iff. by exists y.
Qed.

Lemma order_free_elem ws w n :
  (w, n) ∈ order (free_slots ws) <-> exists sl st, (w, Active sl st) ∈ ws /\ sl !! n = Some [].
Proof.
  unfold order, free_slots. rewrite elem_of_flat_map. split.
  - intros ((w', ns) & [Hns Hin]%elem_of_list_filter & Hm).
    apply elem_of_map_iff in Hm as (n' & [= -> ->] & Hn').
    apply elem_of_map_iff in Hin as ((i, x) & [= -> ->] & Hx).
    rewrite <- in_rev, <- elem_of_list_In in Hn' || (apply elem_of_list_In, in_rev, elem_of_list_In in Hn').
    cbn in Hn'. apply vacant_numbers_elem in Hn' as (sl & st & -> & Hl). by exists sl, st.
  - intros (sl & st & Hin & Hl).
    assert (n ∈ vacant_numbers (Active sl st)) as Hn by (apply vacant_numbers_elem; by exists sl, st).
    exists (w, vacant_numbers (Active sl st)). split.
    + apply elem_of_list_filter. split; [intros E; cbn [snd] in E; rewrite E in Hn; set_solver|].
      apply elem_of_map_iff. by exists (w, Active sl st).
    + apply elem_of_map_iff. exists n. split; [done|].
      apply elem_of_list_In. apply -> in_rev. by apply elem_of_list_In.
Qed.
Lemma NoDup_rev' {A} (l : list A) : NoDup l -> NoDup (rev l).
Proof. intros Hl. apply NoDup_ListNoDup, List.NoDup_rev, NoDup_ListNoDup, Hl. Qed.
Lemma vacant_numbers_NoDup x : NoDup (vacant_numbers x).
Proof.
  destruct x as [sl st|]; cbn; [|constructor].
  apply NoDup_map_filter. rewrite (imap_fst (fun i => i)), map_id. apply NoDup_seq.
Qed.
Lemma order_free_NoDup ws : NoDup (map fst ws) -> NoDup (order (free_slots ws)).
Proof.
  unfold free_slots. induction ws as [|[i x] ws IH]; intros Hnd; [constructor|].
  cbn [map fst] in Hnd. apply NoDup_cons in Hnd as [Hi Hws].
  cbn [map fst snd].
  rewrite filter_cons. destruct (decide _) as [Hne|_]; [|by apply IH].
  unfold order. cbn [flat_map fst snd]. apply NoDup_app. repeat split.
  - apply NoDup_fmap_2; [intros ?? [=]; done|]. apply NoDup_rev', vacant_numbers_NoDup.
  - intros [w n] (n' & [= -> ->] & _)%elem_of_map_iff Hin.
    apply (order_free_elem ws i n') in Hin as (sl & st & Hin & _).
    apply Hi, elem_of_map_iff. by exists (i, Active sl st).
  - by apply IH.
Qed.
Lemma length_vacant_numbers x : length (vacant_numbers x) = vacant_slots x.
Proof.
  destruct x as [sl st|]; cbn; [|done]. rewrite map_length.
  assert (forall k, length (filter (fun p : nat * list key => p.2 = []) (imap (fun i x => (k + i, x)) sl))
          = length (filter (fun s : list key => s = []) sl)) as Hk; [|exact (Hk 0)].
  induction sl as [|s sl IH]; intros k; [done|].
  rewrite imap_cons.
  replace (imap ((fun i x => (k + i, x)) ∘ S) sl) with (imap (fun i x => (S k + i, x)) sl)
    by (apply imap_ext; intros; cbn; f_equal; lia).
  rewrite !filter_cons. cbn [snd].
  destruct (decide (s = [])); [cbn [length]; f_equal|]; exact (IH (S k)).
Qed.
Lemma length_order_free ws :
  length (order (free_slots ws)) = sum_list_with (fun ix => vacant_slots ix.2) ws.
Proof.
  unfold free_slots. induction ws as [|[i x] ws IH]; [done|].
  cbn [map fst snd sum_list_with]. rewrite filter_cons.
  destruct (decide _) as [Hne|He]; cbn [snd] in *.
  - unfold order in *. cbn [flat_map fst snd]. rewrite app_length, map_length, rev_length.
    rewrite IH, length_vacant_numbers. done.
  - rewrite IH. rewrite <- length_vacant_numbers.
    destruct (vacant_numbers x); [done|]. by destruct He.
Qed.
