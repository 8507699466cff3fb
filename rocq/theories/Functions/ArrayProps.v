(** C89: the array functions give each row the answer for the array in that
    row, whatever the layout of the column: which part of a longer column it
    is, where its NULL rows are and what their ranges hold. *)

From stdpp Require Import list numbers list_numbers.
From Verif.Functions Require Import ArrayModel.

(** ** Specification *)

(** The array in row [i]: the values from one offset to the next. *)
Definition row {B} (c : lists B) (i : nat) : option (list (option B)) :=
  if (valid c !!! i : bool) then
    Some ((fun k => vals c !!! (offs c !!! i + k)) <$> seq 0 (offs c !!! S i - offs c !!! i))
  else None.

Definition rows {B} (c : lists B) : list (option (list (option B))) :=
  row c <$> seq 0 (length (valid c)).

(** What Arrow demands of a column: one more offset than rows, offsets that
    do not decrease and that lie within the values.  The first need not be
    zero, the last need not be the number of values. *)
Definition well_formed {B} (c : lists B) : Prop :=
  length (offs c) = S (length (valid c)) ∧
  (∀ i, i < length (valid c) → offs c !!! i ≤ offs c !!! S i) ∧
  ∀ i, i ≤ length (valid c) → offs c !!! i ≤ length (vals c).

(** The position of the first element equal to [x], from 1; 0 if there is none. *)
Definition is_position {A} (eq : A → A → bool) (l : list (option A)) (x : A) (p : nat) : Prop :=
  (p = 0 ∧ ∀ i v, l !! i = Some (Some v) → eq v x = false) ∨
  (∃ i v, p = S i ∧ l !! i = Some (Some v) ∧ eq v x = true ∧
     ∀ j w, j < i → l !! j = Some (Some w) → eq w x = false).

(** The elements of [l] that [r] has too, each where it occurs first. *)
Definition common {A} `{EqDecision A} (l r : list A) : list A :=
  omap (fun i => x ← l !! i; if decide (x ∈ r ∧ x ∉ take i l) then Some x else None)
    (seq 0 (length l)).

(** The structures of the elements at the same position, with NULL behind the
    end of an array that is shorter. *)
Definition zipped {A} (ls : list (list (option A))) : list (option (list (option A))) :=
  (fun k => Some ((fun l => default None (l !! k)) <$> ls))
    <$> seq 0 (foldr Nat.max 0 (length <$> ls)).

(** The elements at the positions where the lambda is true. *)
Definition kept {A} (f : option A → nat → option (option bool)) (l : list (option A))
    : list (option A) :=
  omap (fun k => x ← l !! k; if decide (f x k = Some (Some true)) then Some x else None)
    (seq 0 (length l)).

(** What a lambda gives for an element. *)
Definition at_element {A B} (f : lambda (A := A) B) (i : nat) (x : option A) (k : nat) : option B :=
  match f with Constant b => Some b | Each f => f i x k end.

Definition at_predicate {A} (p : option bool + (nat → option A → option (option bool)))
    (i : nat) (x : option A) : option (option bool) :=
  match p with inl b => Some b | inr f => f i x end.

(** The answer if elements are looked at one after the other up to the first
    that is [stop]: an error if one raises before, NULL if none is [stop] and
    one is NULL.  [stop] is true for [exists], false for [forall]. *)
Definition decides (stop : bool) (rs : list (option (option bool))) (res : option (option bool))
    : Prop :=
  (∃ i, rs !! i = Some (Some (Some stop)) ∧ (∀ j, j < i → rs !! j ≠ Some None) ∧
     res = Some (Some stop)) ∨
  (∃ i, rs !! i = Some None ∧ (∀ j, j < i → rs !! j ≠ Some (Some (Some stop))) ∧ res = None) ∨
  (None ∉ rs ∧ Some (Some stop) ∉ rs ∧
     ((Some None ∈ rs ∧ res = Some None) ∨ (Some None ∉ rs ∧ res = Some (Some (negb stop))))).

(** The values of a lambda for the elements of one array. *)
Definition gives {A B} (f : nat → option A → nat → option B) (i : nat) (l : list (option A))
    (o : list B) : Prop :=
  length o = length l ∧ ∀ k x, l !! k = Some x → f i x k = o !! k.

(** What [exists] and [forall] have to give for a column: an error only if
    there is one in a row where it is met. *)
Definition answers {A} (stop : bool) (c : lists A)
    (p : option bool + (nat → option A → option (option bool))) (out : option (list (option bool))) : Prop :=
  match out with
  | Some out => length out = length (valid c) ∧
      ∀ i, i < length (valid c) →
      match row c i with
      | Some l => ∃ res, out !! i = Some res ∧ decides stop (at_predicate p i <$> l) (Some res)
      | None => out !! i = Some None
      end
  | None => ∃ i l, i < length (valid c) ∧ row c i = Some l ∧
      decides stop (at_predicate p i <$> l) None
  end.

(** The rows of a result that is one value or a column. *)
Definition result_rows {B} (n : nat) (r : columnar B) : list (option (list (option B))) :=
  match r with
  | Scalar x => replicate n x
  | Column c => rows c
  end.

(** ** Layout *)

Section layout.
Context {B : Type}.
Implicit Types (L : list (list (option B))) (l pre post : list (option B)).

Fixpoint sums {C} (t : nat) (L : list (list C)) : list nat :=
  match L with
  | [] => []
  | l :: L' => (t + length l) :: sums (t + length l) L'
  end.

Fixpoint spans {C} (t : nat) (L : list (list C)) : list (nat * nat) :=
  match L with
  | [] => []
  | l :: L' => (t, t + length l) :: spans (t + length l) L'
  end.

Definition show_row (l : list (option B)) (v : bool) : option (list (option B)) :=
  if v then Some l else None.

Lemma windows_sums {C} t (L : list (list C)) : windows (t :: sums t L) = spans t L.
Proof.
  revert t. induction L as [|l L IH]; intros t; [done|].
  cbn [sums spans]. rewrite <- IH. done.
Qed.

Lemma sums_length {C} t (L : list (list C)) : length (sums t L) = length L.
Proof. revert t. induction L; intros t; cbn; [done|]. by rewrite IHL. Qed.

Lemma spans_length {C} t (L : list (list C)) : length (spans t L) = length L.
Proof. revert t. induction L; intros t; cbn; [done|]. by rewrite IHL. Qed.

Lemma sums_at {C} t (L : list (list C)) i :
  i ≤ length L → (t :: sums t L) !!! i = t + length (concat (take i L)).
Proof.
  revert t i. induction L as [|l L IH]; intros t i Hi.
  - cbn in Hi. assert (i = 0) as -> by lia. cbn. lia.
  - destruct i as [|i]; [cbn; lia|].
    change ((t :: sums t (l :: L)) !!! S i) with ((t + length l :: sums (t + length l) L) !!! i).
    cbn in Hi. rewrite IH by lia. cbn [take concat]. rewrite app_length. lia.
Qed.

Lemma spans_at {C} t (L : list (list C)) i (l : list C) :
  L !! i = Some l →
  spans t L !! i = Some (t + length (concat (take i L)), t + length (concat (take i L)) + length l).
Proof.
  revert t i. induction L as [|l' L IH]; intros t i Hi; [done|].
  destruct i as [|i].
  - injection Hi as ->. cbn. by rewrite Nat.add_0_r.
  - cbn. rewrite (IH _ _ Hi), app_length. by rewrite !Nat.add_assoc.
Qed.

Lemma concat_at {C} (L : list (list C)) i (l : list C) :
  L !! i = Some l → concat L = concat (take i L) ++ l ++ concat (drop (S i) L).
Proof.
  intros Hi. rewrite <- (take_drop_middle L i l Hi) at 1.
  rewrite concat_app. done.
Qed.

Lemma list_map_total l : (fun k => l !!! k) <$> seq 0 (length l) = l.
Proof.
  apply list_eq. intros i. rewrite list_lookup_fmap.
  destruct (decide (i < length l)) as [Hi|Hi].
  - rewrite lookup_seq_lt by done. cbn. symmetry. by apply list_lookup_lookup_total_lt.
  - rewrite lookup_seq_ge by lia. cbn. symmetry. apply lookup_ge_None. lia.
Qed.

Lemma row_build pre L post v i l b :
  L !! i = Some l → v !! i = Some b →
  row (Lists (length pre :: sums (length pre) L) (pre ++ concat L ++ post) v) i = show_row l b.
Proof.
  intros Hi Hv. unfold row. cbn [valid offs vals].
  rewrite (list_lookup_total_correct _ _ _ Hv). destruct b; [|done].
  assert (i < length L) by (by eapply lookup_lt_Some).
  rewrite !sums_at by lia. rewrite (take_S_r _ _ _ Hi), concat_app, app_length.
  cbn [concat]. rewrite app_nil_r. unfold show_row. f_equal.
  replace (length pre + (length (concat (take i L)) + length l)
           - (length pre + length (concat (take i L)))) with (length l) by lia.
  rewrite <- (list_map_total l) at 2. apply list_fmap_ext. intros j k Hk.
  apply lookup_seq in Hk as [-> Hk].
  rewrite (concat_at _ _ _ Hi).
  rewrite <- !app_assoc.
  rewrite lookup_total_app_r by lia.
  rewrite lookup_total_app_r by lia.
  rewrite lookup_total_app_l by lia.
  f_equal. lia.
Qed.

Lemma rows_build pre L post v :
  length L = length v →
  rows (Lists (length pre :: sums (length pre) L) (pre ++ concat L ++ post) v)
  = zip_with show_row L v.
Proof.
  intros HL. unfold rows. cbn [valid]. apply list_eq. intros i.
  rewrite list_lookup_fmap, lookup_zip_with.
  destruct (decide (i < length v)) as [Hi|Hi].
  - rewrite lookup_seq_lt by done.
    destruct (lookup_lt_is_Some_2 L i) as [l Hl]; [lia|].
    destruct (lookup_lt_is_Some_2 v i) as [b Hb]; [lia|].
    rewrite Hl, Hb. cbn [fmap option_fmap option_map mbind option_bind plus].
    by rewrite (row_build _ _ _ _ _ _ _ Hl Hb).
  - rewrite lookup_seq_ge by lia. rewrite (lookup_ge_None_2 L) by lia. done.
Qed.

Lemma layout (c : lists B) : well_formed c → ∃ pre L post,
  length L = length (valid c) ∧
  offs c = length pre :: sums (length pre) L ∧ vals c = pre ++ concat L ++ post.
Proof.
  destruct c as [o l v]. intros (Hlen & Hmono & Hmax). cbn [offs vals valid] in *.
  assert (∀ (v : list bool) (o : list nat) (pre rest : list (option B)), length o = S (length v) →
    (∀ i, i < length v → o !!! i ≤ o !!! S i) →
    (∀ i, i ≤ length v → o !!! i ≤ length (pre ++ rest)) →
    o !!! 0 = length pre →
    ∃ (L : list (list (option B))) (post : list (option B)), length L = length v ∧ o = length pre :: sums (length pre) L ∧
      rest = concat L ++ post) as Hgen.
  { clear. intros v. induction v as [|b v IH]; intros o pre rest Hlen Hm Hx H0.
    - destruct o as [|x [|y o]]; try discriminate Hlen. cbn in H0. subst x.
      exists [], rest. done.
    - destruct o as [|x [|y o]]; try discriminate Hlen. cbn in H0. subst x.
      pose proof (Hm 0 ltac:(cbn; lia)) as Hxy. pose proof (Hx 1 ltac:(cbn; lia)) as Hy.
      cbn in Hxy, Hy. rewrite app_length in Hy.
      destruct (IH (y :: o) (pre ++ take (y - length pre) rest) (drop (y - length pre) rest))
        as (L & post & HL & Ho & Hr).
      + cbn in Hlen |- *. lia.
      + intros i Hi. apply (Hm (S i)). cbn. lia.
      + intros i Hi. rewrite <- app_assoc, take_drop. apply (Hx (S i)). cbn. lia.
      + cbn. rewrite app_length, take_length. lia.
      + exists (take (y - length pre) rest :: L), post. split_and!.
        * cbn. by rewrite HL.
        * cbn [sums]. rewrite Ho, app_length. done.
        * cbn [concat]. rewrite <- app_assoc, <- Hr. by rewrite take_drop. }
  destruct o as [|x o]; [discriminate Hlen|].
  pose proof (Hmax 0 ltac:(lia)) as Hx. cbn in Hx.
  destruct (Hgen v (x :: o) (take x l) (drop x l)) as (L & post & HL & Ho & Hr).
  - done.
  - done.
  - by rewrite take_drop.
  - cbn. rewrite take_length. lia.
  - exists (take x l), L, post. split_and!; [done..|]. rewrite <- Hr. by rewrite take_drop.
Qed.

End layout.

(** ** array_position *)

Section position.
Context {A : Type} (eq : A → A → bool).

Lemma position_loop_spec (l pre mid post : list (option A)) x :
  (∀ i v, pre !! i = Some (Some v) → eq v x = false) →
  ∀ h, is_position eq (pre ++ mid) x
    (position_loop eq (h ++ pre ++ mid ++ post) x (length h)
       (seq (length h + length pre) (length mid))).
Proof.
  clear l. revert pre. induction mid as [|y mid IH]; intros pre Hpre h.
  - cbn. left. split; [done|]. by rewrite app_nil_r.
  - cbn [length seq position_loop].
    assert ((h ++ pre ++ (y :: mid) ++ post) !! (length h + length pre) = Some y) as ->.
    { rewrite lookup_app_r by lia. rewrite lookup_app_r by lia.
      replace (length h + length pre - length h - length pre) with 0 by lia. done. }
    assert (h ++ pre ++ (y :: mid) ++ post = h ++ (pre ++ [y]) ++ mid ++ post) as Hl
      by (by rewrite <- !app_assoc).
    assert (pre ++ y :: mid = (pre ++ [y]) ++ mid) as Hm by (by rewrite <- app_assoc).
    assert (S (length h + length pre) = length h + length (pre ++ [y])) as Hs
      by (rewrite app_length; cbn; lia).
    destruct y as [v|].
    + destruct (eq v x) eqn:He.
      * right. exists (length pre), v. split_and!.
        -- lia.
        -- rewrite lookup_app_r by lia. by rewrite Nat.sub_diag.
        -- done.
        -- intros j w Hj Hw. rewrite lookup_app_l in Hw by lia. eauto.
      * rewrite Hl, Hm, Hs. apply IH. intros i w Hw.
        apply lookup_app_Some in Hw as [Hw|[Hge Hw]]; [eauto|].
        apply list_lookup_singleton_Some in Hw as [_ [= ->]]. done.
    + rewrite Hl, Hm, Hs. apply IH. intros i w Hw.
      apply lookup_app_Some in Hw as [Hw|[Hge Hw]]; [eauto|].
      by apply list_lookup_singleton_Some in Hw as [_ [=]].
Qed.

Lemma array_position_spec (c : lists A) x :
  well_formed c → length x = length (valid c) →
  length (array_position eq c x) = length (valid c) ∧
  ∀ i y, x !! i = Some y →
  match row c i, y with
  | Some l, Some y => ∃ p, array_position eq c x !! i = Some (Some p) ∧ is_position eq l y p
  | _, _ => array_position eq c x !! i = Some None
  end.
Proof.
  intros Hwf Hx. destruct (layout c Hwf) as (pre & L & post & HL & Ho & Hv).
  destruct c as [o l v]. cbn [offs vals valid] in *. subst o l.
  unfold array_position. cbn [offs vals valid]. rewrite windows_sums. split.
  { rewrite zip_with_length, zip_with_length, spans_length. lia. }
  intros i y Hy. pose proof (lookup_lt_Some _ _ _ Hy) as Hi.
  destruct (lookup_lt_is_Some_2 L i) as [l Hl]; [lia|].
  destruct (lookup_lt_is_Some_2 v i) as [b Hb]; [lia|].
  rewrite (row_build _ _ _ _ _ _ _ Hl Hb).
  rewrite !lookup_zip_with, (spans_at _ _ _ _ Hl), Hb, Hy.
  cbn [mbind option_bind].
  destruct b; cbn [show_row]; [|by destruct y].
  destruct y as [y|]; [|done]. eexists. split; [done|].
  rewrite (concat_at _ _ _ Hl).
  replace (length pre + length (concat (take i L)) + length l
           - (length pre + length (concat (take i L)))) with (length l) by lia.
  pose proof (position_loop_spec [] [] l (concat (drop (S i) L) ++ post) y
    ltac:(intros ?? H; by rewrite lookup_nil in H) (pre ++ concat (take i L))) as Hp.
  cbn [length app] in Hp. rewrite app_length in Hp. rewrite Nat.add_0_r in Hp.
  rewrite <- !app_assoc in Hp. rewrite <- !app_assoc. done.
Qed.

End position.

(** ** array_compact *)

Section compact.
Context {A : Type}.

Lemma filter_mask_app {B} (m m' : list bool) (l l' : list B) :
  length m = length l →
  filter_mask (m ++ m') (l ++ l') = filter_mask m l ++ filter_mask m' l'.
Proof.
  revert l. induction m as [|b m IH]; intros [|x l] H; try discriminate H; [done|].
  cbn. injection H as H. rewrite IH by done. by destruct b.
Qed.

Lemma filter_mask_false {B} (l : list B) : filter_mask (replicate (length l) false) l = [].
Proof. induction l; [done|]. done. Qed.

Lemma filter_mask_count {B} (m : list bool) (l : list B) :
  length m = length l → length (filter_mask m l) = count m.
Proof.
  revert l. induction m as [|b m IH]; intros [|x l] H; try discriminate H; [done|].
  injection H as H. unfold count in *. cbn. destruct b; cbn; rewrite IH; done.
Qed.

Lemma keep_mask (pre l post : list (option A)) :
  (fun j => match (pre ++ l ++ post) !! j with Some (Some _) => true | _ => false end)
    <$> seq (length pre) (length l)
  = (fun x : option A => bool_decide (is_Some x)) <$> l.
Proof.
  revert pre. induction l as [|x l IH]; intros pre; [done|].
  cbn [length seq fmap list_fmap]. f_equal.
  - rewrite lookup_app_r by lia. rewrite Nat.sub_diag. cbn.
    destruct x; [by rewrite bool_decide_true by done|].
    rewrite bool_decide_false; [done|]. by intros [? [=]].
  - specialize (IH (pre ++ [x])). rewrite app_length in IH. cbn [length] in IH.
    rewrite Nat.add_1_r in IH. rewrite <- app_assoc in IH. exact IH.
Qed.

Lemma filter_mask_decide {B} (P : B → Prop) `{∀ x, Decision (P x)} (l : list B) :
  filter_mask ((fun x => bool_decide (P x)) <$> l) l = filter P l.
Proof.
  induction l as [|x l IH]; [done|]. cbn [fmap list_fmap filter_mask].
  rewrite filter_cons, IH. destruct (decide (P x)).
  - by rewrite bool_decide_true by done.
  - by rewrite bool_decide_false by done.
Qed.

Definition compacted (l : list (option A)) (v : bool) : list (option A) :=
  if v then filter is_Some l else [].

Lemma compact_loop_spec (pre post : list (option A)) L v total :
  length L = length v →
  let r := compact_loop (pre ++ concat L ++ post) (zip (spans (length pre) L) v) total in
  length r.1 = length (concat L) ∧
  r.2 = sums total (zip_with compacted L v) ∧
  filter_mask r.1 (concat L ++ post) = concat (zip_with compacted L v).
Proof.
  revert pre v total. induction L as [|l L IH]; intros pre v total HL.
  { destruct v; [done|discriminate]. }
  destruct v as [|b v]; [discriminate HL|]. injection HL as HL.
  cbn [spans zip_with concat].
  assert (length pre + length l - length pre = length l) as Hlen by lia.
  assert (pre ++ (l ++ concat L) ++ post = (pre ++ l) ++ concat L ++ post) as Hl
    by (by rewrite <- !app_assoc).
  assert (length pre + length l = length (pre ++ l)) as Hp by (by rewrite app_length).
  destruct b; cbn [compact_loop]; cbv zeta; cbn [fst snd].
  - rewrite Hlen. rewrite <- (app_assoc l), (keep_mask pre l (concat L ++ post)).
    set (m := (fun x : option A => bool_decide (is_Some x)) <$> l).
    assert (filter_mask m l = filter is_Some l) as Hm by apply filter_mask_decide.
    assert (length m = length l) as Hml by apply fmap_length.
    assert (count m = length (filter is_Some l)) as Hc
      by (rewrite <- Hm; symmetry; by apply filter_mask_count).
    rewrite Hc, Hp, (app_assoc pre l (concat L ++ post)).
    destruct (IH (pre ++ l) v (total + length (filter is_Some l)) HL) as (H1 & H2 & H3).
    split_and!.
    + by rewrite app_length, H1, Hml, app_length.
    + rewrite H2. done.
    + rewrite filter_mask_app by done. rewrite H3, Hm. done.
  - rewrite Hlen, Hl, Hp.
    destruct (IH (pre ++ l) v total HL) as (H1 & H2 & H3).
    split_and!.
    + by rewrite app_length, replicate_length, H1, app_length.
    + rewrite H2. cbn [compacted sums length]. by rewrite Nat.add_0_r.
    + rewrite <- (app_assoc l (concat L) post), filter_mask_app by (by rewrite replicate_length).
      rewrite filter_mask_false, H3. done.
Qed.

Lemma array_compact_spec (c : lists A) :
  well_formed c → offs c !!! 0 = 0 →
  rows (array_compact c)
  = (fun r => match r with Some l => Some (filter is_Some l) | None => None end) <$> rows c.
Proof.
  intros Hwf H0. destruct (layout c Hwf) as (pre & L & post & HL & Ho & Hv).
  destruct c as [o l v]. cbn [offs vals valid] in *. subst o l.
  cbn in H0. destruct pre; [|discriminate H0]. 
  rewrite (rows_build [] L post v HL).
  unfold array_compact. cbn [offs vals valid]. rewrite windows_sums.
  destruct (compact_loop_spec [] post L v 0 HL) as (H1 & H2 & H3).
  cbn [app length] in H1, H2, H3 |- *. rewrite H2, H3.
  pose proof (rows_build [] (zip_with compacted L v) [] v) as Hb.
  cbn [app length] in Hb. rewrite app_nil_r in Hb. rewrite Hb.
  - clear. revert v. induction L as [|l L IH]; intros [|b v]; [done..|].
    cbn [zip_with fmap list_fmap]. f_equal; [by destruct b|apply IH].
  - rewrite zip_with_length. lia.
Qed.

End compact.

(** ** arrays_zip *)

Section zip.
Context {A : Type}.

Definition zip_chunk (r : list (nat * nat) * bool) : list (list (option nat)) :=
  if r.2 then zip_row r.1 else [].

Lemma zip_loop_spec rs last :
  zip_loop rs last = (concat (zip_chunk <$> rs), sums last (zip_chunk <$> rs)).
Proof.
  revert last. induction rs as [|[s b] rs IH]; intros last; [done|].
  destruct b; cbn; rewrite IH; cbn; [done|]. by rewrite Nat.add_0_r.
Qed.

Lemma fmap_sums {C D} (g : C → D) t (L : list (list C)) :
  sums t ((fun l : list C => g <$> l) <$> L) = sums t L.
Proof. revert t. induction L as [|l L IH]; intros t; [done|]. cbn. by rewrite fmap_length, IH. Qed.

Lemma fmap_concat {C D} (g : C → D) (L : list (list C)) :
  g <$> concat L = concat ((fun l : list C => g <$> l) <$> L).
Proof. induction L as [|l L IH]; [done|]. cbn. by rewrite fmap_app, IH. Qed.

(** One row of one array, through its span. *)
Lemma row_span (c : lists A) i l :
  well_formed c → row c i = Some l → i < length (valid c) →
  ∃ s, windows (offs c) !! i = Some (s, s + length l) ∧
    ∀ k, k < length l → l !! k = Some (vals c !!! (s + k)).
Proof.
  intros Hwf Hr Hi. destruct (layout c Hwf) as (pre & L & post & HL & Ho & Hv).
  destruct c as [o vs v]. cbn [offs vals valid] in *. subst o vs.
  destruct (lookup_lt_is_Some_2 L i) as [l' Hl]; [lia|].
  destruct (lookup_lt_is_Some_2 v i) as [b Hb]; [lia|].
  rewrite (row_build _ _ _ _ _ _ _ Hl Hb) in Hr.
  destruct b; [|done]. injection Hr as ->.
  exists (length pre + length (concat (take i L))).
  rewrite windows_sums, (spans_at _ _ _ _ Hl). split; [done|].
  intros k Hk. rewrite (concat_at _ _ _ Hl), <- !app_assoc.
  rewrite lookup_total_app_r by lia.
  rewrite lookup_total_app_r by lia.
  rewrite lookup_total_app_l by lia.
  rewrite list_lookup_lookup_total_lt by lia. do 2 f_equal. lia.
Qed.

Lemma zip_row_spec (cs : list (lists A)) ls i :
  Forall2 (fun c l => well_formed c ∧ i < length (valid c) ∧ row c i = Some l) cs ls →
  (fun ixs => Some (zip_with (fun c (ix : option nat) =>
       match ix with Some j => vals c !!! j | None => None end) cs ixs))
    <$> zip_row ((fun c => windows (offs c) !!! i) <$> cs)
  = zipped ls.
Proof.
  intros H. unfold zip_row, zipped.
  assert ((fun '(s, e) => e - s) <$> ((fun c : lists A => windows (offs c) !!! i) <$> cs)
          = length <$> ls) as ->.
  { induction H as [|c l cs ls (Hwf & Hi & Hr) H IH]; [done|].
    cbn. f_equal; [|exact IH].
    destruct (row_span c i l Hwf Hr Hi) as (s & Hs & _).
    rewrite (list_lookup_total_correct _ _ _ Hs). lia. }
  rewrite <- list_fmap_compose. apply list_fmap_ext. intros _ k _. unfold compose. f_equal.
  induction H as [|c l cs ls (Hwf & Hi & Hr) H IH]; [done|].
  cbn [fmap list_fmap zip_with]. f_equal; [|exact IH].
  destruct (row_span c i l Hwf Hr Hi) as (s & Hs & Hk).
  rewrite (list_lookup_total_correct _ _ _ Hs).
  replace (s + length l - s) with (length l) by lia.
  destruct (k <? length l) eqn:Hkl.
  - apply Nat.ltb_lt in Hkl. by rewrite (Hk _ Hkl).
  - apply Nat.ltb_ge in Hkl. by rewrite lookup_ge_None_2.
Qed.

Lemma arrays_zip_spec n (cs : list (lists A)) :
  Forall (fun c => well_formed c ∧ length (valid c) = n) cs →
  rows (arrays_zip n cs)
  = (fun i => zipped <$> mapM (fun c => row c i) cs) <$> seq 0 n.
Proof.
  intros Hcs. unfold arrays_zip. rewrite zip_loop_spec. cbn [fst snd].
  rewrite fmap_concat.
  set (g := fun ixs : list (option nat) => Some (zip_with (fun (c : lists A) (ix : option nat) =>
       match ix with Some j => vals c !!! j | None => None end) cs ixs)).
  set (rs := (fun i => _) <$> seq 0 n).
  rewrite <- (fmap_sums g).
  pose proof (rows_build [] ((fun l : list (list (option nat)) => g <$> l) <$> (zip_chunk <$> rs)) [] (snd <$> rs)) as Hb.
  cbn [app length] in Hb. rewrite app_nil_r in Hb. rewrite Hb by (by rewrite !fmap_length).
  subst rs. rewrite <- !list_fmap_compose.
  rewrite zip_with_fmap_l, zip_with_fmap_r.
  rewrite zip_with_diag. apply list_fmap_ext. intros _ i Hi%elem_of_list_lookup_2.
  apply elem_of_seq in Hi. unfold compose, zip_chunk, show_row. cbn [fst snd].
  destruct (forallb (fun c : lists A => valid c !!! i) cs) eqn:Hall.
  - assert (∃ ls, Forall2 (fun c l => well_formed c ∧ i < length (valid c) ∧ row c i = Some l) cs ls)
      as [ls Hls].
    { clear -Hcs Hall Hi. induction Hcs as [|c cs [Hwf Hn] Hcs IH]; [by exists []|].
      cbn in Hall. apply andb_true_iff in Hall as [Hv Hall].
      destruct (IH Hall) as [ls Hls].
      assert (is_Some (row c i)) as [l Hl].
      { unfold row. destruct (valid c !!! i : bool); [by eexists|discriminate Hv]. }
      exists (l :: ls). constructor; [|done]. split_and!; [done|lia|done]. }
    pose proof (zip_row_spec cs ls i Hls) as Hz. fold g in Hz. cbv iota. rewrite Hz.
    assert (mapM (fun c => row c i) cs = Some ls) as ->; [|done].
    apply mapM_Some. eapply Forall2_impl; [exact Hls|]. by intros ?? (_ & _ & ?).
  - assert (mapM (fun c => row c i) cs = None) as ->; [|done].
    clear -Hall. induction cs as [|c cs IH]; [done|].
    cbn in Hall |- *. destruct (valid c !!! i : bool) eqn:Hv.
    + cbn in Hall. rewrite (IH Hall). by destruct (row c i).
    + assert (row c i = None) as ->; [|done]. unfold row. by rewrite Hv.
Qed.

End zip.

(** ** array_intersect *)

Section intersect.
Context {A : Type} `{EqDecision A}.
Implicit Types (l r seen h : list (option A)).

Fixpoint common_seen r seen l : list (option A) :=
  match l with
  | [] => []
  | x :: l' =>
      if decide (x ∈ r ∧ x ∉ seen) then x :: common_seen r (x :: seen) l'
      else common_seen r seen l'
  end.

Lemma probe_spec p l q r seen :
  let z := probe_loop (p ++ l ++ q) r (seq (length p) (length l)) seen in
  (fun i => (p ++ l ++ q) !!! i) <$> z.1 = common_seen r seen l ∧
  length z.2 = length seen + length z.1.
Proof.
  revert p seen. induction l as [|x l IH]; intros p seen.
  { cbn. split; [done|lia]. }
  cbn [length seq probe_loop common_seen].
  assert ((p ++ (x :: l) ++ q) !!! length p = x) as Hx.
  { rewrite lookup_total_app_r by lia. rewrite Nat.sub_diag. done. }
  rewrite Hx.
  assert (p ++ (x :: l) ++ q = (p ++ [x]) ++ l ++ q) as Hl by (by rewrite <- app_assoc).
  assert (S (length p) = length (p ++ [x])) as Hs by (rewrite app_length; cbn; lia).
  destruct (decide (x ∈ r ∧ x ∉ seen)).
  - cbv zeta. cbn [fst snd fmap list_fmap length]. rewrite Hx. rewrite Hl, Hs.
    destruct (IH (p ++ [x]) (x :: seen)) as [H1 H2]. split.
    + by rewrite H1.
    + rewrite H2. cbn [length]. lia.
  - cbv zeta. rewrite Hl, Hs. apply IH.
Qed.

Lemma omap_fmap_S {X} (g : nat → option X) n m :
  omap g (seq (S n) m) = omap (fun i => g (S i)) (seq n m).
Proof.
  revert n. induction m as [|m IH]; intros n; [done|].
  cbn. rewrite IH. done.
Qed.

Lemma common_seen_spec r l seen h :
  (∀ x, x ∈ r → x ∈ seen ↔ x ∈ h) →
  common_seen r seen l
  = omap (fun i => x ← l !! i; if decide (x ∈ r ∧ x ∉ h ++ take i l) then Some x else None)
      (seq 0 (length l)).
Proof.
  revert seen h. induction l as [|x l IH]; intros seen h Hsh; [done|].
  cbn [length common_seen]. change (seq 0 (S (length l))) with (0 :: seq 1 (length l)).
  change (omap ?g (0 :: ?t)) with
    (match g 0 with Some y => y :: omap g t | None => omap g t end).
  rewrite omap_fmap_S. cbv beta. 
  assert (∀ y, y ∈ r → y ∈ h ++ [x] ↔ y ∈ h ∨ y = x) as Hhx.
  { intros y _. rewrite elem_of_app, elem_of_list_singleton. done. }
  assert (∀ seen', (∀ y, y ∈ r → y ∈ seen' ↔ y ∈ h ++ [x]) →
    common_seen r seen' l =
    omap (fun i => y ← (x :: l) !! S i;
            if decide (y ∈ r ∧ y ∉ h ++ take (S i) (x :: l)) then Some y else None)
      (seq 0 (length l))) as Htail.
  { intros seen' Hs. rewrite (IH seen' (h ++ [x]) Hs).
    apply list_omap_ext. apply Forall_Forall2_diag. apply Forall_true.
    intros i. cbn [lookup list_lookup take]. rewrite <- app_assoc. done. }
  cbn [lookup list_lookup mbind option_bind take]. rewrite app_nil_r.
  destruct (decide (x ∈ r ∧ x ∉ seen)) as [[Hr Hn]|Hn].
  - rewrite decide_True by (split; [done|by rewrite <- Hsh]).
    f_equal. apply Htail. intros y Hy. rewrite Hhx by done. rewrite elem_of_cons, Hsh by done.
    tauto.
  - rewrite decide_False.
    2:{ intros [Hr Hh]. apply Hn. split; [done|]. by rewrite Hsh. }
    apply Htail. intros y Hy. rewrite Hhx by done. rewrite Hsh by done.
    split; [by left|]. intros [?| ->]; [done|].
    destruct (decide (x ∈ seen)); [by apply Hsh|]. exfalso. by apply Hn.
Qed.

Definition common_chunk (lr : list (option A) * list (option A)) (v : bool) : list (option A) :=
  if v then common lr.1 lr.2 else [].

Lemma set_loop_spec (L R : list (list (option A))) p p' q q' lf rf vl vr last :
  length L = length vl → length R = length vr → length vl = length vr →
  let ll := p ++ concat L ++ p' in
  let chunks := zip_with common_chunk (zip L R) (zip_with andb vl vr) in
  let z := set_loop ll (q ++ concat R ++ q') lf rf
     (zip (zip (spans (lf + length p) L) vl) (zip (spans (rf + length q) R) vr)) last in
  (fun i => ll !!! i) <$> z.1 = concat chunks ∧ z.2 = sums last chunks.
Proof.
  revert R p q vl vr last.
  induction L as [|l L IH]; intros R p q vl vr last HL HR HV.
  { destruct vl; [|discriminate]. done. }
  destruct vl as [|a vl]; [discriminate|]. destruct vr as [|b vr]; [discriminate|].
  destruct R as [|r R]; [discriminate|].
  injection HL as HL. injection HR as HR. injection HV as HV.
  cbv zeta. cbn [spans zip_with concat].
  assert (p ++ (l ++ concat L) ++ p' = (p ++ l) ++ concat L ++ p') as Ep
    by (by rewrite <- !app_assoc).
  assert (q ++ (r ++ concat R) ++ q' = (q ++ r) ++ concat R ++ q') as Eq
    by (by rewrite <- !app_assoc).
  assert (lf + length p + length l = lf + length (p ++ l)) as Elf by (rewrite app_length; lia).
  assert (rf + length q + length r = rf + length (q ++ r)) as Erf by (rewrite app_length; lia).
  rewrite Elf, Erf.
  destruct (andb a b) eqn:Hab.
  - apply andb_true_iff in Hab as [-> ->]. cbn [set_loop]. cbv zeta. cbn [fst snd common_chunk].
    replace (lf + length p - lf) with (length p) by lia.
    replace (lf + length (p ++ l) - lf - length p) with (length l) by (rewrite app_length; lia).
    replace (rf + length q - rf) with (length q) by lia.
    replace (rf + length (q ++ r) - rf) with (length q + length r) by (rewrite app_length; lia).
    assert (sub (q ++ (r ++ concat R) ++ q') (length q) (length q + length r) = r) as Hsub.
    { unfold sub. rewrite drop_app. replace (length q + length r - length q) with (length r) by lia.
      rewrite <- app_assoc. by rewrite take_app. }
    rewrite Hsub.
    assert (p ++ (l ++ concat L) ++ p' = p ++ l ++ (concat L ++ p')) as Ep2
      by (by rewrite <- !app_assoc).
    destruct (probe_spec p l (concat L ++ p') r []) as [H1 H2].
    rewrite <- Ep2 in H1, H2.
    assert (common_seen r [] l = common l r) as Hc.
    { rewrite (common_seen_spec r l [] []) by done. done. }
    rewrite Hc in H1.
    set (z := probe_loop _ _ _ _) in *.
    assert (length z.2 = length (common l r)) as Hz.
    { rewrite H2. cbn [length]. rewrite <- H1, fmap_length. done. }
    rewrite Hz. rewrite fmap_app, H1. clearbody z. 
    rewrite Eq, Ep. 
    destruct (IH R (p ++ l) (q ++ r) vl vr (last + length (common l r)) HL HR HV) as [H3 H4].
    split.
    + rewrite H3. done.
    + rewrite H4. done.
  - assert (∀ s spans', set_loop (p ++ (l ++ concat L) ++ p') (q ++ (r ++ concat R) ++ q') lf rf
        (((s, a), ((rf + length q, rf + length (q ++ r)), b)) :: spans') last
      = let z := set_loop (p ++ (l ++ concat L) ++ p') (q ++ (r ++ concat R) ++ q') lf rf spans' last in
        (z.1, last :: z.2)) as Hskip.
    { intros [s e] sp. destruct a, b; try discriminate Hab; done. }
    rewrite Hskip. cbv zeta. cbn [fst snd common_chunk].
    rewrite Ep, Eq.
    destruct (IH R (p ++ l) (q ++ r) vl vr last HL HR HV) as [H3 H4].
    split.
    + rewrite H3. done.
    + rewrite H4. cbn [sums length]. by rewrite Nat.add_0_r.
Qed.

Lemma last_sums {C} t (L : list (list C)) :
  default 0 (list.last (t :: sums t L)) = t + length (concat L).
Proof.
  revert t. induction L as [|l L IH]; intros t; [cbn; lia|].
  cbn [sums]. change (list.last (t :: (t + length l) :: sums (t + length l) L))
    with (list.last ((t + length l) :: sums (t + length l) L)).
  rewrite IH. cbn [concat]. rewrite app_length. lia.
Qed.

Lemma list_values_layout {B} (pre post : list (option B)) L v :
  list_values (Lists (length pre :: sums (length pre) L) (pre ++ concat L ++ post) v) = concat L.
Proof.
  unfold list_values, first_off, last_off. cbn [offs vals hd]. rewrite last_sums.
  unfold sub. replace (length pre + length (concat L) - length pre) with (length (concat L)) by lia.
  rewrite drop_app. by rewrite take_app.
Qed.

Lemma array_intersect_spec (a b : lists A) :
  well_formed a → well_formed b → length (valid a) = length (valid b) →
  rows (array_intersect a b)
  = zip_with (fun x y => match x, y with
                         | Some l, Some r => Some (common l r)
                         | _, _ => None
                         end) (rows a) (rows b).
Proof.
  intros Ha Hb Hab.
  destruct (layout a Ha) as (p & L & p' & HL & Ho & Hv).
  destruct (layout b Hb) as (q & R & q' & HR & Ho' & Hv').
  destruct a as [oa la va]. destruct b as [ob lb vb]. cbn [offs vals valid] in *. subst.
  unfold array_intersect. rewrite !list_values_layout, !rows_build by done.
  cbn [offs valid first_off hd]. rewrite !windows_sums.
  pose proof (set_loop_spec L R [] [] [] [] (length p) (length q) va vb 0 HL HR Hab) as Hs.
  cbv zeta in Hs. cbn [app length] in Hs. rewrite !app_nil_r, !Nat.add_0_r in Hs.
  unfold first_off. cbn [offs hd].
  destruct Hs as [H1 H2]. rewrite H1, H2.
  pose proof (rows_build [] (zip_with common_chunk (zip L R) (zip_with andb va vb)) []
    (zip_with andb va vb)) as Hb'.
  cbn [app length] in Hb'. rewrite app_nil_r in Hb'. rewrite Hb'.
  - clear -HL HR Hab. revert R va vb HL HR Hab.
    induction L as [|l L IH]; intros [|r R] [|a va] [|b vb] HL HR Hab; try discriminate; [done|].
    cbn [zip_with]. f_equal; [by destruct a, b|]. apply IH; by simplify_eq/=.
  - rewrite !zip_with_length. lia.
Qed.

(** One side has no element but NULL. *)
Lemma common_seen_nulls r l seen :
  (Forall (.= None) l ∨ Forall (.= None) r) →
  common_seen r seen l
  = if decide (None ∈ l ∧ None ∈ r ∧ None ∉ seen) then [None] else [].
Proof.
  intros H. revert seen. induction l as [|x l IH]; intros seen.
  { cbn [common_seen]. rewrite decide_False; [done|]. intros [Hn _]. by apply elem_of_nil in Hn. }
  assert (Forall (.= None) l ∨ Forall (.= None) r) as H'.
  { destruct H as [H|H]; [left|by right]. by inversion H. }
  cbn [common_seen]. destruct (decide (x ∈ r ∧ x ∉ seen)) as [[H1 H2]|Hn].
  - assert (x = None) as ->.
    { destruct H as [H|H]; [by inversion H|]. rewrite Forall_forall in H. by apply H. }
    rewrite (IH H'). rewrite decide_False.
    2:{ intros (_ & _ & Hs). apply Hs. left. }
    rewrite decide_True; [done|]. split_and!; [left|done|done].
  - rewrite (IH H'). apply decide_ext. split.
    + intros (Ha & Hb & Hc). split_and!; [by right|done|done].
    + intros (Ha & Hb & Hc). split_and!; [|done|done].
      apply elem_of_cons in Ha as [<-|Ha]; [|done]. by destruct Hn.
Qed.

Lemma common_nulls (l r : list (option A)) :
  (Forall (.= None) l ∨ Forall (.= None) r) →
  common l r = if decide (None ∈ l ∧ None ∈ r) then [None] else [].
Proof.
  intros H. transitivity (common_seen r [] l).
  { symmetry. rewrite (common_seen_spec r l [] []) by done. done. }
  rewrite common_seen_nulls by done. apply decide_ext.
  split; [tauto|]. intros [? ?]. split_and!; [done|done|]. apply not_elem_of_nil.
Qed.

Lemma has_null_spec nt (p l q : list (option A)) :
  (nt = true → Forall (.= None) l) →
  has_null nt (p ++ l ++ q) (length p) (length p + length l) = bool_decide (None ∈ l).
Proof.
  intros H. unfold has_null. destruct nt.
  - specialize (H eq_refl). symmetry. destruct l as [|x l].
    + cbn [length]. rewrite Nat.add_0_r, Nat.ltb_irrefl. apply bool_decide_eq_false. apply not_elem_of_nil.
    + rewrite (proj2 (Nat.ltb_lt _ _)) by (cbn [length]; lia). apply bool_decide_eq_true.
      inversion H; subst. left.
  - replace (length p + length l - length p) with (length l) by lia.
    apply eq_true_iff_eq. rewrite existsb_exists, bool_decide_eq_true. split.
    + intros (i & Hi & Hx). apply in_seq in Hi.
      rewrite list_lookup_total_alt, lookup_app_r in Hx by lia.
      rewrite lookup_app_l in Hx by lia.
      destruct (lookup_lt_is_Some_2 l (i - length p)) as [y Hy]; [lia|].
      rewrite Hy in Hx. destruct y; [discriminate|]. by eapply elem_of_list_lookup_2.
    + intros [i Hi]%elem_of_list_lookup. pose proof (lookup_lt_Some _ _ _ Hi) as Hl.
      exists (length p + i). split; [apply in_seq; lia|].
      rewrite list_lookup_total_alt, lookup_app_r by lia.
      replace (length p + i - length p) with i by lia.
      rewrite lookup_app_l by lia. by rewrite Hi.
Qed.

Lemma null_loop_spec (L R : list (list (option A))) p p' q q' ln rn vl vr last :
  length L = length vl → length R = length vr → length vl = length vr →
  (ln = true ∨ rn = true) →
  (ln = true → Forall (Forall (.= None)) L) → (rn = true → Forall (Forall (.= None)) R) →
  let chunks := zip_with common_chunk (zip L R) (zip_with andb vl vr) in
  let z := null_loop ln rn (p ++ concat L ++ p') (q ++ concat R ++ q')
     (zip (zip (spans (length p) L) vl) (zip (spans (length q) R) vr)) last in
  replicate z.2 None = concat chunks ∧ z.1 = sums last chunks.
Proof.
  revert R p q vl vr last.
  induction L as [|l L IH]; intros R p q vl vr last HL HR HV Ht Hl Hr.
  { destruct vl; [|discriminate]. done. }
  destruct vl as [|a vl]; [discriminate|]. destruct vr as [|b vr]; [discriminate|].
  destruct R as [|r R]; [discriminate|].
  injection HL as HL. injection HR as HR. injection HV as HV.
  assert (ln = true → Forall (.= None) l) as Hl1 by (intros H; specialize (Hl H); by inversion Hl).
  assert (ln = true → Forall (Forall (.= None)) L) as Hl2 by (intros H; specialize (Hl H); by inversion Hl).
  assert (rn = true → Forall (.= None) r) as Hr1 by (intros H; specialize (Hr H); by inversion Hr).
  assert (rn = true → Forall (Forall (.= None)) R) as Hr2 by (intros H; specialize (Hr H); by inversion Hr).
  cbv zeta. cbn [spans zip_with concat].
  assert (p ++ (l ++ concat L) ++ p' = (p ++ l) ++ concat L ++ p') as Ep
    by (by rewrite <- !app_assoc).
  assert (q ++ (r ++ concat R) ++ q' = (q ++ r) ++ concat R ++ q') as Eq
    by (by rewrite <- !app_assoc).
  destruct (andb a b) eqn:Hab.
  - apply andb_true_iff in Hab as [-> ->]. cbn [null_loop].
    assert (has_null ln (p ++ (l ++ concat L) ++ p') (length p) (length p + length l)
            = bool_decide (None ∈ l)) as ->.
    { rewrite <- (app_assoc l). by apply has_null_spec. }
    assert (has_null rn (q ++ (r ++ concat R) ++ q') (length q) (length q + length r)
            = bool_decide (None ∈ r)) as ->.
    { rewrite <- (app_assoc r). by apply has_null_spec. }
    rewrite <- bool_decide_and. cbn [fst snd common_chunk].
    rewrite (common_nulls l r) by (destruct Ht; [left|right]; auto).
    assert (length p + length l = length (p ++ l)) as -> by (by rewrite app_length).
    assert (length q + length r = length (q ++ r)) as -> by (by rewrite app_length).
    rewrite Ep, Eq.
    destruct (decide (None ∈ l ∧ None ∈ r)) as [Hn|Hn].
    + rewrite bool_decide_true by done. cbn [fst snd].
      destruct (IH R (p ++ l) (q ++ r) vl vr (last + 1) HL HR HV Ht Hl2 Hr2) as [H3 H4].
      split; [cbn [replicate app]; by rewrite H3|]. rewrite H4. done.
    + rewrite bool_decide_false by done. cbn [fst snd].
      destruct (IH R (p ++ l) (q ++ r) vl vr last HL HR HV Ht Hl2 Hr2) as [H3 H4].
      split; [by rewrite H3|]. rewrite H4. cbn [sums length]. by rewrite Nat.add_0_r.
  - assert (length p + length l = length (p ++ l)) as -> by (by rewrite app_length).
    assert (length q + length r = length (q ++ r)) as -> by (by rewrite app_length).
    assert (∀ s t spans', null_loop ln rn (p ++ (l ++ concat L) ++ p') (q ++ (r ++ concat R) ++ q')
        (((s, a), (t, b)) :: spans') last
      = let z := null_loop ln rn (p ++ (l ++ concat L) ++ p') (q ++ (r ++ concat R) ++ q') spans' last in
        (last :: z.1, z.2)) as Hskip.
    { intros [s e] [t u] sp. destruct a, b; try discriminate Hab; done. }
    rewrite Hskip. cbv zeta. cbn [fst snd common_chunk]. rewrite Ep, Eq.
    destruct (IH R (p ++ l) (q ++ r) vl vr last HL HR HV Ht Hl2 Hr2) as [H3 H4].
    split; [by rewrite H3|]. rewrite H4. cbn [sums length]. by rewrite Nat.add_0_r.
Qed.

Lemma null_intersect_spec ln rn (a b : lists A) :
  well_formed a → well_formed b → length (valid a) = length (valid b) →
  (ln = true ∨ rn = true) →
  (ln = true → Forall (.= None) (vals a)) → (rn = true → Forall (.= None) (vals b)) →
  rows (null_intersect ln rn a b)
  = zip_with (fun x y => match x, y with
                         | Some l, Some r => Some (common l r)
                         | _, _ => None
                         end) (rows a) (rows b).
Proof.
  intros Ha Hb Hab Ht Hl Hr.
  destruct (layout a Ha) as (p & L & p' & HL & Ho & Hv).
  destruct (layout b Hb) as (q & R & q' & HR & Ho' & Hv').
  destruct a as [oa la va]. destruct b as [ob lb vb]. cbn [offs vals valid] in *. subst.
  unfold null_intersect. rewrite !rows_build by done.
  cbn [offs valid vals]. rewrite !windows_sums.
  destruct (null_loop_spec L R p p' q q' ln rn va vb 0 HL HR Hab Ht) as [H1 H2].
  { intros H. specialize (Hl H). rewrite !Forall_app in Hl. apply Forall_concat, Hl. }
  { intros H. specialize (Hr H). rewrite !Forall_app in Hr. apply Forall_concat, Hr. }
  rewrite H1, H2.
  pose proof (rows_build [] (zip_with common_chunk (zip L R) (zip_with andb va vb)) []
    (zip_with andb va vb)) as Hb'.
  cbn [app length] in Hb'. rewrite app_nil_r in Hb'. rewrite Hb'.
  - clear -HL HR Hab. revert R va vb HL HR Hab.
    induction L as [|l L IH]; intros [|r R] [|a va] [|b vb] HL HR Hab; try discriminate; [done|].
    cbn [zip_with]. f_equal; [by destruct a, b|]. apply IH; by simplify_eq/=.
  - rewrite !zip_with_length. lia.
Qed.

End intersect.

(** ** Functions with lambdas *)

Section lambdas.
Context {A : Type}.
Implicit Types (L : list (list (option A))) (l pre post : list (option A)).

Lemma adjusted_layout {B} (pre post : list (option B)) (L : list (list (option B))) v :
  adjusted (Lists (length pre :: sums (length pre) L) (pre ++ concat L ++ post) v)
  = 0 :: sums 0 L.
Proof.
  unfold adjusted, first_off. cbn [offs hd fmap list_fmap]. f_equal; [lia|].
  generalize (length pre) as t. intros t.
  assert (∀ u, (fun o => o - t) <$> sums (t + u) L = sums u L) as H.
  { induction L as [|l L IH]; intros u; [done|].
    cbn [sums fmap list_fmap]. f_equal; [lia|].
    rewrite <- Nat.add_assoc. apply IH. }
  rewrite <- (H 0). by rewrite Nat.add_0_r.
Qed.

(** The values with their row and position, array by array. *)
Definition tagged (i : nat) (l : list (option A)) : list (nat * option A * nat) :=
  zip (zip (replicate (length l) i) l) (seq 0 (length l)).

Fixpoint all_tagged (i : nat) (L : list (list (option A))) : list (list (nat * option A * nat)) :=
  match L with
  | [] => []
  | l :: L' => tagged i l :: all_tagged (S i) L'
  end.

Lemma tagged_concat i t L :
  zip (zip (row_numbers i (spans t L)) (concat L)) (positions (spans t L))
  = concat (all_tagged i L).
Proof.
  revert i t. induction L as [|l L IH]; intros i t; [done|].
  cbn [spans row_numbers positions concat all_tagged].
  replace (t + length l - t) with (length l) by lia.
  rewrite (zip_with_app pair (replicate (length l) i)) by (by rewrite replicate_length).
  rewrite zip_with_app.
  2:{ rewrite zip_with_length, replicate_length, seq_length. lia. }
  by rewrite IH.
Qed.

Lemma all_tagged_at i n L l :
  L !! i = Some l → all_tagged n L !! i = Some (tagged (n + i) l).
Proof.
  revert i n. induction L as [|l' L IH]; intros i n H; [done|].
  destruct i as [|i].
  - injection H as ->. cbn. by rewrite Nat.add_0_r.
  - cbn in H |- *. rewrite (IH _ _ H). by rewrite Nat.add_succ_r.
Qed.

Lemma all_tagged_length n L : length (all_tagged n L) = length L.
Proof. revert n. induction L; intros n; cbn; [done|]. by rewrite IHL. Qed.

Lemma tagged_at i l k : tagged i l !! k = (fun x => ((i, x), k)) <$> l !! k.
Proof.
  unfold tagged. rewrite !lookup_zip_with.
  destruct (decide (k < length l)) as [Hk|Hk].
  - rewrite lookup_replicate_2, lookup_seq_lt by done.
    destruct (lookup_lt_is_Some_2 l k Hk) as [x ->]. done.
  - rewrite (lookup_ge_None_2 l) by lia.
    rewrite (lookup_ge_None_2 (replicate _ _)) by (rewrite replicate_length; lia). done.
Qed.

Lemma Forall2_concat {X Y} (P : X → Y → Prop) (Ls : list (list X)) ks :
  Forall2 P (concat Ls) ks →
  ∃ kss, ks = concat kss ∧ Forall2 (Forall2 P) Ls kss.
Proof.
  revert ks. induction Ls as [|l Ls IH]; intros ks H.
  - apply Forall2_nil_inv_l in H as ->. by exists [].
  - cbn in H. apply Forall2_app_inv_l in H as (k1 & k2 & H1 & H2 & ->).
    destruct (IH _ H2) as (kss & -> & H3). exists (k1 :: kss). split; [done|]. by constructor.
Qed.

Lemma evaluate_some {B} (f : nat → option A → nat → option B) pre L post v out :
  evaluate f (Lists (length pre :: sums (length pre) L) (pre ++ concat L ++ post) v) = Some out →
  ∃ outs, out = concat outs ∧ length outs = length L ∧
    ∀ i l o, L !! i = Some l → outs !! i = Some o → gives f i l o.
Proof.
  unfold evaluate. rewrite adjusted_layout, windows_sums, list_values_layout, tagged_concat.
  intros H. apply mapM_Some in H. apply Forall2_concat in H as (outs & -> & H).
  exists outs. split; [done|]. split.
  { apply Forall2_length in H. by rewrite all_tagged_length in H. }
  intros i l o Hl Ho. pose proof (all_tagged_at i 0 L l Hl) as Ht. cbn [plus] in Ht.
  pose proof (Forall2_lookup_lr _ _ _ _ _ _ H Ht Ho) as H2. split.
  - apply Forall2_length in H2. rewrite <- H2. unfold tagged.
    rewrite !zip_with_length, replicate_length, seq_length. lia.
  - intros k x Hx. pose proof (tagged_at i l k) as Hk. rewrite Hx in Hk. cbn in Hk.
    destruct (Forall2_lookup_l _ _ _ _ _ H2 Hk) as (y & Hy & Hf). by rewrite Hy.
Qed.

Lemma evaluate_total {B} (f : nat → option A → nat → option B) c :
  (∀ i x k, is_Some (f i x k)) → is_Some (evaluate f c).
Proof.
  intros Hf. unfold evaluate. apply mapM_is_Some_2. apply Forall_true.
  intros [[r x] k]. apply Hf.
Qed.

Lemma extract_spec {B} (c : lists A) (r : columnar B) :
  well_formed c → extract c = Some r →
  ∀ i, i < length (valid c) →
    result_rows (length (valid c)) r !! i = Some (match row c i with Some _ => Some [] | None => None end)
    ∧ (∀ l, row c i = Some l → l = []).
Proof.
  intros Hwf Hr i Hi. destruct (layout c Hwf) as (pre & L & post & HL & Ho & Hv).
  destruct c as [o vs v]. cbn [offs vals valid] in *. subst.
  destruct (lookup_lt_is_Some_2 L i) as [l Hl]; [lia|].
  destruct (lookup_lt_is_Some_2 v i) as [b Hb]; [lia|].
  rewrite (row_build _ _ _ _ _ _ _ Hl Hb).
  unfold extract in Hr. rewrite list_values_layout in Hr. cbn [valid] in Hr.
  destruct (forallb negb v) eqn:Hn.
  - injection Hr as <-. cbn [result_rows]. rewrite lookup_replicate_2 by done.
    assert (b = false) as ->; [|done].
    rewrite forallb_forall in Hn. apply elem_of_list_lookup_2 in Hb.
    apply elem_of_list_In in Hb. apply Hn in Hb. by destruct b.
  - destruct ((length (concat L) =? 0) && forallb id v) eqn:He; [|done].
    injection Hr as <-. cbn [result_rows]. rewrite lookup_replicate_2 by done.
    apply andb_true_iff in He as [He Hall]. apply Nat.eqb_eq in He.
    assert (b = true) as ->.
    { rewrite forallb_forall in Hall. apply elem_of_list_lookup_2 in Hb.
      apply elem_of_list_In in Hb. by apply Hall in Hb. }
    cbn [show_row]. split; [done|]. intros l' [= <-].
    rewrite (concat_at _ _ _ Hl), !app_length in He. destruct l; [done|cbn in He; lia].
Qed.

Lemma same_lengths {X Y} (L : list (list X)) (M : list (list Y)) t :
  length M = length L →
  (∀ i (l : list X) (m : list Y), L !! i = Some l → M !! i = Some m → length m = length l) →
  sums t M = sums t L ∧ spans t M = spans t L ∧ length (concat M) = length (concat L).
Proof.
  revert M t. induction L as [|l L IH]; intros [|m M] t Hlen H; try discriminate Hlen; [done|].
  injection Hlen as Hlen. pose proof (H 0 l m eq_refl eq_refl) as H0.
  destruct (IH M (t + length l) Hlen) as (H1 & H2 & H3).
  { intros i. apply (H (S i)). }
  cbn. rewrite H0, H1, H2, !app_length, H0, H3. done.
Qed.

(** *** transform *)

Lemma transform_spec {B} (c : lists A) (f : lambda (A := A) (option B)) r :
  well_formed c → array_transform c f = Some r →
  length (result_rows (length (valid c)) r) = length (valid c) ∧
  ∀ i, i < length (valid c) →
  match row c i with
  | None => result_rows (length (valid c)) r !! i = Some None
  | Some l => ∃ o, result_rows (length (valid c)) r !! i = Some (Some o) ∧ gives (at_element f) i l o
  end.
Proof.
  intros Hwf. unfold array_transform.
  destruct (extract (B := B) c) as [r'|] eqn:He.
  { intros [= <-]. split.
    - unfold extract in He. repeat case_match; simplify_eq/=; try apply replicate_length; done.
    - intros i Hi. destruct (extract_spec c r' Hwf He i Hi) as [H1 H2].
      destruct (row c i) as [l|] eqn:Hrow; [|done]. rewrite H1. rewrite (H2 l eq_refl).
      eexists. split; [done|]. split; [done|]. intros k x Hx. by rewrite lookup_nil in Hx. }
  clear He. destruct (layout c Hwf) as (pre & L & post & HL & Ho & Hv).
  destruct c as [o vs v]. cbn [offs vals valid] in *. subst o vs.
  intros Hr.
  assert (∃ outs, r = Column (Lists (0 :: sums 0 outs) (concat outs) v) ∧ length outs = length L ∧
    ∀ i l o, L !! i = Some l → outs !! i = Some o → gives (at_element f) i l o) as (outs & -> & Hlen & Hg).
  { destruct f as [b|f].
    - injection Hr as <-. rewrite adjusted_layout, list_values_layout.
      exists ((fun l => replicate (length l) b) <$> L). split_and!.
      + destruct (same_lengths L ((fun l => replicate (length l) b) <$> L) 0) as (-> & _ & _).
        * by rewrite fmap_length.
        * intros i l m Hl Hm. rewrite list_lookup_fmap, Hl in Hm. injection Hm as <-.
          apply replicate_length.
        * do 2 f_equal. clear. induction L as [|l L IH]; [done|].
          cbn. by rewrite app_length, replicate_add, IH.
      + by rewrite fmap_length.
      + intros i l o Hl Ho. rewrite list_lookup_fmap, Hl in Ho. injection Ho as <-.
        split; [apply replicate_length|]. intros k x Hx.
        rewrite lookup_replicate_2; [done|]. by eapply lookup_lt_Some.
    - destruct (evaluate f _) as [out|] eqn:He; [|done].
      cbn [mbind option_bind] in Hr. injection Hr as <-.
      apply evaluate_some in He as (outs & -> & Hlen & Hg).
      exists outs. split_and!; [|done|done].
      rewrite adjusted_layout.
      destruct (same_lengths L outs 0 Hlen) as (-> & _ & _); [|done].
      intros i l m Hl Hm. by destruct (Hg i l m Hl Hm). }
  cbn [result_rows].
  pose proof (rows_build [] outs [] v) as Hb. cbn [app length] in Hb. rewrite app_nil_r in Hb.
  rewrite Hb by lia. split; [rewrite zip_with_length; lia|].
  intros i Hi.
  destruct (lookup_lt_is_Some_2 L i) as [l Hl]; [lia|].
  destruct (lookup_lt_is_Some_2 outs i) as [o Ho]; [lia|].
  destruct (lookup_lt_is_Some_2 v i) as [b Hbv]; [lia|].
  rewrite (row_build _ _ _ _ _ _ _ Hl Hbv), lookup_zip_with, Ho, Hbv.
  cbn [mbind option_bind]. destruct b; cbn [show_row]; [|done].
  exists o. split; [done|]. by apply Hg.
Qed.

(** *** filter *)

Definition mask_of (o : list (option bool)) : list bool :=
  (fun b => bool_decide (b = Some true)) <$> o.

Lemma kept_cons (g : option A → nat → option (option bool)) x l :
  kept g (x :: l) = (if decide (g x 0 = Some (Some true)) then [x] else [])
                    ++ kept (fun y k => g y (S k)) l.
Proof.
  unfold kept. cbn [length]. change (seq 0 (S (length l))) with (0 :: seq 1 (length l)).
  change (omap ?h (0 :: ?t)) with
    (match h 0 with Some y => y :: omap h t | None => omap h t end).
  rewrite omap_fmap_S. cbn [lookup list_lookup mbind option_bind].
  by destruct (decide _).
Qed.

Lemma kept_mask (g : option A → nat → option (option bool)) l o :
  length o = length l → (∀ k x, l !! k = Some x → g x k = o !! k) →
  filter_mask (mask_of o) l = kept g l.
Proof.
  revert g o. induction l as [|x l IH]; intros g [|b o] Hlen Hg; try discriminate Hlen; [done|].
  injection Hlen as Hlen. rewrite kept_cons.
  pose proof (Hg 0 x eq_refl) as H0. cbn in H0. rewrite H0.
  rewrite <- (IH (fun y k => g y (S k)) o Hlen).
  2:{ intros k y Hy. apply (Hg (S k) y Hy). }
  cbn [mask_of fmap list_fmap filter_mask]. destruct (decide (Some b = Some (Some true))) as [[= ->]|Hn].
  - by rewrite bool_decide_true by done.
  - rewrite bool_decide_false by congruence. done.
Qed.

Definition filtered (L : list (list (option A))) (O : list (list (option bool)))
    : list (list (option A)) := zip_with (fun l o => filter_mask (mask_of o) l) L O.

Lemma counted_spec L (O : list (list (option bool))) (p : list (option bool)) total :
  length O = length L →
  (∀ i l o, L !! i = Some l → O !! i = Some o → length o = length l) →
  counted (p ++ concat O) (spans (length p) O) total = sums total (filtered L O).
Proof.
  revert O p total. induction L as [|l L IH]; intros [|o O] p total Hlen H; try discriminate Hlen;
    [done|].
  injection Hlen as Hlen. pose proof (H 0 l o eq_refl eq_refl) as H0.
  cbn [spans counted concat filtered zip_with sums].
  replace (length p + length o - length p) with (length o) by lia.
  assert ((fun j => (p ++ o ++ concat O) !!! j) <$> seq (length p) (length o) = o) as ->.
  { apply list_eq. intros k. rewrite list_lookup_fmap.
    destruct (decide (k < length o)) as [Hk|Hk].
    - rewrite lookup_seq_lt by done. cbn. rewrite lookup_total_app_r by lia.
      replace (length p + k - length p) with k by lia.
      rewrite lookup_total_app_l by done. symmetry. by apply list_lookup_lookup_total_lt.
    - rewrite lookup_seq_ge by lia. cbn. symmetry. apply lookup_ge_None. lia. }
  assert (length (filter (fun b => b = Some true) o) = length (filter_mask (mask_of o) l)) as Hc.
  { clear -H0. revert l H0. induction o as [|b o IH]; intros [|x l] H0; try discriminate H0; [done|].
    injection H0 as H0. rewrite filter_cons. cbn [mask_of fmap list_fmap filter_mask].
    destruct (decide (b = Some true)).
    - rewrite bool_decide_true by done. cbn. f_equal. by apply IH.
    - rewrite bool_decide_false by done. by apply IH. }
  rewrite Hc. cbv zeta. f_equal.
  rewrite app_assoc, <- app_length. apply IH; [done|].
  intros i. apply (H (S i)).
Qed.

Lemma filter_mask_le {B} m (l : list B) : length (filter_mask m l) ≤ length l.
Proof.
  revert l. induction m as [|b m IH]; intros [|x l]; cbn; try lia.
  specialize (IH l). destruct b; cbn; lia.
Qed.

Lemma filter_mask_full {B} m (l : list B) :
  length (filter_mask m l) = length l → filter_mask m l = l.
Proof.
  revert l. induction m as [|b m IH]; intros [|x l]; cbn; try done.
  pose proof (filter_mask_le m l). destruct b; cbn; intros H'.
  - f_equal. apply IH. lia.
  - lia.
Qed.

Lemma filtered_concat L (O : list (list (option bool))) :
  length O = length L →
  (∀ i l o, L !! i = Some l → O !! i = Some o → length o = length l) →
  filter_mask (mask_of (concat O)) (concat L) = concat (filtered L O) ∧
  length (concat (filtered L O)) ≤ length (concat L) ∧
  (length (concat (filtered L O)) = length (concat L) → filtered L O = L).
Proof.
  revert O. induction L as [|l L IH]; intros [|o O] Hlen H; try discriminate Hlen; [done|].
  injection Hlen as Hlen. pose proof (H 0 l o eq_refl eq_refl) as H0.
  destruct (IH O Hlen) as (H1 & H2 & H3).
  { intros i. apply (H (S i)). }
  change (filtered (l :: L) (o :: O)) with (filter_mask (mask_of o) l :: filtered L O).
  cbn [concat].
  assert (mask_of (o ++ concat O) = mask_of o ++ mask_of (concat O)) as -> by apply fmap_app.
  rewrite filter_mask_app by (unfold mask_of; by rewrite fmap_length).
  rewrite !app_length. pose proof (filter_mask_le (mask_of o) l) as Hle.
  split_and!.
  - by rewrite H1.
  - lia.
  - intros He. rewrite filter_mask_full by lia. f_equal. apply H3. lia.
Qed.

Lemma filter_spec (c : lists A) (f : lambda (A := A) (option bool)) r :
  well_formed c → array_filter c f = Some r →
  result_rows (length (valid c)) r
  = (fun i => kept (at_element f i) <$> row c i) <$> seq 0 (length (valid c)).
Proof.
  intros Hwf. unfold array_filter.
  destruct (extract (B := A) c) as [r'|] eqn:He.
  { intros [= <-]. apply list_eq. intros i. rewrite list_lookup_fmap.
    destruct (decide (i < length (valid c))) as [Hi|Hi].
    - destruct (extract_spec c r' Hwf He i Hi) as [H1 H2]. rewrite H1.
      rewrite lookup_seq_lt by done. cbn. f_equal.
      destruct (row c i) as [l|]; [|done]. by rewrite (H2 l eq_refl).
    - rewrite lookup_seq_ge by lia. apply lookup_ge_None_2.
      unfold extract in He. repeat case_match; simplify_eq/=; rewrite replicate_length; lia. }
  clear He. destruct (layout c Hwf) as (pre & L & post & HL & Ho & Hv).
  destruct c as [o vs v]. cbn [offs vals valid] in *. subst o vs.
  intros Hr.
  assert (∃ F, result_rows (length v) r = zip_with show_row F v ∧ length F = length L ∧
    ∀ i l, L !! i = Some l → F !! i = Some (kept (at_element f i) l)) as (F & Hrow & HF & Hk).
  { destruct f as [b|f].
    - destruct (decide (b = Some true)) as [->|Hb].
      + injection Hr as <-. exists L. cbn [result_rows]. rewrite rows_build by done.
        split_and!; [done..|]. intros i l Hl. rewrite Hl. f_equal. cbn.
        assert (∀ g, (∀ (x : option A) k, g x k = Some (Some true)) → kept g l = l) as Hall.
        { clear. induction l as [|x l IH]; intros g Hg; [done|].
          rewrite kept_cons, IH by done. by rewrite decide_True. }
        symmetry. by apply Hall.
      + assert (r = Column (Lists (replicate (S (length v)) 0) [] v)) as ->.
        { destruct b as [[]|]; [done|by injection Hr as <-..]. }
        cbn [result_rows]. exists ((fun _ => []) <$> L).
        split_and!; [|by rewrite fmap_length|].
        * pose proof (rows_build [] ((fun _ => [] : list (option A)) <$> L) [] v) as Hb'.
          cbn [app length] in Hb'. rewrite <- Hb' by (by rewrite fmap_length).
          f_equal. f_equal.
          -- cbn [replicate]. f_equal. rewrite <- HL. clear.
             induction L as [|l L IH]; [done|]. cbn. by rewrite IH.
          -- clear. induction L as [|l L IH]; [done|]. done.
        * intros i l Hl. rewrite list_lookup_fmap, Hl. cbn. f_equal.
          assert (∀ g, (∀ (x : option A) k, g x k ≠ Some (Some true)) → [] = kept g l) as Hall.
          { clear. induction l as [|x l IH]; intros g Hg; [done|].
            rewrite kept_cons, <- IH by done. by rewrite decide_False. }
          apply Hall. intros _ _ [= ->]. done.
    - destruct (evaluate f _) as [out|] eqn:He; [|done].
      cbn [mbind option_bind] in Hr. injection Hr as <-.
      apply evaluate_some in He as (outs & -> & Hlen & Hg).
      assert (∀ i l o, L !! i = Some l → outs !! i = Some o → length o = length l) as Hsame.
      { intros i l o Hl Ho. by destruct (Hg i l o Hl Ho). }
      destruct (filtered_concat L outs Hlen Hsame) as (H1 & H2 & H3).
      exists (filtered L outs). split_and!.
      + unfold filter_list_values. rewrite adjusted_layout, list_values_layout, windows_sums.
        destruct (same_lengths L outs 0 Hlen Hsame) as (_ & Hsp & _).
        pose proof (counted_spec L outs [] 0 Hlen Hsame) as Hc. cbn [app length] in Hc.
        rewrite Hsp in Hc. rewrite Hc.
        destruct (decide _) as [Hd|Hd]; cbn [fst snd result_rows].
        * apply (f_equal (default 0)) in Hd. rewrite !last_sums in Hd. cbn [plus] in Hd.
          rewrite (H3 Hd).
          pose proof (rows_build [] L [] v HL) as Hb. cbn [app length] in Hb.
          by rewrite app_nil_r in Hb.
        * fold (mask_of (concat outs)). rewrite H1.
          pose proof (rows_build [] (filtered L outs) [] v) as Hb. cbn [app length] in Hb.
          rewrite app_nil_r in Hb. apply Hb. unfold filtered. rewrite zip_with_length. lia.
      + unfold filtered. rewrite zip_with_length. lia.
      + intros i l Hl. unfold filtered. rewrite lookup_zip_with, Hl.
        destruct (lookup_lt_is_Some_2 outs i) as [o Ho].
        { apply lookup_lt_Some in Hl. lia. }
        rewrite Ho. cbn. f_equal. destruct (Hg i l o Hl Ho) as [Ha Hb].
        by apply kept_mask. }
  rewrite Hrow. apply list_eq. intros i. rewrite list_lookup_fmap, lookup_zip_with.
  destruct (decide (i < length v)) as [Hi|Hi].
  - rewrite lookup_seq_lt by done.
    destruct (lookup_lt_is_Some_2 L i) as [l Hl]; [lia|].
    destruct (lookup_lt_is_Some_2 v i) as [b Hb]; [lia|].
    rewrite (Hk i l Hl), Hb. cbn [mbind option_bind fmap option_fmap option_map plus].
    rewrite (row_build _ _ _ _ _ _ _ Hl Hb). by destruct b.
  - rewrite lookup_seq_ge by lia. rewrite (lookup_ge_None_2 F) by lia. done.
Qed.

End lambdas.

(** *** exists and forall *)

Section quantifiers.
Context {A : Type}.
Implicit Types (L : list (list (option A))) (l pre post : list (option A)).

(** A prefix that decides nothing. *)
Definition undecided (stop any_null : bool) (rs : list (option (option bool))) : Prop :=
  None ∉ rs ∧ Some (Some stop) ∉ rs ∧ (any_null = true ↔ Some None ∈ rs).

Lemma undecided_app stop n n' rs b :
  undecided stop n rs → b ≠ Some (negb (negb stop)) →
  (n' = true ↔ n = true ∨ b = None) → undecided stop n' (rs ++ [Some b]).
Proof.
  rewrite negb_involutive.
  intros (H1 & H2 & H3) Hb Hn. unfold undecided. rewrite !not_elem_of_app, elem_of_app, !elem_of_list_singleton.
  rewrite Hn, H3. split_and!; [done|congruence|done|congruence|].
  split; intros [?|?]; [by left|right; congruence|by left|right; congruence].
Qed.

Lemma decides_stop stop n rs rest :
  undecided stop n rs → decides stop (rs ++ Some (Some stop) :: rest) (Some (Some stop)).
Proof.
  intros (H1 & _ & _). left. exists (length rs). split_and!; [|intros j Hj He|done].
  - rewrite lookup_app_r by lia. by rewrite Nat.sub_diag.
  - rewrite lookup_app_l in He by lia. apply H1. by eapply elem_of_list_lookup_2.
Qed.

Lemma decides_raise stop n rs rest :
  undecided stop n rs → decides stop (rs ++ None :: rest) None.
Proof.
  intros (_ & H2 & _). right. left. exists (length rs). split_and!; [|intros j Hj He|done].
  - rewrite lookup_app_r by lia. by rewrite Nat.sub_diag.
  - rewrite lookup_app_l in He by lia. apply H2. by eapply elem_of_list_lookup_2.
Qed.

Lemma decides_end stop (n : bool) rs :
  undecided stop n rs → decides stop rs (Some (if n then None else Some (negb stop))).
Proof.
  intros (H1 & H2 & H3). right. right. split_and!; [done..|].
  destruct n; [left|right]; (split; [|done]).
  - by apply H3.
  - intros H. apply H3 in H. done.
Qed.

Lemma short_circuit_row_spec f stop i p l q done n :
  undecided stop n done →
  decides stop (done ++ (f i <$> l))
    (short_circuit_row f stop i (p ++ l ++ q) (seq (length p) (length l)) n).
Proof.
  revert p done n. induction l as [|x l IH]; intros p done n Hu.
  { cbn. rewrite app_nil_r. by apply decides_end. }
  cbn [length seq short_circuit_row fmap list_fmap].
  assert ((p ++ (x :: l) ++ q) !!! length p = x) as ->.
  { rewrite lookup_total_app_r by lia. by rewrite Nat.sub_diag. }
  assert (p ++ (x :: l) ++ q = (p ++ [x]) ++ l ++ q) as -> by (by rewrite <- app_assoc).
  assert (S (length p) = length (p ++ [x])) as -> by (rewrite app_length; cbn; lia).
  assert (∀ y, done ++ y :: (f i <$> l) = (done ++ [y]) ++ (f i <$> l)) as Hd
    by (intros y; by rewrite <- app_assoc).
  destruct (f i x) as [[b|]|].
  - destruct (Bool.eqb b stop) eqn:Hb.
    + apply Bool.eqb_prop in Hb as ->. by eapply decides_stop.
    + rewrite Hd. apply IH. eapply undecided_app; [done| |].
      * rewrite negb_involutive. intros [= ->]. by rewrite Bool.eqb_reflx in Hb.
      * split; [by left|intros [?|?]; done].
  - rewrite Hd. apply IH. eapply undecided_app; [done|done|]. split; [by right|done].
  - by eapply decides_raise.
Qed.

Lemma exists_loop_spec p (o q : list (option bool)) done n :
  undecided true n done →
  decides true (done ++ (Some <$> o))
    (Some (match exists_loop (p ++ o ++ q) (seq (length p) (length o)) n with
           | (true, _) => Some true
           | (false, true) => None
           | (false, false) => Some false
           end)).
Proof.
  revert p done n. induction o as [|x o IH]; intros p done n Hu.
  { cbn. rewrite app_nil_r. apply decides_end in Hu. by destruct n. }
  cbn [length seq exists_loop fmap list_fmap].
  assert ((p ++ (x :: o) ++ q) !!! length p = x) as ->.
  { rewrite lookup_total_app_r by lia. by rewrite Nat.sub_diag. }
  assert (p ++ (x :: o) ++ q = (p ++ [x]) ++ o ++ q) as -> by (by rewrite <- app_assoc).
  assert (S (length p) = length (p ++ [x])) as -> by (rewrite app_length; cbn; lia).
  assert (∀ y, done ++ y :: (Some <$> o) = (done ++ [y]) ++ (Some <$> o)) as Hd
    by (intros y; by rewrite <- app_assoc).
  destruct x as [[|]|].
  - by eapply decides_stop.
  - rewrite Hd. apply IH. eapply undecided_app; [done|done|]. split; [by left|intros [?|?]; done].
  - rewrite Hd. apply IH. eapply undecided_app; [done|done|]. split; [by right|done].
Qed.

Lemma forall_loop_spec p (o q : list (option bool)) done n :
  undecided false n done →
  decides false (done ++ (Some <$> o))
    (Some (match forall_loop (p ++ o ++ q) (seq (length p) (length o)) n with
           | (true, _) => Some false
           | (false, true) => None
           | (false, false) => Some true
           end)).
Proof.
  revert p done n. induction o as [|x o IH]; intros p done n Hu.
  { cbn. rewrite app_nil_r. apply decides_end in Hu. by destruct n. }
  cbn [length seq forall_loop fmap list_fmap].
  assert ((p ++ (x :: o) ++ q) !!! length p = x) as ->.
  { rewrite lookup_total_app_r by lia. by rewrite Nat.sub_diag. }
  assert (p ++ (x :: o) ++ q = (p ++ [x]) ++ o ++ q) as -> by (by rewrite <- app_assoc).
  assert (S (length p) = length (p ++ [x])) as -> by (rewrite app_length; cbn; lia).
  assert (∀ y, done ++ y :: (Some <$> o) = (done ++ [y]) ++ (Some <$> o)) as Hd
    by (intros y; by rewrite <- app_assoc).
  destruct x as [[|]|].
  - rewrite Hd. apply IH. eapply undecided_app; [done|done|]. split; [by left|intros [?|?]; done].
  - by eapply decides_stop.
  - rewrite Hd. apply IH. eapply undecided_app; [done|done|]. split; [by right|done].
Qed.

Lemma undecided_nil stop : undecided stop false [].
Proof.
  split_and!; [apply not_elem_of_nil..|]. split; [done|]. intros H. by apply elem_of_nil in H.
Qed.

Lemma decides_constant stop b l i :
  decides stop (at_predicate (A := A) (inl b) i <$> l)
    (Some (if length l =? 0 then Some (negb stop) else b)).
Proof.
  destruct l as [|x l].
  { cbn. apply (decides_end stop false). apply undecided_nil. }
  cbn [length Nat.eqb].
  assert (∀ y, y ∈ (at_predicate (inl b) i <$> x :: l) → y = Some b) as Hy.
  { intros y Hy. apply elem_of_list_fmap in Hy as (? & -> & _). done. }
  assert (Some b ∈ (at_predicate (inl b) i <$> x :: l)) as Hin by (apply elem_of_cons; by left).
  destruct b as [b|].
  - destruct (Bool.bool_dec b stop) as [->|Hb].
    + left. exists 0. split_and!; [done|intros j Hj; lia|done].
    + right. right. split_and!.
      * intros H%Hy. done.
      * intros H%Hy. congruence.
      * right. split; [intros H%Hy; done|]. do 2 f_equal. by destruct b, stop.
  - right. right. split_and!; [intros H%Hy; done|intros H%Hy; done|]. left. done.
Qed.

Lemma gives_fmap (f : nat → option A → option (option bool)) i l o :
  gives (fun r x _ => f r x) i l o → f i <$> l = Some <$> o.
Proof.
  intros [Hlen Hg]. apply list_eq. intros k. rewrite !list_lookup_fmap.
  destruct (l !! k) as [x|] eqn:Hx.
  - cbn. rewrite (Hg k x Hx).
    destruct (lookup_lt_is_Some_2 o k) as [y Hy]; [apply lookup_lt_Some in Hx; lia|].
    by rewrite Hy.
  - rewrite (lookup_ge_None_2 o); [done|]. apply lookup_ge_None in Hx. lia.
Qed.

Lemma short_circuit_spec f stop L p v n :
  length L = length v →
  match short_circuit f stop (p ++ concat L) n (zip (spans (length p) L) v) with
  | Some out => length out = length v ∧ ∀ i l b, L !! i = Some l → v !! i = Some b →
      if (b : bool) then ∃ res, out !! i = Some res ∧ decides stop (f (n + i) <$> l) (Some res)
      else out !! i = Some None
  | None => ∃ i l, L !! i = Some l ∧ v !! i = Some true ∧ decides stop (f (n + i) <$> l) None
  end.
Proof.
  revert p v n. induction L as [|l L IH]; intros p [|b v] n HL; try discriminate HL.
  { cbn. split; [done|]. intros i l b H. by rewrite lookup_nil in H. }
  injection HL as HL. cbn [spans zip_with short_circuit concat].
  replace (length p + length l - length p) with (length l) by lia.
  specialize (IH (p ++ l) v (S n) HL). rewrite app_length, <- app_assoc in IH.
  assert (if (b : bool) then decides stop (f n <$> l)
            (short_circuit_row f stop n (p ++ l ++ concat L) (seq (length p) (length l)) false)
          else True) as Hrow.
  { destruct b; [|done].
    apply (short_circuit_row_spec f stop n p l (concat L) [] false). apply undecided_nil. }
  destruct b.
  - destruct (short_circuit_row _ _ _ _ _ _) as [res|].
    + cbn [mbind option_bind]. destruct (short_circuit _ _ _ _ _) as [out|]; cbn [mbind option_bind].
      * destruct IH as [H1 H2]. split; [cbn; by rewrite H1|].
        intros [|i] l' b' Hl Hb; cbn in Hl, Hb.
        -- injection Hl as <-. injection Hb as <-. exists res. rewrite Nat.add_0_r. done.
        -- specialize (H2 i l' b' Hl Hb). rewrite Nat.add_succ_r. exact H2.
      * destruct IH as (i & l' & Hl & Hv & Hd). exists (S i), l'.
        rewrite Nat.add_succ_r. done.
    + cbn [mbind option_bind]. exists 0, l. rewrite Nat.add_0_r. done.
  - cbn [mbind option_bind]. destruct (short_circuit _ _ _ _ _) as [out|]; cbn [mbind option_bind].
    + destruct IH as [H1 H2]. split; [cbn; by rewrite H1|].
      intros [|i] l' b' Hl Hb; cbn in Hl, Hb.
      -- injection Hl as <-. injection Hb as <-. done.
      -- specialize (H2 i l' b' Hl Hb). rewrite Nat.add_succ_r. exact H2.
    + destruct IH as (i & l' & Hl & Hv & Hd). exists (S i), l'.
      rewrite Nat.add_succ_r. done.
Qed.

Lemma answers_reduce stop (reduce : list ((nat * nat) * bool) → option bool + list (option bool) → list (option bool))
    (cell : (nat * nat) * bool → option bool + list (option bool) → option bool)
    (c : lists A) (p : option bool + (nat → option A → option (option bool))) :
  (∀ sp q, reduce sp q = (fun s => cell s q) <$> sp) →
  (∀ s q, cell (s, false) q = None) →
  (∀ (l : list (option A)) s i b,
     decides stop (at_predicate (A := A) (inl b) i <$> l) (Some (cell ((s, s + length l), true) (inl b)))) →
  (∀ p o q, decides stop (Some <$> o)
     (Some (cell ((length p, length p + length o), true) (inr (p ++ o ++ q))))) →
  well_formed c →
  answers stop c p
    (match p with
     | inl b => Some (reduce (zip (windows (adjusted c)) (valid c)) (inl b))
     | inr f =>
         match evaluate (fun r x _ => f r x) c with
         | Some mask => Some (reduce (zip (windows (adjusted c)) (valid c)) (inr mask))
         | None => short_circuit f stop (list_values c) 0 (zip (windows (adjusted c)) (valid c))
         end
     end).
Proof.
  intros Hred Hnull Hconst Hmask Hwf.
  destruct (layout c Hwf) as (pre & L & post & HL & Ho & Hv).
  destruct c as [o vs v]. cbn [offs vals valid] in *. subst o vs.
  rewrite adjusted_layout, windows_sums, list_values_layout.
  assert (∀ q, length (reduce (zip (spans 0 L) v) q) = length v) as Hlen.
  { intros q. rewrite Hred, fmap_length, zip_with_length, spans_length. lia. }
  assert (∀ q i l b, L !! i = Some l → v !! i = Some b →
    reduce (zip (spans 0 L) v) q !! i
    = Some (cell ((length (concat (take i L)), length (concat (take i L)) + length l), b) q)) as Hat.
  { intros q i l b Hl Hb. rewrite Hred, list_lookup_fmap, lookup_zip_with.
    rewrite (spans_at _ _ _ _ Hl), Hb. done. }
  destruct p as [b|f].
  - split; [apply Hlen|]. cbn [valid]. intros i Hi.
    destruct (lookup_lt_is_Some_2 L i) as [l Hl]; [lia|].
    destruct (lookup_lt_is_Some_2 v i) as [b' Hb]; [lia|].
    rewrite (row_build _ _ _ _ _ _ _ Hl Hb), (Hat _ _ _ _ Hl Hb).
    destruct b'; cbn [show_row]; [|by rewrite Hnull].
    eexists. split; [done|]. apply Hconst.
  - destruct (evaluate _ _) as [mask|] eqn:He.
    + apply evaluate_some in He as (outs & -> & Hlo & Hg).
      split; [apply Hlen|]. cbn [valid]. intros i Hi.
      destruct (lookup_lt_is_Some_2 L i) as [l Hl]; [lia|].
      destruct (lookup_lt_is_Some_2 outs i) as [o Ho]; [lia|].
      destruct (lookup_lt_is_Some_2 v i) as [b' Hb]; [lia|].
      rewrite (row_build _ _ _ _ _ _ _ Hl Hb), (Hat _ _ _ _ Hl Hb).
      destruct b'; cbn [show_row]; [|by rewrite Hnull].
      eexists. split; [done|].
      change (at_predicate (inr f) i <$> l) with (f i <$> l).
      pose proof (Hg i l o Hl Ho) as Hgl. rewrite (gives_fmap f i l o Hgl).
      destruct Hgl as [Hlo' _]. rewrite <- Hlo'.
      assert (length (concat (take i L)) = length (concat (take i outs))) as ->.
      { assert (∀ j a m, take i L !! j = Some a → take i outs !! j = Some m → length m = length a) as Hsame.
        { intros j a m Ha Hm. apply lookup_take_Some in Ha as [Ha _]. apply lookup_take_Some in Hm as [Hm _].
          by destruct (Hg j a m Ha Hm). }
        destruct (same_lengths (take i L) (take i outs) 0) as (_ & _ & ->); [|done|done].
        rewrite !take_length. lia. }
      rewrite (concat_at _ _ _ Ho). apply Hmask.
    + pose proof (short_circuit_spec f stop L [] v 0 HL) as Hs. cbn [app length plus] in Hs.
      destruct (short_circuit _ _ _ _ _) as [out|].
      * destruct Hs as [H1 H2]. split; [done|]. cbn [valid]. intros i Hi.
        destruct (lookup_lt_is_Some_2 L i) as [l Hl]; [lia|].
        destruct (lookup_lt_is_Some_2 v i) as [b' Hb]; [lia|].
        rewrite (row_build _ _ _ _ _ _ _ Hl Hb). specialize (H2 i l b' Hl Hb).
        destruct b'; exact H2.
      * destruct Hs as (i & l & Hl & Hb & Hd). exists i, l. cbn [valid].
        split_and!; [by eapply lookup_lt_Some| |done].
        by rewrite (row_build _ _ _ _ _ _ _ Hl Hb).
Qed.

Lemma exists_spec (c : lists A) p : well_formed c → answers true c p (array_exists c p).
Proof.
  intros Hwf. unfold array_exists.
  apply (answers_reduce true exists_reduce (fun sev p => let '((s, e), v) := sev in
     if (v : bool) then
       match p with
       | inl b => if e - s =? 0 then Some false else b
       | inr mask =>
           match exists_loop mask (seq s (e - s)) false with
           | (true, _) => Some true
           | (false, true) => None
           | (false, false) => Some false
           end
       end
     else None)); [done|by intros []|..|done].
  - intros l s i b. cbv beta iota.
    replace (s + length l - s) with (length l) by lia.
    apply (decides_constant true b l i).
  - intros q o q'. cbv beta iota. replace (length q + length o - length q) with (length o) by lia.
    apply (exists_loop_spec q o q' [] false). apply undecided_nil.
Qed.

Lemma forall_spec (c : lists A) p : well_formed c → answers false c p (array_forall c p).
Proof.
  intros Hwf. unfold array_forall.
  apply (answers_reduce false forall_reduce (fun sev p => let '((s, e), v) := sev in
     if (v : bool) then
       match p with
       | inl b => if e - s =? 0 then Some true else b
       | inr mask =>
           match forall_loop mask (seq s (e - s)) false with
           | (true, _) => Some false
           | (false, true) => None
           | (false, false) => Some true
           end
       end
     else None)); [done|by intros []|..|done].
  - intros l s i b. cbv beta iota.
    replace (s + length l - s) with (length l) by lia.
    apply (decides_constant false b l i).
  - intros q o q'. cbv beta iota. replace (length q + length o - length q) with (length o) by lia.
    apply (forall_loop_spec q o q' [] false). apply undecided_nil.
Qed.

End quantifiers.

(** *** aggregate *)

Section aggregate.
Context {A S T : Type}.
Implicit Types (L : list (list (option A))).

Lemma sub_snoc {X} (l : list (option X)) s e :
  s ≤ e → e < length l → sub l s (Datatypes.S e) = sub l s e ++ [l !!! e].
Proof.
  intros Hs He. unfold sub. replace (Datatypes.S e - s) with (Datatypes.S (e - s)) by lia.
  apply take_S_r. rewrite lookup_drop. replace (s + (e - s)) with e by lia.
  by apply list_lookup_lookup_total_lt.
Qed.

Lemma sub_same {X} (l : list X) s : sub l s s = [].
Proof. unfold sub. by rewrite Nat.sub_diag. Qed.

Lemma scatter_spec {X} (base : list (option X)) (act : nat → Prop) `{∀ r, Decision (act r)}
    (g : nat → option (option X)) m s s' :
  s' ≤ s → s + m = length base →
  (next ← mapM g (filter act (seq s m)); scatter base next (filter act (seq s m)) s')
  = (t ← mapM (fun r => if decide (act r) then g r else Some (base !!! r)) (seq s m);
     Some (sub base s' s ++ t)).
Proof.
  revert s s'. induction m as [|m IH]; intros s s' Hs Hm.
  { cbn. rewrite app_nil_r. do 2 f_equal. lia. }
  cbn [seq]. rewrite filter_cons. cbn [mapM]. destruct (decide (act s)) as [Ha|Ha].
  - cbn [mapM]. destruct (g s) as [x|]; [|done]. cbn [mbind option_bind].
    specialize (IH (Datatypes.S s) (Datatypes.S s) ltac:(lia) ltac:(lia)).
    destruct (mapM g (filter act (seq (Datatypes.S s) m))) as [next|]; cbn [mbind option_bind] in IH |- *.
    + cbn [mret option_ret mbind option_bind scatter plus].
      assert ((s <? s') || (length base <=? s) = false) as ->.
      { apply orb_false_iff. split; [apply Nat.ltb_ge|apply Nat.leb_gt]; lia. }
      rewrite IH. destruct (mapM _ (seq (Datatypes.S s) m)) as [t|]; [|done].
      cbn [mbind option_bind mret option_ret]. by rewrite sub_same.
    + destruct (mapM _ (seq (Datatypes.S s) m)) as [t|]; [done|]. done.
  - cbn [mbind option_bind]. rewrite IH by lia.
    destruct (mapM _ (seq (Datatypes.S s) m)) as [t|]; [|done].
    cbn [mbind option_bind mret option_ret]. rewrite sub_snoc by lia. by rewrite <- app_assoc.
Qed.

Lemma scatter_all {X} (base : list (option X)) (act : nat → Prop) `{∀ r, Decision (act r)}
    (g : nat → option (option X)) n :
  n = length base →
  (next ← mapM g (filter act (seq 0 n)); scatter base next (filter act (seq 0 n)) 0)
  = mapM (fun r => if decide (act r) then g r else Some (base !!! r)) (seq 0 n).
Proof.
  intros Hn. rewrite scatter_spec by lia. rewrite sub_same. by destruct (mapM _ _).
Qed.

Definition fold_row (merge : nat → option S → option A → option (option S)) i z
    (l : list (option A)) : option (option S) :=
  foldl (fun acc x => a ← acc; merge i a x) (Some z) l.

Lemma mapM_ext_seq {X} (f g : nat → option X) n :
  (∀ i, i < n → f i = g i) → mapM f (seq 0 n) = mapM g (seq 0 n).
Proof.
  intros H. assert (∀ m s, s + m ≤ n → mapM f (seq s m) = mapM g (seq s m)) as Hg.
  { induction m as [|m IH]; intros s Hs; [done|]. cbn. rewrite H by lia. rewrite IH by lia. done. }
  by apply Hg.
Qed.

Lemma mapM_seq_lookup {X} (f : nat → option X) n l i :
  mapM f (seq 0 n) = Some l → i < n → f i = l !! i ∧ length l = n.
Proof.
  intros H Hi. apply mapM_Some in H. split.
  - destruct (Forall2_lookup_l _ _ _ i i H) as (y & Hy & Hf); [by rewrite lookup_seq_lt|].
    by rewrite Hy, Hf.
  - apply Forall2_length in H. by rewrite seq_length in H.
Qed.

Lemma mapM_seq_none {X Y} (f : nat → option X) (g : nat → option Y) n :
  (∀ i, f i = None → g i = None) → mapM f (seq 0 n) = None → mapM g (seq 0 n) = None.
Proof.
  intros H. generalize 0 as s. induction n as [|n IH]; intros s; [done|].
  cbn. destruct (f s) as [x|] eqn:Hf.
  - destruct (mapM f (seq (Datatypes.S s) n)) as [xs|] eqn:He; [done|]. intros _.
    rewrite (IH _ He). by destruct (g s).
  - intros _. by rewrite (H _ Hf).
Qed.

Context (merge : nat → option S → option A → option (option S)).
Context (L : list (list (option A))) (v : list bool) (zero : list (option S)).
Context (HL : length L = length v) (Hz : length zero = length v).

(** The accumulators after the elements at the first [d] positions. *)
Definition after (d : nat) : option (list (option S)) :=
  mapM (fun i => if (v !!! i : bool) then fold_row merge i (zero !!! i) (take d (L !!! i))
                 else Some (zero !!! i)) (seq 0 (length v)).

Lemma fold_row_snoc i z l x :
  fold_row merge i z (l ++ [x]) = (a ← fold_row merge i z l; merge i a x).
Proof. unfold fold_row. by rewrite foldl_app. Qed.

Lemma fold_row_none i z l l' :
  fold_row merge i z l = None → fold_row merge i z (l ++ l') = None.
Proof.
  intros H. induction l' as [|x l' IH] using rev_ind; [by rewrite app_nil_r|].
  rewrite app_assoc, fold_row_snoc, IH. done.
Qed.

Lemma span_of i :
  i < length v →
  zip (spans 0 L) v !!! i
  = ((length (concat (take i L)), length (concat (take i L)) + length (L !!! i)), v !!! i).
Proof using HL.
  clear Hz.
  intros Hi. apply list_lookup_total_correct. rewrite lookup_zip_with.
  destruct (lookup_lt_is_Some_2 L i) as [l Hl]; [lia|].
  destruct (lookup_lt_is_Some_2 v i) as [b Hb]; [lia|].
  rewrite (spans_at _ _ _ _ Hl), Hb. cbn.
  by rewrite (list_lookup_total_correct _ _ _ Hl), (list_lookup_total_correct _ _ _ Hb).
Qed.

Lemma spans_rows : length (zip (spans 0 L) v) = length v.
Proof using HL. clear Hz. rewrite zip_with_length, spans_length. lia. Qed.

Lemma has_element_true i d :
  i < length v →
  has_element (zip (spans 0 L) v) d i = true ↔ (v !!! i : bool) = true ∧ d < length (L !!! i).
Proof.
  intros Hi. unfold has_element. rewrite (span_of i Hi), andb_true_iff, Nat.ltb_lt.
  split; intros [? ?]; (split; [done|lia]).
Qed.

Lemma merge_step_spec acc d :
  after d = Some acc →
  merge_step merge (concat L) (zip (spans 0 L) v) acc d = after (Datatypes.S d).
Proof.
  intros Ha.
  assert (length acc = length v) as Hacc.
  { unfold after in Ha. apply mapM_length in Ha. by rewrite seq_length in Ha. }
  assert (merge_step merge (concat L) (zip (spans 0 L) v) acc d
    = (next ← mapM (fun r => merge r (acc !!! r) (concat L !!! ((zip (spans 0 L) v !!! r).1.1 + d)))
         (filter (fun r => has_element (zip (spans 0 L) v) d r = true) (seq 0 (length v)));
       scatter acc next (filter (fun r => has_element (zip (spans 0 L) v) d r = true)
         (seq 0 (length v))) 0)) as ->.
  { unfold merge_step. rewrite spans_rows. destruct (length _ =? 0) eqn:He; [|done].
    apply Nat.eqb_eq, nil_length_inv in He. rewrite He. cbn.
    unfold sub. by rewrite Nat.sub_0_r, drop_0, firstn_all. }
  rewrite scatter_all by done. unfold after. apply mapM_ext_seq. intros i Hi.
  destruct (mapM_seq_lookup _ _ _ i Ha Hi) as [Hat _].
  rewrite (list_lookup_lookup_total_lt acc i) in Hat by lia.
  destruct (lookup_lt_is_Some_2 L i) as [l Hl]; [lia|].
  rewrite (span_of i Hi). cbn [fst snd]. rewrite (list_lookup_total_correct _ _ _ Hl) in Hat |- *.
  destruct (decide _) as [He|He].
  - apply (has_element_true i d Hi) in He as [Hv Hd].
    rewrite (list_lookup_total_correct _ _ _ Hl) in Hd.
    rewrite Hv in Hat |- *.
    destruct (lookup_lt_is_Some_2 l d Hd) as [x Hx].
    rewrite (take_S_r _ _ _ Hx), fold_row_snoc, Hat. cbn [mbind option_bind]. f_equal.
    rewrite (concat_at _ _ _ Hl). rewrite lookup_total_app_r by lia.
    rewrite lookup_total_app_l by lia.
    replace (length (concat (take i L)) + d - length (concat (take i L))) with d by lia.
    by apply list_lookup_total_correct.
  - rewrite <- Hat. destruct (v !!! i : bool) eqn:Hv; [|done].
    rewrite !take_ge; [done|..].
    all: destruct (decide (d < length l)) as [Hd|Hd]; [|lia].
    all: exfalso; apply He; apply (has_element_true i d Hi).
    all: rewrite (list_lookup_total_correct _ _ _ Hl); done.
Qed.

Lemma after_none d : after d = None → after (Datatypes.S d) = None.
Proof.
  apply mapM_seq_none. intros i. destruct (v !!! i : bool); [|done].
  intros H. destruct ((L !!! i) !! d) as [x|] eqn:Hx.
  - rewrite (take_S_r _ _ _ Hx). by apply fold_row_none.
  - apply lookup_ge_None in Hx. by rewrite take_ge in H |- * by lia.
Qed.

Lemma merge_loop_spec m d acc :
  after d = Some acc →
  merge_loop merge (concat L) (zip (spans 0 L) v) (seq d m) acc = after (d + m).
Proof.
  revert d acc. induction m as [|m IH]; intros d acc Ha.
  { cbn. by rewrite Nat.add_0_r. }
  cbn [seq merge_loop]. rewrite (merge_step_spec acc d Ha).
  destruct (after (Datatypes.S d)) as [acc'|] eqn:Hs; cbn [mbind option_bind].
  - rewrite (IH _ _ Hs). f_equal. lia.
  - symmetry. replace (d + Datatypes.S m) with (Datatypes.S d + m) by lia.
    clear IH Ha. generalize dependent (Datatypes.S d). intros k Hs.
    induction m as [|m IH]; [by rewrite Nat.add_0_r|].
    rewrite Nat.add_succ_r. by apply after_none.
Qed.

Lemma after_zero : after 0 = Some zero.
Proof.
  unfold after. apply mapM_Some.
  apply Forall2_same_length_lookup_2; [by rewrite seq_length|].
  intros i x y Hx Hy. apply lookup_seq in Hx as [-> Hi]. cbn [plus].
  rewrite (list_lookup_total_correct _ _ _ Hy). by destruct (v !!! i : bool).
Qed.

End aggregate.

Lemma filter_seq_iff {X} (P Q : X → Prop) `{∀ x, Decision (P x)} `{∀ x, Decision (Q x)} (l : list X) :
  Forall (fun x => P x ↔ Q x) l → filter P l = filter Q l.
Proof.
  induction 1 as [|x l Hx Hl IH]; [done|]. rewrite !filter_cons, IH.
  destruct (decide (P x)), (decide (Q x)); tauto.
Qed.

Lemma filter_full {X} (P : X → Prop) `{∀ x, Decision (P x)} (l : list X) :
  length (filter P l) = length l → filter P l = l.
Proof.
  induction l as [|x l IH]; [done|]. rewrite filter_cons. cbn [length].
  pose proof (filter_length P l). destruct (decide (P x)); cbn [length]; intros Hl.
  - f_equal. apply IH. lia.
  - lia.
Qed.

Lemma max_ge (l : list nat) x : x ∈ l → x ≤ foldr Nat.max 0 l.
Proof.
  induction l as [|y l IH]; intros H; [by apply elem_of_nil in H|].
  apply elem_of_cons in H as [->|H]; cbn; [lia|]. specialize (IH H). lia.
Qed.

Lemma aggregate_spec {A S T} merge (finish : nat → option S → option (option T)) (c : lists A) zero :
  well_formed c → length zero = length (valid c) →
  array_aggregate merge finish c zero
  = mapM (fun i => match row c i with
                   | None => Some None
                   | Some l => a ← foldl (fun acc x => a ← acc; merge i a x) (Some (zero !!! i)) l;
                               finish i a
                   end) (seq 0 (length (valid c))).
Proof.
  intros Hwf Hz. destruct (layout c Hwf) as (pre & L & post & HL & Ho & Hv).
  destruct c as [o vs v]. cbn [offs vals valid] in *. subst o vs.
  unfold array_aggregate. rewrite adjusted_layout, windows_sums, list_values_layout.
  cbn [valid]. rewrite (spans_rows L v HL).
  rewrite (merge_loop_spec merge L v zero HL Hz _ 0 zero (after_zero merge L v zero Hz)).
  set (m := 0 + _).
  assert (∀ i, i < length v → v !!! i = true → length (L !!! i) ≤ m) as Hm.
  { intros i Hi Hb. subst m. cbn [plus]. apply max_ge.
    apply elem_of_list_fmap. exists (zip (spans 0 L) v !!! i).
    rewrite (span_of L v HL i Hi), Hb. split; [lia|].
    rewrite <- Hb, <- (span_of L v HL i Hi).
    apply elem_of_list_lookup_2 with i. apply list_lookup_lookup_total_lt.
    by rewrite (spans_rows L v HL). }
  set (full := fun i => if (v !!! i : bool) then fold_row merge i (zero !!! i) (L !!! i)
                        else Some (zero !!! i)).
  assert (after merge L v zero m = mapM full (seq 0 (length v))) as ->.
  { apply mapM_ext_seq. intros i Hi. unfold full. destruct (v !!! i : bool) eqn:Hb; [|done].
    by rewrite take_ge by (by apply Hm). }
  clearbody m. clear Hm.
  set (want := fun i a => if (v !!! i : bool) then finish i a else Some None).
  assert (mapM (fun i => match row (Lists (length pre :: sums (length pre) L) (pre ++ concat L ++ post) v) i with
      | None => Some None
      | Some l => a ← foldl (fun acc x => a ← acc; merge i a x) (Some (zero !!! i)) l; finish i a
      end) (seq 0 (length v))
    = mapM (fun i => a ← full i; want i a) (seq 0 (length v))) as ->.
  { apply mapM_ext_seq. intros i Hi.
    destruct (lookup_lt_is_Some_2 L i) as [l Hl]; [lia|].
    destruct (lookup_lt_is_Some_2 v i) as [b Hb]; [lia|].
    rewrite (row_build _ _ _ _ _ _ _ Hl Hb). unfold full, want.
    rewrite (list_lookup_total_correct _ _ _ Hl), (list_lookup_total_correct _ _ _ Hb).
    by destruct b. }
  destruct (mapM full (seq 0 (length v))) as [acc|] eqn:Hacc.
  2:{ cbn [mbind option_bind]. symmetry. revert Hacc. apply mapM_seq_none.
      intros i Hi. by rewrite Hi. }
  cbn [mbind option_bind].
  assert (mapM (fun i => a ← full i; want i a) (seq 0 (length v))
    = mapM (fun i => want i (acc !!! i)) (seq 0 (length v))) as ->.
  { apply mapM_ext_seq. intros i Hi. destruct (mapM_seq_lookup _ _ _ i Hacc Hi) as [Hat Hlen].
    rewrite (list_lookup_lookup_total_lt acc i) in Hat by lia. by rewrite Hat. }
  assert (filter (fun r => (zip (spans 0 L) v !!! r).2 = true) (seq 0 (length v))
    = filter (fun r => (v !!! r : bool) = true) (seq 0 (length v))) as ->.
  { apply filter_seq_iff. apply Forall_forall. intros r Hr. apply elem_of_seq in Hr.
    by rewrite (span_of L v HL r) by lia. }
  destruct (length _ =? 0) eqn:H0.
  { apply Nat.eqb_eq, nil_length_inv in H0. symmetry. apply mapM_Some.
    assert (∀ i, i < length v → v !!! i = false) as Hf.
    { intros i Hi. destruct (v !!! i : bool) eqn:Hb; [|done].
      assert (i ∈ filter (fun r => (v !!! r : bool) = true) (seq 0 (length v))) as Hin.
      { apply elem_of_list_filter. split; [done|]. apply elem_of_seq. lia. }
      rewrite H0 in Hin. by apply elem_of_nil in Hin. }
    apply Forall2_same_length_lookup_2; [by rewrite seq_length, replicate_length|].
    intros i x y Hx Hy. apply lookup_seq in Hx as [-> Hi].
    apply lookup_replicate in Hy as [-> _]. unfold want. by rewrite Hf. }
  destruct (length _ =? length v) eqn:Hn.
  { apply Nat.eqb_eq in Hn. apply mapM_ext_seq. intros i Hi. unfold want.
    assert (v !!! i = true) as ->; [|done].
    assert (i ∈ filter (fun r => (v !!! r : bool) = true) (seq 0 (length v))) as Hin.
    { rewrite filter_full by (by rewrite seq_length). apply elem_of_seq. lia. }
    by apply elem_of_list_filter in Hin as [? _]. }
  rewrite scatter_all by (by rewrite replicate_length).
  apply mapM_ext_seq. intros i Hi. unfold want.
  destruct (decide _) as [->|Hb]; [done|].
  apply not_true_is_false in Hb. rewrite Hb.
  by rewrite lookup_total_replicate_2 by done.
Qed.

(** ** Theorems *)

(** array_position: the position of the first element equal to the value,
    NULL if the array or the value is NULL. *)
Theorem C89_position {A} (eq : A → A → bool) (c : lists A) x :
  well_formed c → length x = length (valid c) →
  length (array_position eq c x) = length (valid c) ∧
  ∀ i y, x !! i = Some y →
  match row c i, y with
  | Some l, Some y => ∃ p, array_position eq c x !! i = Some (Some p) ∧ is_position eq l y p
  | _, _ => array_position eq c x !! i = Some None
  end.
Proof. apply array_position_spec. Qed.
Print Assumptions C89_position.

(** array_intersect: the elements of the first array that the second has too,
    without repetition, in the order of the first array; NULL is an element. *)
Theorem C89_intersect {A} `{EqDecision A} (a b : lists A) :
  well_formed a → well_formed b → length (valid a) = length (valid b) →
  rows (array_intersect a b)
  = zip_with (fun x y => match x, y with
                         | Some l, Some r => Some (common l r)
                         | _, _ => None
                         end) (rows a) (rows b).
Proof. apply array_intersect_spec. Qed.
Print Assumptions C89_intersect.

(** The same if the elements of one side, or of both, have type NULL. *)
Theorem C89_intersect_null {A} `{EqDecision A} ln rn (a b : lists A) :
  well_formed a → well_formed b → length (valid a) = length (valid b) →
  (ln = true ∨ rn = true) →
  (ln = true → Forall (.= None) (vals a)) → (rn = true → Forall (.= None) (vals b)) →
  rows (null_intersect ln rn a b)
  = zip_with (fun x y => match x, y with
                         | Some l, Some r => Some (common l r)
                         | _, _ => None
                         end) (rows a) (rows b).
Proof. apply null_intersect_spec. Qed.
Print Assumptions C89_intersect_null.

(** arrays_zip: row by row the structures of the elements at the same
    position; NULL if one of the arrays is. *)
Theorem C89_zip {A} n (cs : list (lists A)) :
  Forall (fun c => well_formed c ∧ length (valid c) = n) cs →
  rows (arrays_zip n cs)
  = (fun i => zipped <$> mapM (fun c => row c i) cs) <$> seq 0 n.
Proof. apply arrays_zip_spec. Qed.
Print Assumptions C89_zip.

(** array_compact: the array without its NULL elements.  Missing: columns
    whose first offset is not zero, for which it is false (below). *)
Theorem C89_compact_partial {A} (c : lists A) :
  well_formed c → offs c !!! 0 = 0 →
  rows (array_compact c)
  = (fun r => match r with Some l => Some (filter is_Some l) | None => None end) <$> rows c.
Proof. apply array_compact_spec. Qed.
Print Assumptions C89_compact_partial.

(** The second of two rows, 1 and 2: array_compact gives 1, which is in
    another row. *)
Theorem C89_compact_slice_refuted :
  ∃ c : lists nat, well_formed c ∧
    rows c = [Some [Some 2]] ∧ rows (array_compact c) = [Some [Some 1]].
Proof.
  exists (Lists [1; 2] [Some 1; Some 2] [true]). split_and!; [|done..].
  split_and!; [done| |].
  - intros i Hi. cbn in Hi. assert (i = 0) as -> by lia. cbn. lia.
  - intros i Hi. cbn in Hi. destruct i as [|[|i]]; cbn; lia.
Qed.
Print Assumptions C89_compact_slice_refuted.

(** filter: the elements for which the lambda is true. *)
Theorem C89_filter {A} (c : lists A) (f : lambda (A := A) (option bool)) r :
  well_formed c → array_filter c f = Some r →
  result_rows (length (valid c)) r
  = (fun i => kept (at_element f i) <$> row c i) <$> seq 0 (length (valid c)).
Proof. apply filter_spec. Qed.
Print Assumptions C89_filter.

(** transform: the values of the lambda for the elements. *)
Theorem C89_transform {A B} (c : lists A) (f : lambda (A := A) (option B)) r :
  well_formed c → array_transform c f = Some r →
  length (result_rows (length (valid c)) r) = length (valid c) ∧
  ∀ i, i < length (valid c) →
  match row c i with
  | None => result_rows (length (valid c)) r !! i = Some None
  | Some l => ∃ o, result_rows (length (valid c)) r !! i = Some (Some o) ∧ gives (at_element f) i l o
  end.
Proof. apply transform_spec. Qed.
Print Assumptions C89_transform.

(** filter and transform fail only if the lambda does. *)
Theorem C89_lambda_total {A B} (c : lists A) (f : lambda (A := A) (option bool))
    (g : lambda (A := A) (option B)) :
  ((∀ i x k, is_Some (at_element f i x k)) → is_Some (array_filter c f)) ∧
  ((∀ i x k, is_Some (at_element g i x k)) → is_Some (array_transform c g)).
Proof.
  split; intros H.
  - unfold array_filter. destruct (extract c); [done|].
    destruct f as [[[]|]|f]; [done..|].
    destruct (evaluate_total f c H) as [? ->]. done.
  - unfold array_transform. destruct (extract c); [done|].
    destruct g as [b|g]; [done|].
    destruct (evaluate_total g c H) as [? ->]. done.
Qed.
Print Assumptions C89_lambda_total.

(** exists and forall: true (or false) if an element is met for which the
    lambda is, NULL if none is and it is NULL for one; an error only if an
    element raises one that is met before the answer is known, although all
    elements of all rows are evaluated at once first. *)
Theorem C89_exists {A} (c : lists A) p : well_formed c → answers true c p (array_exists c p).
Proof. apply exists_spec. Qed.
Print Assumptions C89_exists.

Theorem C89_forall {A} (c : lists A) p : well_formed c → answers false c p (array_forall c p).
Proof. apply forall_spec. Qed.
Print Assumptions C89_forall.

(** aggregate: the elements merged one after the other, starting with the
    value of the row, then the second lambda; NULL for a NULL row.  An error
    of a lambda in any of these steps is an error of the whole. *)
Theorem C89_aggregate {A S T} merge (finish : nat → option S → option (option T)) (c : lists A) zero :
  well_formed c → length zero = length (valid c) →
  array_aggregate merge finish c zero
  = mapM (fun i => match row c i with
                   | None => Some None
                   | Some l => a ← foldl (fun acc x => a ← acc; merge i a x) (Some (zero !!! i)) l;
                               finish i a
                   end) (seq 0 (length (valid c))).
Proof. apply aggregate_spec. Qed.
Print Assumptions C89_aggregate.

(** ** A case that meets the hypotheses *)

(** A slice: an element before, one behind, a NULL row that has a range, an
    empty array, NULL elements and repetitions. *)
Definition sample : lists nat :=
  Lists [1; 5; 7; 7; 10]
    [Some 9; Some 1; None; Some 2; Some 1; Some 8; Some 8; Some 3; Some 2; None; Some 7]
    [true; false; true; true].

Example C89_sample : well_formed sample.
Proof.
  split_and!; [done| |].
  - intros i Hi. cbn in Hi. do 4 (destruct i as [|i]; [cbn; lia|]). lia.
  - intros i Hi. cbn in Hi. do 5 (destruct i as [|i]; [cbn; lia|]). lia.
Qed.

Example C89_sample_rows :
  rows sample = [Some [Some 1; None; Some 2; Some 1]; None; Some []; Some [Some 3; Some 2; None]].
Proof. done. Qed.

Example C89_sample_position :
  array_position Nat.eqb sample [Some 2; Some 8; Some 1; Some 5]
  = [Some 3; None; Some 0; Some 0].
Proof. done. Qed.

Example C89_sample_intersect :
  rows (array_intersect sample
    (Lists [0; 2; 2; 3; 5] [None; Some 1; Some 4; Some 2; Some 3] [true; true; true; true]))
  = [Some [Some 1; None]; None; Some []; Some [Some 3; Some 2]].
Proof. vm_compute. done. Qed.

Example C89_sample_intersect_null :
  let b := Lists [1; 3; 3; 4; 4] [None; None; None; None] [true; true; true; true] in
  rows (null_intersect false true sample b) = [Some [None]; None; Some []; Some []] ∧
  well_formed b ∧ Forall (.= None) (vals b).
Proof.
  intros b. split; [vm_compute; done|]. split; [|by repeat constructor]. split_and!; [done| |].
  - intros i Hi. cbn in Hi. do 4 (destruct i as [|i]; [cbn; lia|]). lia.
  - intros i Hi. cbn in Hi. do 5 (destruct i as [|i]; [cbn; lia|]). lia.
Qed.

Example C89_sample_filter :
  array_filter sample (Each (fun _ x k => Some (y ← x; Some ((y <=? 2) && (k <? 3)))))
  = Some (Column (Lists [0; 2; 2; 2; 3] [Some 1; Some 2; Some 2] [true; false; true; true])).
Proof. vm_compute. done. Qed.

(** An error for 8, which only a NULL row has, does no harm; an error for 3 is
    met before 2. *)
Example C89_sample_exists :
  array_exists sample (inr (fun _ x => match x with
     | Some 8 => None | Some y => Some (Some (y =? 3)) | None => Some None end))
  = Some [None; None; Some false; Some true] ∧
  array_exists sample (inr (fun _ x => match x with
     | Some 3 => None | Some y => Some (Some (y =? 2)) | None => Some None end)) = None.
Proof. vm_compute. done. Qed.

Example C89_sample_zip :
  rows (arrays_zip 4 [sample; Lists [0; 1; 1; 1; 2] [Some 5; Some 6] [true; true; true; false]])
  = [Some [Some [Some 1; Some 5]; Some [None; None]; Some [Some 2; None]; Some [Some 1; None]];
     None; Some []; None].
Proof. vm_compute. done. Qed.

(** Twice the accumulator and the element; the second lambda adds the row. *)
Example C89_sample_aggregate :
  array_aggregate (fun _ a x => Some (a ← a; Some (2 * a + default 0 x)))
    (fun i a => Some (a ← a; Some (a + 10 * i))) sample [Some 4; Some 4; Some 4; Some 4]
  = Some [Some 77; None; Some 24; Some 78].
Proof. vm_compute. done. Qed.
