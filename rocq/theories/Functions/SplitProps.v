(** C91: split answers for each row with the pattern and the limit of that row,
    and the memo of compiled patterns does not show. *)

From Coq Require Import ZArith Lia.
From stdpp Require Import list list_numbers.
From Verif.Functions Require Import SplitModel.

Section spec.
Context {C K R : Type} `{EqDecision K}.
Context (compile : K → option R) (matches : R → list C → list (nat * nat)).

(** ** Specification *)

(** The value for row [i] of an argument that is a column or a single value. *)
Definition cell {B} (l : list (option B)) (i : nat) : option B :=
  match l with [x] => x | _ => mjoin (l !! i) end.

(** A column for [n] rows or a single value. *)
Definition shaped {B} (n : nat) (l : list (option B)) : Prop := length l = n ∨ length l = 1.

(** The row: NULL if an argument is, else the pieces; an error ([None]) if the
    pattern is not valid. *)
Definition split_row (v : option (list C)) (k : option K) (z : option Z)
    : option (option (list (list C))) :=
  match v, k, z with
  | Some v, Some k, Some z => r ← compile k; Some (Some (split_to_array matches v r z))
  | _, _, _ => Some None
  end.

(** What the memo holds was computed. *)
Definition sound (m : memo (K := K) (R := R)) : Prop :=
  (∀ k r, (k, r) ∈ m → compile k = Some r) ∧ length m ≤ 128.

(** Ranges in order, one behind the other, inside the text. *)
Fixpoint ordered (from : nat) (ms : list (nat * nat)) (n : nat) : Prop :=
  match ms with
  | [] => from ≤ n
  | (s, e) :: ms' => from ≤ s ∧ s ≤ e ∧ ordered e ms' n
  end.

(** The pieces with the text of the matches put back between them. *)
Fixpoint rejoin (v : list C) (ps : list (list C)) (ms : list (nat * nat)) : list C :=
  match ps, ms with
  | p :: ps', (s, e) :: ms' =>
      match ps' with [] => p | _ => p ++ take (e - s) (drop s v) ++ rejoin v ps' ms' end
  | p :: _, [] => p
  | [], _ => []
  end.

(** ** Proofs *)

Lemma find_some (m : memo) (k : K) (r : R) : find m k = Some r → (k, r) ∈ m.
Proof.
  induction m as [|[k' r'] m IH]; cbn [find]; [done|].
  destruct (decide (k' = k)) as [->|_]; [intros [= ->]; left|]. intros H. right. by apply IH.
Qed.

Lemma find_none (m : memo (R := R)) (k : K) : find m k = None → k ∉ m.*1.
Proof.
  induction m as [|[k' r'] m IH]; cbn [find]; [intros _; apply not_elem_of_nil|].
  destruct (decide (k' = k)) as [->|Hn]; [done|]. intros H.
  cbn [fmap list_fmap fst]. apply not_elem_of_cons. split; [done|]. by apply IH.
Qed.

Lemma get_or_insert_sound m k :
  sound m →
  match get_or_insert compile m k with
  | Some (r, m', computed) =>
      compile k = Some r ∧ sound m' ∧ (computed = true ↔ k ∉ m.*1) ∧
      (length m < 128 → k ∈ m'.*1) ∧ m.*1 ⊆ m'.*1
  | None => compile k = None
  end.
Proof.
  intros [H1 H2]. unfold get_or_insert. destruct (find m k) as [r|] eqn:Hf.
  { apply find_some in Hf as Hin.
    assert (k ∈ m.*1) as Hk by (apply elem_of_list_fmap; by exists (k, r)).
    split_and!; [by apply H1|done..| |done|done]. by split. }
  apply find_none in Hf.
  destruct (compile k) as [r|] eqn:Hc; cbn [mbind option_bind]; [|done].
  destruct (Nat.leb_spec MAX_DISTINCT (length m)) as [Hl|Hl]; unfold MAX_DISTINCT in Hl.
  - split_and!; [done|done|done|lia|done].
  - split_and!; [done| |done|intros _; left|intros x Hx; by right].
    split; [|cbn [length]; lia].
    intros k' r' [[= -> ->]|Hin]%elem_of_cons; [done|by apply H1].
Qed.

Lemma split_loop_spec values format limit scalar idx m :
  sound m → shaped (length values) format → shaped (length values) limit →
  scalar = (single format ≫= compile) → (single format ≠ None → scalar ≠ None) →
  Forall (λ i, i < length values) idx →
  split_loop compile matches values format limit scalar idx m
  = mapM (λ i, split_row (mjoin (values !! i)) (cell format i) (cell limit i)) idx.
Proof.
  intros Hm Hf Hl Hs Hp Hi. revert m Hm. induction Hi as [|i idx Hi _ IH]; intros m Hm; [done|].
  cbn [split_loop mapM].
  destruct (lookup_lt_is_Some_2 values i Hi) as [v Hv].
  assert (is_null values i = match v with None => true | _ => false end) as ->.
  { unfold is_null. rewrite Hv. done. }
  assert (value values i = v) as -> by (unfold value; rewrite Hv; by destruct v).
  rewrite Hv. cbn [mjoin option_join].
  assert (single_null format || is_null format i = match cell format i with None => true | _ => false end) as Ef.
  { unfold shaped in Hf. destruct format as [|x [|y format]].
    - cbn [length] in Hf. lia.
    - unfold is_null. cbn [single_null cell]. destruct x; [|done]. destruct i; done.
    - unfold is_null, cell. cbn [single_null]. rewrite Bool.orb_comm. 
      destruct (lookup_lt_is_Some_2 (x :: y :: format) i) as [w Hw]; [cbn [length] in *; lia|].
      rewrite Hw. destruct x, w; done. }
  assert (single_null limit || is_null limit i = match cell limit i with None => true | _ => false end) as El.
  { unfold shaped in Hl. destruct limit as [|x [|y limit]].
    - cbn [length] in Hl. lia.
    - unfold is_null. cbn [single_null cell]. destruct x; [|done]. destruct i; done.
    - unfold is_null, cell. cbn [single_null]. rewrite Bool.orb_comm. 
      destruct (lookup_lt_is_Some_2 (x :: y :: limit) i) as [w Hw]; [cbn [length] in *; lia|].
      rewrite Hw. destruct x, w; done. }
  assert (single_null format || single_null limit || (match v with None => true | _ => false end)
    || is_null format i || is_null limit i
    = (match v with None => true | _ => false end)
      || (single_null format || is_null format i) || (single_null limit || is_null limit i)) as ->.
  { destruct (single_null format), (single_null limit), v, (is_null format i), (is_null limit i); done. }
  rewrite Ef, El.
  assert (∀ m, sound m → split_loop compile matches values format limit scalar idx m
    = mapM (λ i, split_row (mjoin (values !! i)) (cell format i) (cell limit i)) idx) as IH' by exact IH.
  destruct v as [v|]; cbn [orb split_row mbind option_bind]; [|by rewrite IH'].
  destruct (cell format i) as [k|] eqn:Ek; cbn [orb mbind option_bind]; [|by rewrite IH'].
  destruct (cell limit i) as [z|] eqn:Ez; cbn [orb mbind option_bind]; [|by rewrite IH'].
  assert (match single limit with Some z => Some z | None => value limit i end = Some z) as Hz.
  { destruct limit as [|x [|y limit]]; [done| |].
    - cbn [cell] in Ez. by subst x.
    - unfold cell in Ez. unfold value. assert (single (x :: y :: limit) = None) as -> by (by destruct x).
      destruct ((x :: y :: limit) !! i) as [[w|]|]; cbn in Ez; by simplify_eq. }
  rewrite Hz.
  destruct (single format) as [k'|] eqn:Hsf.
  - assert (k' = k) as ->.
    { destruct format as [|[x|] [|y format]]; cbn in Hsf, Ek; by simplify_eq. }
    cbn [mbind option_bind] in Hs. destruct scalar as [r|]; [|by destruct Hp].
    rewrite <- Hs. cbn [resolve mbind option_bind]. by rewrite IH'.
  - cbn [mbind option_bind] in Hs. subst scalar. cbn [resolve].
    assert (value format i = Some k) as ->.
    { unfold value. destruct format as [|x [|y format]]; [done| |].
      - cbn [cell] in Ek. by subst x.
      - unfold cell in Ek. destruct ((x :: y :: format) !! i) as [[w|]|]; cbn in Ek; by simplify_eq. }
    cbn [mbind option_bind]. pose proof (get_or_insert_sound m k Hm) as Hg.
    destruct (get_or_insert compile m k) as [[[r m'] c]|]; cbn [mbind option_bind].
    + destruct Hg as (-> & Hm' & _). cbn [mbind option_bind]. by rewrite IH'.
    + by rewrite Hg.
Qed.

End spec.

(** ** Theorems *)

(** The memo never changes a value or an error, holds at most 128 patterns,
    which it keeps, and computes only what it does not hold. *)
Theorem C91_memo {K R} `{EqDecision K} (compile : K → option R) m k :
  sound compile [] ∧
  (sound compile m →
   match get_or_insert compile m k with
   | Some (r, m', computed) =>
       compile k = Some r ∧ sound compile m' ∧ (computed = true ↔ k ∉ m.*1) ∧
       (length m < 128 → k ∈ m'.*1) ∧ m.*1 ⊆ m'.*1
   | None => compile k = None
   end).
Proof.
  split; [|apply get_or_insert_sound]. split; [|cbn; lia].
  by intros ? ? ?%elem_of_nil.
Qed.
Print Assumptions C91_memo.

(** Each row is split with its pattern and its limit, if the only pattern of a
    batch is valid. *)
Theorem C91_rows {C K R} `{EqDecision K} (compile : K → option R)
    (matches : R → list C → list (nat * nat)) values format limit :
  shaped (length values) format → shaped (length values) limit →
  (∀ k, format = [Some k] → compile k ≠ None) →
  split_inner compile matches values format limit
  = mapM (λ i, split_row compile matches (mjoin (values !! i)) (cell format i) (cell limit i))
      (seq 0 (length values)).
Proof.
  intros Hf Hl Hc. unfold split_inner.
  assert (Forall (λ i, i < length values) (seq 0 (length values))) as Hi
    by (apply Forall_forall; intros i ?%elem_of_seq; lia).
  assert (sound compile []) as Hm by (split; [by intros ? ? ?%elem_of_nil|cbn; lia]).
  destruct (single format) as [k|] eqn:Hs.
  - assert (format = [Some k]) as ->
      by (destruct format as [|[x|] [|y format]]; cbn in Hs; by simplify_eq).
    destruct (compile k) as [r|] eqn:Hk; [|by destruct (Hc k eq_refl)].
    cbn [mbind option_bind]. by apply split_loop_spec.
  - apply split_loop_spec; try done. by rewrite Hs.
Qed.
Print Assumptions C91_rows.

(** The pieces and the matches between them are the text, and there are no more
    pieces than the limit; without one, each match separates two pieces. *)
Theorem C91_pieces {C R} (matches : R → list C → list (nat * nat)) v r z :
  ordered 0 (matches r v) (length v) →
  let ps := split_to_array matches v r z in
  rejoin v ps (matches r v) = v ∧
  length ps = if (0 <? z)%Z then Z.to_nat z `min` S (length (matches r v))
              else S (length (matches r v)).
Proof.
  intros Ho. unfold split_to_array. cbv zeta.
  assert (∀ ms from limit, limit ≠ Some 0 → ordered from ms (length v) →
    rejoin v (pieces v from ms limit) ms = drop from v ∧
    length (pieces v from ms limit)
    = match limit with Some n => n `min` S (length ms) | None => S (length ms) end) as H.
  { clear. induction ms as [|[s e] ms IH]; intros from limit Hn Ho.
    { destruct limit as [[|[|n]]|]; [done|done|..]; cbn; split; try done; lia. }
    cbn [ordered] in Ho. destruct Ho as (H1 & H2 & H3).
    assert (take (s - from) (drop from v) ++ take (e - s) (drop s v) ++ drop e v = drop from v) as Hd.
    { replace (drop s v) with (drop (s - from) (drop from v)) by (rewrite drop_drop; f_equal; lia).
      replace (drop e v) with (drop (e - s) (drop (s - from) (drop from v)))
        by (rewrite !drop_drop; f_equal; lia).
      by rewrite !take_drop. }
    assert (∀ limit', limit' ≠ Some 0 → pieces v e ms limit' ≠ []) as Hne.
    { intros limit' Hl. destruct ms as [|[s' e'] ms], limit' as [[|[|n]]|]; done. }
    destruct limit as [[|[|n]]|]; [done| |..].
    - cbn [pieces rejoin length]. split; [done|lia].
    - cbn [pieces fmap option_fmap option_map pred]. 
      destruct (IH e (Some (S n)) ltac:(done) H3) as [I1 I2].
      specialize (Hne (Some (S n)) ltac:(done)).
      split; [|cbn [length]; rewrite I2; lia].
      cbn [rejoin]. destruct (pieces v e ms (Some (S n))) as [|p ps] eqn:Hp; [done|].
      rewrite I1. exact Hd.
    - cbn [pieces fmap option_fmap option_map].
      destruct (IH e None ltac:(done) H3) as [I1 I2].
      specialize (Hne None ltac:(done)).
      split; [|cbn [length]; rewrite I2; lia].
      cbn [rejoin]. destruct (pieces v e ms None) as [|p ps] eqn:Hp; [done|].
      rewrite I1. exact Hd. }
  destruct (Z.ltb_spec 0 z) as [Hz|Hz].
  - destruct (H (matches r v) 0 (Some (Z.to_nat z))) as [I1 I2]; [intros [= ?]; lia|done|].
    split; [by rewrite I1|done].
  - destruct (H (matches r v) 0 None) as [I1 I2]; [done|done|]. split; [by rewrite I1|done].
Qed.
Print Assumptions C91_pieces.

(** The result depends on how the rows are cut into batches: a NULL with a
    pattern that is not valid is NULL, but an error in a batch of its own. *)
Theorem C91_batches_refuted :
  ∃ (compile : nat → option nat) (matches : nat → list nat → list (nat * nat)) v1 f1 l1 v2 f2 l2,
    length f1 = length v1 ∧ length l1 = length v1 ∧ length f2 = length v2 ∧ length l2 = length v2 ∧
    split_inner compile matches (v1 ++ v2) (f1 ++ f2) (l1 ++ l2) ≠ None ∧
    split_inner compile matches v1 f1 l1 ≠ None ∧
    split_inner compile matches v2 f2 l2 = None.
Proof.
  exists (λ k, if decide (k = 0) then None else Some k), (λ _ _, []),
    [Some [1]], [Some 1], [Some (-1)%Z], [None], [Some 0], [Some (-1)%Z].
  by vm_compute.
Qed.
Print Assumptions C91_batches_refuted.

(** A text is split at its zeros (pattern 0) or at its ones (pattern 1); there
    is no pattern 2. *)
Definition zeros_or_ones (k : nat) (v : list nat) : list (nat * nat) :=
  (λ i, (i, S i)) <$> filter (λ i, v !! i = Some k) (seq 0 (length v)).

Example C91_case :
  let compile := λ k, if decide (k = 2) then None else Some k in
  split_inner compile zeros_or_ones
    [Some [5; 0; 6; 0; 7]; Some [1; 5; 0]; None; Some [5; 0; 6; 0; 7]]
    [Some 0; Some 1; Some 2; Some 0] [Some (-1)%Z; Some 9%Z; Some 0%Z; Some 2%Z]
  = Some [Some [[5]; [6]; [7]]; Some [[]; [5; 0]]; None; Some [[5]; [6; 0; 7]]] ∧
  split_inner compile zeros_or_ones [Some [5; 0]; Some [0; 6]] [Some 0] [Some (-1)%Z]
  = Some [Some [[5]; []]; Some [[]; [6]]] ∧
  split_inner compile zeros_or_ones [Some [5]; Some [6]] [Some 0; Some 2] [Some (-1)%Z] = None ∧
  ordered 0 (zeros_or_ones 0 [5; 0; 6; 0; 7]) 5.
Proof. vm_compute. split_and!; try done; lia. Qed.
