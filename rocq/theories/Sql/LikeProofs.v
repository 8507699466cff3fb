(** Rewriting a LIKE pattern keeps its meaning. *)
From Coq Require Import NArith ZifyN ZifyBool Lia.
From stdpp Require Import prelude list.
From Verif.Lib Require Import Text.
From Verif.Sql Require Import LikeModel LikeSpec.
Local Open Scope N_scope.

(** Induction on patterns that may step over two characters. *)
Lemma pattern_ind (P : text -> Prop) :
  P [] -> (forall c, P [c]) -> (forall c n p, P p -> P (n :: p) -> P (c :: n :: p)) -> forall p, P p.
Proof.
  intros H0 H1 H2 p. enough (P p /\ forall c, P (c :: p)) as [? _] by done.
  induction p as [|n p [IH1 IH2]]; [done|]. split; [done|]. intros c. by apply H2.
Qed.

(** The items of a pattern under an escape. *)
Fixpoint items (e : N) (p : text) : list item :=
  match p with
  | [] => []
  | c :: p' =>
    if c =? e then match p' with n :: p'' => Lit n :: items e p'' | [] => [] end
    else if c =? PERCENT then AnyText :: items e p'
    else if c =? UNDER then AnyChar :: items e p'
    else Lit c :: items e p'
  end.

Lemma well_formed_two (e c n : N) (p : text) :
  well_formed e (c :: n :: p) = if c =? e then (is_wild n \/ n = e) /\ well_formed e p else well_formed e (n :: p).
Proof. done. Qed.
Lemma items_two (e c n : N) (p : text) :
  items e (c :: n :: p) =
    if c =? e then Lit n :: items e p
    else if c =? PERCENT then AnyText :: items e (n :: p)
    else if c =? UNDER then AnyChar :: items e (n :: p) else Lit c :: items e (n :: p).
Proof. done. Qed.
Lemma rewrite_two (e c n : N) (p : text) :
  rewrite_loop e (c :: n :: p) =
    if c =? BSLASH then BSLASH :: BSLASH :: rewrite_loop e (n :: p)
    else if c =? e then
      if (n =? PERCENT) || (n =? UNDER) || (n =? e) then BSLASH :: n :: rewrite_loop e p
      else if n =? BSLASH then c :: BSLASH :: BSLASH :: rewrite_loop e p
      else c :: n :: rewrite_loop e p
    else c :: rewrite_loop e (n :: p).
Proof. done. Qed.
Lemma kernel_escaped (n : N) (p : text) : kernel_items (BSLASH :: n :: p) = Lit n :: kernel_items p.
Proof. done. Qed.
Lemma kernel_plain (c : N) (p : text) :
  c <> BSLASH ->
  kernel_items (c :: p) =
    if c =? PERCENT then AnyText :: kernel_items p
    else if c =? UNDER then AnyChar :: kernel_items p else Lit c :: kernel_items p.
Proof. intros H. cbn [kernel_items]. apply N.eqb_neq in H. by rewrite H. Qed.
Lemma kernel_literal (c : N) (p : text) :
  c <> BSLASH -> ~ is_wild c -> kernel_items (c :: p) = Lit c :: kernel_items p.
Proof.
  intros H Hw. rewrite kernel_plain by done. unfold is_wild in Hw.
  destruct (N.eqb_spec c PERCENT); [tauto|]. destruct (N.eqb_spec c UNDER); [tauto|done].
Qed.

Lemma rewrite_items (e : N) (p : text) :
  e <> BSLASH -> well_formed e p -> kernel_items (rewrite_loop e p) = items e p.
Proof.
  intros He. induction p as [|c|c n p IH IH1] using pattern_ind; intros Hw; [done|..].
  - cbn [well_formed] in Hw. cbn [rewrite_loop items].
    destruct (N.eqb_spec c e) as [Hc|Hc]; [done|].
    destruct (N.eqb_spec c BSLASH) as [-> |Hb]; [done|]. by rewrite kernel_plain.
  - rewrite well_formed_two in Hw. rewrite rewrite_two, items_two.
    destruct (N.eqb_spec c BSLASH) as [-> |Hb].
    + assert ((BSLASH =? e) = false) as Hbe by (by apply N.eqb_neq). rewrite Hbe in *.
      rewrite kernel_escaped, IH1 by done. done.
    + destruct (N.eqb_spec c e) as [-> |Hc].
      * destruct Hw as [Hn Hw].
        assert ((n =? PERCENT) || (n =? UNDER) || (n =? e) = true) as ->.
        { unfold is_wild in Hn. lia. }
        by rewrite kernel_escaped, IH.
      * by rewrite kernel_plain, IH1.
Qed.
Lemma kernel_is_items (p : text) : well_formed BSLASH p -> kernel_items p = items BSLASH p.
Proof.
  induction p as [|c|c n p IH IH1] using pattern_ind; intros Hw; [done|..].
  - cbn [well_formed] in Hw. cbn [kernel_items items]. by destruct (N.eqb_spec c BSLASH).
  - rewrite well_formed_two in Hw. rewrite items_two.
    destruct (N.eqb_spec c BSLASH) as [-> |Hb].
    + destruct Hw as [_ Hw]. by rewrite kernel_escaped, IH.
    + by rewrite kernel_plain, IH1.
Qed.
Lemma like_items_wf (e : N) (p : text) : well_formed e p -> like_items (Some e) p = items e p.
Proof.
  intros Hw. unfold like_items, rewrite_pattern. destruct (N.eqb_spec e BSLASH) as [-> |He].
  - by apply kernel_is_items.
  - by apply rewrite_items.
Qed.

Lemma matches_any (same : N -> N -> bool) (l : list item) (s : text) :
  matches same (AnyText :: l) s = true <-> exists a s', s = a ++ s' /\ matches same l s' = true.
Proof.
  induction s as [|x s IH].
  - cbn [matches]. rewrite orb_false_r. split.
    + intros H. by exists [], [].
    + intros (a & s' & Hs & H). symmetry in Hs. by apply app_nil in Hs as [-> ->].
  - change (matches same (AnyText :: l) (x :: s)) with
      (matches same l (x :: s) || matches same (AnyText :: l) s).
    rewrite orb_true_iff, IH. split.
    + intros [H|(a & s' & -> & H)]; [by exists [], (x :: s)|by exists (x :: a), s'].
    + intros (a & s' & Hs & H). destruct a as [|y a].
      * left. by rewrite Hs.
      * right. injection Hs as -> ->. by exists a, s'.
Qed.

Lemma items_denote (same : N -> N -> bool) (e : N) (p s : text) :
  well_formed e p -> (matches same (items e p) s = true <-> denotes same e p s).
Proof.
  revert s. induction p as [|c|c n p IH IH1] using pattern_ind; intros s Hw.
  - cbn [items matches]. split.
    + intros H. destruct s; [constructor|done].
    + intros H. by inversion H.
  - cbn [well_formed] in Hw. cbn [items]. destruct (N.eqb_spec c e) as [Hc|Hc]; [done|].
    clear Hw. destruct (N.eqb_spec c PERCENT) as [-> |H1]; [|destruct (N.eqb_spec c UNDER) as [-> |H2]].
    + rewrite matches_any. split.
      * intros (a & s' & -> & H). apply denotes_many; [done|]. destruct s'; [constructor|done].
      * intros H. inversion H as [|? ? ? ? ? ? ? E|? ? ? ? ? Hw ? ? E|? ? ? ? ? E|a p s' ? H' E]; subst.
        -- exfalso. apply Hw. by left.
        -- inversion H'; subst. by exists a, [].
    + cbn [matches]. split.
      * intros H. destruct s as [|x s]; [done|]. apply denotes_one; [done|]. destruct s; [constructor|done].
      * intros H. inversion H as [|? ? ? ? ? ? ? E|? ? ? ? ? Hw ? ? E|? ? ? ? H' E|a p s' ? H' E]; subst.
        -- exfalso. apply Hw. by right.
        -- inversion H'; by subst.
    + cbn [matches]. split.
      * intros H. destruct s as [|x s]; [done|]. apply andb_true_iff in H as [Hs H].
        apply denotes_literal; [done| |done|].
        -- by intros [-> | ->].
        -- destruct s; [constructor|done].
      * intros H. inversion H as [|? ? ? ? ? ? ? E|? ? ? ? ? Hw Hs H' E|? ? ? ? H' E|a p s' ? H' E]; subst; try done.
        rewrite Hs. by inversion H'.
  - rewrite well_formed_two in Hw. rewrite items_two.
    destruct (N.eqb_spec c e) as [-> |Hc].
    + destruct Hw as [Hn Hw]. cbn [matches]. split.
      * intros H. destruct s as [|x s]; [done|]. apply andb_true_iff in H as [Hs H].
        apply denotes_escaped; [done|done|]. by apply IH.
      * intros H. inversion H as [|? ? ? ? ? Hs H'|? ? ? ? Hne|? ? ? Hne|? ? ? Hne]; subst; try done.
        rewrite Hs. by apply IH.
    + destruct (N.eqb_spec c PERCENT) as [-> |H1]; [|destruct (N.eqb_spec c UNDER) as [-> |H2]].
      * rewrite matches_any. split.
        -- intros (a & s' & -> & H). apply denotes_many; [done|]. by apply IH1.
        -- intros H. inversion H as [|? ? ? ? ? ? ? E|? ? ? ? ? Hx ? ? E|? ? ? ? ? E|a p' s' ? H' E]; subst; try done.
           ++ exfalso. apply Hx. by left.
           ++ exists a, s'. split; [done|]. by apply IH1.
      * cbn [matches]. split.
        -- intros H. destruct s as [|x s]; [done|]. apply denotes_one; [done|]. by apply IH1.
        -- intros H. inversion H as [|? ? ? ? ? ? ? E|? ? ? ? ? Hx ? ? E|? ? ? ? H' E|a p' s' ? H' E]; subst; try done.
           ++ exfalso. apply Hx. by right.
           ++ by apply IH1.
      * cbn [matches]. split.
        -- intros H. destruct s as [|x s]; [done|]. apply andb_true_iff in H as [Hs H].
           apply denotes_literal; [done| |done|by apply IH1]. by intros [-> | ->].
        -- intros H. inversion H as [|? ? ? ? ? ? ? E|? ? ? ? ? Hx Hs H' E|? ? ? ? H' E|a p' s' ? H' E]; subst; try done.
           rewrite Hs. by apply IH1.
Qed.

Theorem like_denotes (same : N -> N -> bool) (e : N) (p s : text) :
  well_formed e p -> (like same (Some e) p s = true <-> denotes same e p s).
Proof. intros Hw. unfold like. rewrite like_items_wf by done. by apply items_denote. Qed.
Theorem like_default (same : N -> N -> bool) (p s : text) : like same None p s = like same (Some BSLASH) p s.
Proof. done. Qed.

(** ** Escapes without effect *)
Lemma repaired_two (e c n : N) (p : text) :
  repaired e (c :: n :: p) =
    if c =? e then
      if (n =? PERCENT) || (n =? UNDER) || (n =? e) then e :: n :: repaired e p
      else e :: e :: n :: repaired e p
    else c :: repaired e (n :: p).
Proof. done. Qed.
Lemma well_formed_escape (e n : N) (p : text) :
  well_formed e (e :: n :: p) = ((is_wild n \/ n = e) /\ well_formed e p).
Proof. rewrite well_formed_two. by rewrite N.eqb_refl. Qed.
Lemma well_formed_plain (e c : N) (p : text) : c <> e -> well_formed e (c :: p) = well_formed e p.
Proof. intros H. cbn [well_formed]. apply N.eqb_neq in H. by rewrite H. Qed.
Lemma repaired_well_formed (e : N) (p : text) : well_formed e (repaired e p).
Proof.
  induction p as [|c|c n p IH IH1] using pattern_ind; [done|..].
  - cbn [repaired]. destruct (N.eqb_spec c e) as [-> |Hc].
    + rewrite well_formed_escape. by split; [right|].
    + by rewrite well_formed_plain.
  - rewrite repaired_two. destruct (N.eqb_spec c e) as [-> |Hc].
    + destruct ((n =? PERCENT) || (n =? UNDER) || (n =? e)) eqn:E.
      * rewrite well_formed_escape. split; [|done]. unfold is_wild. lia.
      * rewrite well_formed_escape. split; [tauto|]. rewrite well_formed_plain by lia. done.
    + by rewrite well_formed_plain.
Qed.
Lemma rewrite_repaired (e : N) (p : text) :
  e <> BSLASH -> ~ is_wild e -> kernel_items (rewrite_loop e p) = kernel_items (rewrite_loop e (repaired e p)).
Proof.
  intros He Hwe.
  assert (Hesc : forall n q, (n =? PERCENT) || (n =? UNDER) || (n =? e) = true ->
    rewrite_loop e (e :: n :: q) = BSLASH :: n :: rewrite_loop e q).
  { intros n q Hn. rewrite rewrite_two, N.eqb_refl, Hn. by apply N.eqb_neq in He as ->. }
  assert (Hee : forall q, rewrite_loop e (e :: e :: q) = BSLASH :: e :: rewrite_loop e q).
  { intros q. apply Hesc. by rewrite N.eqb_refl, orb_true_r. }
  assert (Hlit : forall c q, c <> e -> rewrite_loop e (c :: q) =
    (if c =? BSLASH then [BSLASH; BSLASH] else [c]) ++ rewrite_loop e q).
  { intros c q Hc. cbn [rewrite_loop]. apply N.eqb_neq in Hc. rewrite Hc. by destruct (c =? BSLASH). }
  assert (Hk : forall c q r, kernel_items q = kernel_items r ->
    kernel_items ((if c =? BSLASH then [BSLASH; BSLASH] else [c]) ++ q) =
    kernel_items ((if c =? BSLASH then [BSLASH; BSLASH] else [c]) ++ r)).
  { intros c q r H. destruct (N.eqb_spec c BSLASH) as [-> |Hc]; cbn [app].
    - by rewrite !kernel_escaped, H.
    - by rewrite !kernel_plain, H by done. }
  induction p as [|c|c n p IH IH1] using pattern_ind; [done|..].
  - cbn [repaired]. destruct (N.eqb_spec c e) as [-> |Hc]; [|done].
    rewrite Hee, kernel_escaped. cbn [rewrite_loop]. rewrite N.eqb_refl.
    assert ((e =? BSLASH) = false) as -> by (by apply N.eqb_neq). by rewrite kernel_literal.
  - rewrite repaired_two. destruct (N.eqb_spec c e) as [-> |Hc].
    + destruct ((n =? PERCENT) || (n =? UNDER) || (n =? e)) eqn:E.
      * rewrite !Hesc by done. by rewrite !kernel_escaped, IH.
      * rewrite Hee, kernel_escaped, (Hlit n (repaired e p)) by lia. rewrite rewrite_two, N.eqb_refl, E.
        assert ((e =? BSLASH) = false) as -> by (by apply N.eqb_neq).
        rewrite <- (Hk n _ _ IH).
        destruct (n =? BSLASH); by rewrite kernel_literal.
    + rewrite (Hlit c (n :: p)), (Hlit c (repaired e (n :: p))) by done. by apply Hk.
Qed.
Theorem like_repaired (same : N -> N -> bool) (e : N) (p s : text) :
  e <> BSLASH -> ~ is_wild e -> like same (Some e) p s = like same (Some e) (repaired e p) s.
Proof.
  intros He Hw. unfold like, like_items, rewrite_pattern.
  assert ((e =? BSLASH) = false) as -> by (by apply N.eqb_neq). by rewrite rewrite_repaired.
Qed.

(** ** Patterns without wildcards *)
Lemma literal_cons (e c : N) (s : text) :
  literal_pattern e (c :: s) =
    (if (c =? PERCENT) || (c =? UNDER) || (c =? e) then [e; c] else [c]) ++ literal_pattern e s.
Proof. done. Qed.
Lemma literal_well_formed (e : N) (s : text) : well_formed e (literal_pattern e s).
Proof.
  induction s as [|c s IH]; [done|]. rewrite literal_cons.
  destruct ((c =? PERCENT) || (c =? UNDER) || (c =? e)) eqn:E; cbn [app].
  - rewrite well_formed_escape. split; [|done]. unfold is_wild. lia.
  - rewrite well_formed_plain by lia. done.
Qed.
Lemma literal_items (e : N) (s : text) : items e (literal_pattern e s) = map Lit s.
Proof.
  induction s as [|c s IH]; [done|]. rewrite literal_cons.
  destruct ((c =? PERCENT) || (c =? UNDER) || (c =? e)) eqn:E; cbn [app map].
  - rewrite items_two, N.eqb_refl. by rewrite IH.
  - cbn [items].
    assert ((c =? e) = false) as -> by lia. assert ((c =? PERCENT) = false) as -> by lia.
    assert ((c =? UNDER) = false) as -> by lia. by rewrite IH.
Qed.
Theorem like_literal (same : N -> N -> bool) (e : N) (s t : text) :
  like same (Some e) (literal_pattern e s) t = true <-> Forall2 (fun c x => same c x = true) s t.
Proof.
  unfold like. rewrite like_items_wf by apply literal_well_formed. rewrite literal_items.
  revert t. induction s as [|c s IH]; intros t; cbn [map matches].
  - split; [by destruct t|]. intros H. by inversion H.
  - destruct t as [|x t]; [split; [done|intros H; inversion H]|].
    rewrite andb_true_iff, IH. split; [intros [??]; by constructor|]. intros H. by inversion H.
Qed.
