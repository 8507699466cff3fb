(** Proofs about the lexer and string literals. *)
From Coq Require Import NArith ZifyN ZifyBool Ascii String Lia.
From stdpp Require Import prelude list.
From Verif.Lib Require Import Text.
From Verif.Catalog Require QuoteModel.
From Verif.Sql Require Import LexModel LexSpec.
Local Open Scope N_scope.

(** ** Basic parsers *)

Lemma just_app (d s : text) : just d (d ++ s) = Some s.
Proof.
  unfold just, starts_with. rewrite take_app, drop_app. by rewrite bool_decide_true.
Qed.
Lemma just_some (d s r : text) : just d s = Some r -> s = d ++ r.
Proof.
  unfold just, starts_with. case_bool_decide as E; [|done]. intros [= <-].
  rewrite <- E at 1. by rewrite take_drop.
Qed.
Lemma just_cons (q : N) (d s : text) : just (q :: d) (q :: d ++ s) = Some s.
Proof. exact (just_app (q :: d) s). Qed.
Lemma just_refl (d : text) : just d d = Some [].
Proof. rewrite <- (app_nil_r d) at 2. apply just_app. Qed.
Lemma just_none (d s : text) : just d s = None -> forall r, s <> d ++ r.
Proof. intros H r ->. by rewrite just_app in H. Qed.
Lemma just_none_intro (d s : text) : (forall r, s <> d ++ r) -> just d s = None.
Proof. destruct (just d s) as [r|] eqn:E; [|done]. apply just_some in E. intros H. by destruct (H r). Qed.
Lemma starts_with_just (d s : text) : starts_with s d = match just d s with Some _ => true | None => false end.
Proof. unfold just. by destruct (starts_with s d). Qed.
Lemma just_one (q c : N) (s : text) : just [q] (c :: s) = if c =? q then Some s else None.
Proof.
  destruct (c =? q) eqn:E.
  - apply N.eqb_eq in E as ->. apply (just_app [q] s).
  - apply just_none_intro. intros r [= -> ->]. by rewrite N.eqb_refl in E.
Qed.
Lemma just_other (a c : N) (d s : text) : a <> c -> just (a :: d) (c :: s) = None.
Proof. intros H. apply just_none_intro. intros r [= -> _]. done. Qed.
Lemma just_nil (a : N) (d : text) : just (a :: d) [] = None.
Proof. by apply just_none_intro. Qed.

(** Whether a text starts with [d] only depends on its first characters. *)
Lemma just_shorter (d m x y : text) :
  just d (m ++ d ++ x) = None -> just d (m ++ d ++ y) = None.
Proof.
  intros H. apply just_none_intro. intros r E.
  assert (Ht : take (length d) (m ++ d ++ y) = d) by (rewrite E; apply take_app).
  apply (just_none d (m ++ d ++ x) H (drop (length d) (m ++ d ++ x))).
  assert (Ht' : take (length d) (m ++ d ++ x) = d).
  { etrans; [|exact Ht]. rewrite (app_assoc m d x), (app_assoc m d y).
    rewrite (take_app_le (m ++ d) x), (take_app_le (m ++ d) y) by (rewrite app_length; lia). done. }
  rewrite <- Ht' at 2. by rewrite take_drop.
Qed.

Lemma slice_app (a r : text) : slice (a ++ r) r = a.
Proof.
  unfold slice. rewrite app_length.
  replace (length a + length r - length r)%nat with (length a) by lia. apply take_app.
Qed.
Lemma slice_cons (c : N) (a r : text) : slice (c :: a ++ r) r = c :: a.
Proof. apply (slice_app (c :: a) r). Qed.

Lemma skip_run (p : N -> bool) (a r : text) :
  forallb p a = true -> (match r with c :: _ => p c = false | [] => True end) -> skip p (a ++ r) = r.
Proof.
  intros Ha Hr. induction a as [|c a IH]; cbn [app skip].
  - destruct r as [|c r]; [done|]. by cbn [skip]; rewrite Hr.
  - cbn [forallb] in Ha. apply andb_true_iff in Ha as [Hc Ha]. rewrite Hc. by apply IH.
Qed.
Lemma skip_split (p : N -> bool) (s : text) :
  exists a, s = a ++ skip p s /\ forallb p a = true /\
    match skip p s with c :: _ => p c = false | [] => True end.
Proof.
  induction s as [|c s IH]; cbn [skip].
  - by exists [].
  - destruct (p c) eqn:E.
    + destruct IH as (a & Hs & Ha & Hh). exists (c :: a). cbn [app forallb]. rewrite E, <- Hs.
      by split_and!.
    + exists []. by split_and!.
Qed.

(** ** Bodies *)

Lemma none_body_app (d body rest : text) :
  ends_at_first d body -> none_body d (body ++ d ++ rest) = Some rest.
Proof.
  intros H. induction body as [|c body IH].
  - cbn [app]. destruct (d ++ rest) as [|c s] eqn:E.
    + cbn [none_body]. by rewrite <- E, just_app.
    + cbn [none_body]. by rewrite <- E, just_app.
  - cbn [app none_body].
    destruct (just d (c :: body ++ d ++ rest)) as [r|] eqn:E.
    + exfalso. assert (Hj : just d ((c :: body) ++ d ++ rest) <> None) by (cbn [app]; by rewrite E).
      apply Hj, (just_shorter d (c :: body) []). rewrite app_nil_r.
      apply just_none_intro. intros r' Hr'. pose proof (H [] r' Hr') as ->.
      apply (f_equal length) in Hr'. rewrite !app_length in Hr'. cbn [length] in Hr'. lia.
    + apply IH. intros a b Hab. apply (H (c :: a) b). cbn [app]. by rewrite Hab.
Qed.
Lemma none_body_split (d s rest : text) :
  none_body d s = Some rest -> exists m, s = m ++ d ++ rest /\ none_body d (m ++ d) = Some [].
Proof.
  intros H. destruct (just d s) as [r|] eqn:E.
  - assert (r = rest) as -> by (destruct s; cbn [none_body] in H; rewrite E in H; congruence).
    exists []. apply just_some in E. split; [done|]. cbn [app].
    pose proof (just_refl d) as Hd. destruct d; cbn [none_body]; by rewrite Hd.
  - revert E H. induction s as [|c s IH]; intros E H.
    + cbn [none_body] in H. by rewrite E in H.
    + cbn [none_body] in H. rewrite E in H.
      destruct (just d s) as [r|] eqn:E'.
      * assert (r = rest) as -> by (destruct s; cbn [none_body] in H; rewrite E' in H; congruence).
        exists [c]. apply just_some in E' as E2. split; [by rewrite E2|].
        rewrite E2 in E. apply (just_shorter d [c] rest []) in E. rewrite app_nil_r in E.
        cbn [app none_body] in *. rewrite E. pose proof (just_refl d) as Hd.
        destruct d; cbn [none_body]; by rewrite Hd.
      * destruct (IH eq_refl H) as (m & Hs & Hm). exists (c :: m). split; [by rewrite Hs|].
        rewrite Hs in E. apply (just_shorter d (c :: m) rest []) in E. rewrite app_nil_r in E.
        cbn [app none_body] in *. by rewrite E.
Qed.

Lemma quote_not_bslash (q : N) : is_quote q -> (q =? BSLASH) = false.
Proof. by intros [-> | ->]. Qed.

Lemma escaped_cons (q c : N) (s : text) :
  escaped q (c :: s) = (if (c =? q) || (c =? BSLASH) then [BSLASH; c] else [c]) ++ escaped q s.
Proof. done. Qed.
Lemma back_body_escaped (q : N) (d s rest : text) :
  is_quote q -> head d = Some q ->
  back_body d (escaped q s ++ d ++ rest) = Some rest.
Proof.
  intros Hq Hd. destruct d as [|q' d]; [done|]. injection Hd as ->.
  induction s as [|c s IH].
  - cbn [escaped flat_map app back_body]. rewrite (quote_not_bslash q Hq).
    by rewrite just_cons.
  - rewrite escaped_cons. destruct ((c =? q) || (c =? BSLASH)) eqn:E; cbn [app back_body].
    + by rewrite N.eqb_refl.
    + apply orb_false_iff in E as [E1 E2]. rewrite E2.
      rewrite just_other by (intros ->; by rewrite N.eqb_refl in E1). exact IH.
Qed.
Lemma dual_body_doubled (q : N) (s rest : text) :
  is_quote q -> (~ starts_with_char q rest) ->
  dual_body q (doubled q s ++ q :: rest) = Some rest.
Proof.
  intros Hq Hr. induction s as [|c s IH].
  - cbn [doubled flat_map app dual_body]. rewrite (quote_not_bslash q Hq), N.eqb_refl.
    destruct rest as [|c' rest]; [done|]. destruct (c' =? q) eqn:E; [|done].
    apply N.eqb_eq in E as ->. destruct Hr. by exists rest.
  - change (doubled q (c :: s)) with
      ((if c =? q then [q; q] else if c =? BSLASH then [BSLASH; c] else [c]) ++ doubled q s).
    destruct (c =? q) eqn:E; [|destruct (c =? BSLASH) eqn:E2]; cbn [app dual_body].
    + by rewrite (quote_not_bslash q Hq), N.eqb_refl.
    + by rewrite N.eqb_refl.
    + by rewrite E2, E.
Qed.
Lemma dual_body_escaped (q : N) (s rest : text) :
  is_quote q -> (~ starts_with_char q rest) ->
  dual_body q (escaped q s ++ q :: rest) = Some rest.
Proof.
  intros Hq Hr. induction s as [|c s IH].
  - by apply (dual_body_doubled q [] rest).
  - rewrite escaped_cons. destruct ((c =? q) || (c =? BSLASH)) eqn:E; cbn [app dual_body].
    + by rewrite N.eqb_refl.
    + apply orb_false_iff in E as [E1 E2]. by rewrite E2, E1.
Qed.

(** ** Decoding *)

(** [m] is one literal's body up to its delimiter, and [P] says so in a way that every step of [ch]
    keeps. *)
Lemma chars_until (ch : text -> option (char * text)) (d : text) (P : text -> Prop) :
  (forall m, P m -> (m = [] /\ ch d = None) \/
     exists x m', ch (m ++ d) = Some (x, m' ++ d) /\ P m' /\ (length m' < length m)%nat) ->
  forall fuel m, P m -> (length (m ++ d) <= fuel)%nat -> exists l, chars ch fuel (m ++ d) = (l, d).
Proof.
  intros Hstep fuel. induction fuel as [|fuel IH]; intros m Hm Hf.
  - rewrite app_length in Hf. assert (m = []) as -> by (destruct m; [done|]; cbn [length] in Hf; lia).
    exists []. by cbn [chars app].
  - cbn [chars]. destruct (Hstep m Hm) as [[-> Hn]|(x & m' & Hc & Hm' & Hl)].
    + cbn [app]. rewrite Hn. by exists [].
    + rewrite Hc. rewrite app_length in Hf.
      destruct (IH m' Hm') as [l Hl']; [rewrite app_length; lia|].
      rewrite Hl'. by exists (x :: l).
Qed.
Lemma decode_text_not_malformed (ch : text -> option (char * text)) (d m : text) (p : option N) (P : text -> Prop) :
  (forall m, P m -> (m = [] /\ ch d = None) \/
     exists x m', ch (m ++ d) = Some (x, m' ++ d) /\ P m' /\ (length m' < length m)%nat) ->
  P m -> decode_text d ch p (d ++ m ++ d) <> InvalidLiteral.
Proof.
  intros Hs Hm. unfold decode_text. rewrite just_app.
  destruct (chars_until ch d P Hs (length (m ++ d)) m Hm (le_n _)) as [l ->].
  rewrite just_refl. by destruct (collect l).
Qed.

Lemma decode_text_valid (ch : text -> option (char * text)) (d b : text) (p : option N) l v :
  chars ch (length (b ++ d)) (b ++ d) = (l, d) -> collect l = Some v ->
  decode_text d ch p (d ++ b ++ d) = Valid v p.
Proof.
  intros H Hl. unfold decode_text. rewrite just_app, H, just_refl. by rewrite Hl.
Qed.
Lemma collect_one (s : text) : collect (map One s) = Some s.
Proof. induction s as [|c s IH]; cbn [map collect]; [done|]. by rewrite IH. Qed.

Lemma back_char_bslash (d s : text) (e : N) :
  e = QUOTE \/ e = DQUOTE \/ e = BSLASH -> back_char d (BSLASH :: e :: s) = Some (One e, s).
Proof.
  intros H. unfold back_char. rewrite N.eqb_refl.
  destruct (run is_octal 3 (e :: s)), (run is_hex 2 s), (run is_hex 4 s), (run is_hex 8 s).
  by destruct H as [-> |[-> | ->]].
Qed.
Lemma back_char_plain (d s : text) (c : N) :
  c <> BSLASH -> just d (c :: s) = None -> back_char d (c :: s) = Some (One c, s).
Proof.
  intros Hc Hj. unfold back_char. rewrite starts_with_just, Hj.
  by destruct (N.eqb_spec c BSLASH).
Qed.
Lemma back_char_delimiter (q : N) (d s : text) :
  is_quote q -> back_char (q :: d) (q :: d ++ s) = None.
Proof.
  intros Hq. unfold back_char. rewrite (quote_not_bslash q Hq), starts_with_just.
  by rewrite just_cons.
Qed.

Lemma chars_escaped (q : N) (d s : text) (fuel : nat) :
  is_quote q -> head d = Some q -> (length (escaped q s ++ d) <= fuel)%nat ->
  chars (back_char d) fuel (escaped q s ++ d) = (map One s, d).
Proof.
  intros Hq Hd. destruct d as [|q' d]; [done|]. injection Hd as ->.
  assert (Hstop : back_char (q :: d) (q :: d) = None).
  { rewrite <- (app_nil_r d) at 2. by apply back_char_delimiter. }
  revert fuel. induction s as [|c s IH]; intros fuel Hf.
  - cbn [escaped flat_map app map] in *. destruct fuel; cbn [chars]; [done|]. by rewrite Hstop.
  - rewrite escaped_cons, <- app_assoc, app_length in Hf. rewrite escaped_cons, <- app_assoc.
    destruct ((c =? q) || (c =? BSLASH)) eqn:E; cbn [app length] in *.
    + destruct fuel as [|fuel]; [lia|]. cbn [chars]. rewrite back_char_bslash.
      * rewrite IH by lia. done.
      * apply orb_true_iff in E as [E|E]; apply N.eqb_eq in E as ->; [|by right; right].
        destruct Hq; auto.
    + destruct fuel as [|fuel]; [lia|]. cbn [chars].
      apply orb_false_iff in E as [E1%N.eqb_neq E2%N.eqb_neq].
      rewrite back_char_plain by (done || (apply just_other; congruence)).
      rewrite IH by lia. done.
Qed.

Lemma dual_char_other (q c : N) (s : text) : c <> q -> dual_char q (c :: s) = back_char [q] (c :: s).
Proof. intros H. unfold dual_char. rewrite just_other; [done|congruence]. Qed.
Lemma dual_char_end (q : N) : is_quote q -> dual_char q [q] = None.
Proof.
  intros Hq. unfold dual_char. rewrite just_none_intro by (intros r [=]).
  apply (back_char_delimiter q [] []). done.
Qed.
Lemma chars_escaped_dual (q : N) (s : text) (fuel : nat) :
  is_quote q -> (length (escaped q s ++ [q]) <= fuel)%nat ->
  chars (dual_char q) fuel (escaped q s ++ [q]) = (map One s, [q]).
Proof.
  intros Hq. revert fuel. induction s as [|c s IH]; intros fuel Hf.
  - cbn [escaped flat_map app map] in *. destruct fuel; cbn [chars]; [done|]. by rewrite dual_char_end.
  - rewrite escaped_cons, <- app_assoc, app_length in Hf. rewrite escaped_cons, <- app_assoc.
    destruct ((c =? q) || (c =? BSLASH)) eqn:E; cbn [app length] in *.
    + destruct fuel as [|fuel]; [lia|]. cbn [chars].
      rewrite dual_char_other by (by destruct Hq as [-> | ->]).
      rewrite back_char_bslash.
      * rewrite IH by lia. done.
      * apply orb_true_iff in E as [E|E]; apply N.eqb_eq in E as ->; [|by right; right].
        destruct Hq; auto.
    + destruct fuel as [|fuel]; [lia|]. cbn [chars].
      apply orb_false_iff in E as [E1%N.eqb_neq E2%N.eqb_neq].
      rewrite dual_char_other by done.
      rewrite back_char_plain by (done || (apply just_other; congruence)).
      rewrite IH by lia. done.
Qed.
Lemma chars_doubled (q : N) (s : text) (fuel : nat) :
  is_quote q -> (length (doubled q s ++ [q]) <= fuel)%nat ->
  chars (dual_char q) fuel (doubled q s ++ [q]) = (map One s, [q]).
Proof.
  intros Hq. revert fuel. induction s as [|c s IH]; intros fuel Hf.
  - cbn [doubled flat_map app map] in *. destruct fuel; cbn [chars]; [done|]. by rewrite dual_char_end.
  - change (doubled q (c :: s)) with
      ((if c =? q then [q; q] else if c =? BSLASH then [BSLASH; c] else [c]) ++ doubled q s) in *.
    rewrite <- app_assoc, app_length in Hf. rewrite <- app_assoc.
    destruct (c =? q) eqn:E; [|destruct (c =? BSLASH) eqn:E2]; cbn [app length] in *;
      (destruct fuel as [|fuel]; [lia|]); cbn [chars map].
    + apply N.eqb_eq in E as ->. unfold dual_char at 1.
      rewrite (just_cons q [q] (doubled q s ++ [q]) : just [q; q] (q :: q :: doubled q s ++ [q]) = _).
      rewrite IH by lia. done.
    + apply N.eqb_eq in E2 as ->. rewrite dual_char_other by (by destruct Hq as [-> | ->]).
      rewrite back_char_bslash by auto. rewrite IH by lia. done.
    + apply N.eqb_neq in E, E2. rewrite dual_char_other by done.
      rewrite back_char_plain by (done || (apply just_other; congruence)).
      rewrite IH by lia. done.
Qed.

(** ** Reading whole literals *)

Lemma quote_facts (q : N) :
  is_quote q -> is_letter q = false /\ is_blank q = false /\ is_raw q = false /\ q <> 45 /\ q <> 47 /\
    q <> TICK /\ q <> DOLLAR /\ q <> 85.
Proof. by intros [-> | ->]. Qed.

Lemma skip_blanks (blanks : text) (q : N) (s : text) :
  forallb is_blank blanks = true -> is_quote q -> skip is_blank (blanks ++ q :: s) = q :: s.
Proof. intros Hb Hq. apply skip_run; [done|]. by apply quote_facts. Qed.

Lemma escape_string_prefix (body : text -> option text) (d : text) (p : option N) (blanks s : text) (q : N) :
  plain_prefix p -> forallb is_blank blanks = true -> is_quote q ->
  escape_string body d (prefix_text p blanks ++ q :: s) =
    match just d (q :: s) with
    | Some b => match body b with Some rest => Some (Quoted d p, rest) | None => None end
    | None => None
    end.
Proof.
  intros Hp Hb Hq. destruct (quote_facts q Hq) as (Hl & _). unfold escape_string.
  destruct p as [c|]; cbn [prefix_text app].
  - destruct Hp as [Hc _]. rewrite Hc, skip_blanks by done. done.
  - by rewrite Hl.
Qed.
Lemma raw_string_plain (d : text) (p : option N) (blanks s : text) (q : N) :
  plain_prefix p -> is_quote q -> raw_string d (prefix_text p blanks ++ q :: s) = None.
Proof.
  intros Hp Hq. destruct (quote_facts q Hq) as (_ & _ & Hr & _). unfold raw_string, is_raw in *.
  destruct p as [c|]; cbn [prefix_text app].
  - destruct Hp as [_ Hc]. unfold is_raw in Hc. by rewrite Hc.
  - by rewrite Hr.
Qed.
Lemma raw_string_raw (d : text) (c q : N) (blanks s : text) :
  is_raw c = true -> forallb is_blank blanks = true -> is_quote q ->
  raw_string d (c :: blanks ++ q :: s) =
    match just d (q :: s) with
    | Some b => match none_body d b with Some rest => Some (Quoted d (Some c), rest) | None => None end
    | None => None
    end.
Proof.
  intros Hc Hb Hq. unfold raw_string, is_raw in *. by rewrite Hc, skip_blanks.
Qed.

Lemma just_triple_other (q q' x : N) (s : text) : q <> q' -> just [q'; q'; q'] (q :: s) = None.
Proof. intros H. apply just_other. congruence. Qed.
(** A one-quote literal does not open a three-quote one. *)
Lemma just_triple_short (q q' : N) (s rest : text) :
  (~ starts_with_char q rest) -> (forall s', s <> q :: s') ->
  just [q'; q'; q'] (q :: s ++ q :: rest) = None.
Proof.
  intros Hr Hs. apply just_none_intro. intros r [= -> Hx].
  destruct s as [|c s]; cbn [app] in Hx; simplify_eq.
  - destruct Hr. by eexists.
  - by destruct (Hs s).
Qed.
Lemma escaped_head (q : N) (s s' : text) : is_quote q -> escaped q s <> q :: s'.
Proof.
  intros Hq H. destruct s as [|c s]; [done|]. rewrite escaped_cons in H.
  destruct ((c =? q) || (c =? BSLASH)) eqn:E; cbn [app] in H; injection H as H1 H2.
  - subst. by destruct Hq.
  - subst. rewrite N.eqb_refl in E. done.
Qed.

(** Comments start with other characters. *)
Lemma next_string (alnum : N -> bool) (o : options) (c : N) (s : text) (st : style) (lit rest : text) :
  c <> 45 -> c <> 47 -> string_token o (c :: s) = Some (st, rest) -> c :: s = lit ++ rest ->
  next alnum o (c :: s) = Some (Str lit st, rest).
Proof.
  intros H1 H2 Hs He. unfold next, line_comment, block_comment.
  change (str "--") with [45; 45]. change (str "/*") with [47; 42].
  rewrite !just_other by congruence. rewrite Hs. rewrite He, slice_app. done.
Qed.

Lemma letter_facts (c : N) : is_letter c = true -> c <> 45 /\ c <> 47.
Proof. intros H. split; intros ->; done. Qed.

Lemma prefix_head (p : option N) (blanks s : text) (q : N) :
  plain_prefix p -> is_quote q ->
  exists c s', prefix_text p blanks ++ q :: s = c :: s' /\ c <> 45 /\ c <> 47.
Proof.
  intros Hp Hq. destruct p as [c|]; cbn [prefix_text app].
  - exists c, (blanks ++ q :: s). split; [done|]. destruct Hp. by apply letter_facts.
  - exists q, s. split; [done|]. by destruct (quote_facts q Hq) as (_ & _ & _ & ? & ? & _).
Qed.

Lemma choice_app {A} (l1 l2 : list (text -> option A)) (s : text) :
  choice l1 s = None -> choice (l1 ++ l2) s = choice l2 s.
Proof.
  induction l1 as [|p l1 IH]; cbn [choice app]; [done|]. by destruct (p s).
Qed.

Lemma string_token_quoted (o : options) (p : option N) (blanks : text) (q : N) (s rest : text) :
  plain_prefix p -> forallb is_blank blanks = true -> is_quote q ->
  (~ starts_with_char q rest) -> (forall s', s <> q :: s') ->
  (if o.(dual_quote) then dual_body q else back_body [q]) (s ++ q :: rest) = Some rest ->
  string_token o (prefix_text p blanks ++ q :: s ++ q :: rest) = Some (Quoted [q] p, rest).
Proof.
  intros Hp Hb Hq Hr Hs Hbody. unfold string_token. rewrite choice_app.
  - cbn [choice]. rewrite !raw_string_plain by done. rewrite !escape_string_prefix by done.
    rewrite !just_one. destruct Hq as [-> | ->];
      [|change (DQUOTE =? QUOTE) with false; cbn iota]; by rewrite N.eqb_refl, Hbody.
  - destruct (triple_quote o); [|done]. cbn [choice]. rewrite !raw_string_plain by done.
    rewrite !escape_string_prefix by done. unfold T_QUOTE, T_DQUOTE.
    by rewrite !just_triple_short.
Qed.

Lemma strip_prefix_app (c : N) (blanks : text) (q : N) (s : text) :
  forallb is_blank blanks = true -> is_quote q ->
  strip_prefix c (c :: blanks ++ q :: s) = Some (q :: s).
Proof.
  intros Hb Hq. unfold strip_prefix. rewrite just_one, N.eqb_refl. by rewrite skip_blanks.
Qed.

Lemma decode_prefixed (o : options) (p : option N) (blanks : text) (q : N) (d s : text) :
  plain_prefix p -> forallb is_blank blanks = true -> is_quote q -> head d = Some q ->
  decode o (Quoted d p) (prefix_text p blanks ++ d ++ s) =
    decode_text d (if o.(dual_quote) && bool_decide (length d = 1%nat) then dual_char q else back_char d) p (d ++ s).
Proof.
  intros Hp Hb Hq Hd. destruct d as [|q' d]; [done|]. injection Hd as ->.
  unfold decode. cbn [head default id]. destruct p as [c|]; cbn [prefix_text app].
  - rewrite strip_prefix_app by done. destruct Hp as [_ Hp]. unfold is_raw in Hp. by rewrite Hp.
  - done.
Qed.

Theorem quoted_reads (alnum : N -> bool) (o : options) (p : option N) (blanks : text) (q : N) (s rest : text) :
  is_quote q -> plain_prefix p -> forallb is_blank blanks = true -> (~ starts_with_char q rest) ->
  reads_as alnum o (prefix_text p blanks ++ in_quotes [q] (escaped q s)) rest s p.
Proof.
  intros Hq Hp Hb Hr. exists (Quoted [q] p). unfold in_quotes. split.
  - destruct (prefix_head p blanks (escaped q s ++ q :: rest) q Hp Hq) as (c & s' & He & H1 & H2).
    assert (Hsplit : (prefix_text p blanks ++ [q] ++ escaped q s ++ [q]) ++ rest =
      prefix_text p blanks ++ q :: escaped q s ++ q :: rest).
    { rewrite <- app_assoc. cbn [app]. by rewrite <- app_assoc. }
    rewrite Hsplit, He. apply next_string; [done|done| |by rewrite Hsplit, He].
    rewrite <- He. apply string_token_quoted; [done..| |].
    + intros s''. by apply escaped_head.
    + destruct (dual_quote o); [by apply dual_body_escaped|].
      apply (back_body_escaped q [q] s rest); done.
  - rewrite (decode_prefixed o p blanks q [q] (escaped q s ++ [q])) by done.
    eapply decode_text_valid; [|apply collect_one].
    destruct (dual_quote o); cbn [andb].
    + rewrite bool_decide_true by done. by apply chars_escaped_dual.
    + by apply (chars_escaped q).
Qed.

(** With doubled quotes, a string that starts with a quote would open a three-quote literal. *)
Theorem doubled_reads (alnum : N -> bool) (o : options) (p : option N) (blanks : text) (q : N) (s rest : text) :
  o.(dual_quote) = true -> (o.(triple_quote) = true -> ~ starts_with_char q s) ->
  is_quote q -> plain_prefix p -> forallb is_blank blanks = true -> (~ starts_with_char q rest) ->
  reads_as alnum o (prefix_text p blanks ++ in_quotes [q] (doubled q s)) rest s p.
Proof.
  intros Ho Ht Hq Hp Hb Hr. exists (Quoted [q] p). unfold in_quotes. split.
  - destruct (prefix_head p blanks (doubled q s ++ q :: rest) q Hp Hq) as (c & s' & He & H1 & H2).
    assert (Hsplit : (prefix_text p blanks ++ [q] ++ doubled q s ++ [q]) ++ rest =
      prefix_text p blanks ++ q :: doubled q s ++ q :: rest).
    { rewrite <- app_assoc. cbn [app]. by rewrite <- app_assoc. }
    rewrite Hsplit, He. apply next_string; [done|done| |by rewrite Hsplit, He].
    rewrite <- He. pose proof (dual_body_doubled q s rest Hq Hr) as Hbody.
    unfold string_token. rewrite Ho, choice_app.
    + cbn [choice]. rewrite !raw_string_plain by done. rewrite !escape_string_prefix by done.
      rewrite !just_one. destruct Hq as [-> | ->];
      [|change (DQUOTE =? QUOTE) with false; cbn iota]; by rewrite N.eqb_refl, Hbody.
    + destruct (triple_quote o); [|done]. cbn [choice]. rewrite !raw_string_plain by done.
      rewrite !escape_string_prefix by done. unfold T_QUOTE, T_DQUOTE.
      assert (Hd : forall s', doubled q s <> q :: s').
      { intros s'' E. destruct s as [|c0 s0]; [done|].
        change (doubled q (c0 :: s0)) with
          ((if c0 =? q then [q; q] else if c0 =? BSLASH then [BSLASH; c0] else [c0]) ++ doubled q s0) in E.
        destruct (c0 =? q) eqn:E1; [|destruct (c0 =? BSLASH) eqn:E2]; cbn [app] in E; simplify_eq.
        - apply N.eqb_eq in E1 as ->. apply Ht; [done|]. by eexists.
        - by destruct Hq.
        - by rewrite N.eqb_refl in E1. }
      by rewrite !just_triple_short.
  - rewrite (decode_prefixed o p blanks q [q] (doubled q s ++ [q])) by done.
    eapply decode_text_valid; [|apply collect_one].
    rewrite Ho. cbn [andb]. rewrite bool_decide_true by done. by apply chars_doubled.
Qed.

Theorem triple_reads (alnum : N -> bool) (o : options) (p : option N) (blanks : text) (q : N) (s rest : text) :
  o.(triple_quote) = true -> is_quote q -> plain_prefix p -> forallb is_blank blanks = true ->
  reads_as alnum o (prefix_text p blanks ++ in_quotes [q; q; q] (escaped q s)) rest s p.
Proof.
  intros Ho Hq Hp Hb. exists (Quoted [q; q; q] p). unfold in_quotes. split.
  - set (d := [q; q; q]).
    destruct (prefix_head p blanks (q :: q :: escaped q s ++ d ++ rest) q Hp Hq) as (c & s' & He & H1 & H2).
    assert (Hsplit : (prefix_text p blanks ++ d ++ escaped q s ++ d) ++ rest =
      prefix_text p blanks ++ q :: q :: q :: escaped q s ++ d ++ rest).
    { rewrite <- app_assoc. unfold d. cbn [app]. by rewrite <- app_assoc. }
    rewrite Hsplit, He. apply next_string; [done|done| |by rewrite Hsplit, He].
    rewrite <- He. unfold string_token. rewrite Ho. cbn [app choice].
    rewrite !raw_string_plain by done. rewrite !escape_string_prefix by done.
    pose proof (back_body_escaped q d s rest Hq eq_refl) as Hbody.
    pose proof (just_app d (escaped q s ++ d ++ rest)) as Hj. unfold d in Hj at 2. cbn [app] in Hj.
    destruct Hq as [-> | ->].
    + change T_QUOTE with d. rewrite Hj, Hbody. done.
    + unfold T_QUOTE. rewrite just_other by done. change T_DQUOTE with d. rewrite Hj, Hbody. done.
  - rewrite (decode_prefixed o p blanks q [q; q; q] (escaped q s ++ [q; q; q])) by done.
    eapply decode_text_valid; [|apply collect_one].
    rewrite bool_decide_false by done. rewrite andb_false_r. by apply (chars_escaped q).
Qed.

(** ** Raw and dollar-quoted literals *)

Lemma raw_char_step (d : text) (c : N) (m : text) :
  just d (c :: m ++ d) = None -> raw_char d (c :: m ++ d) = Some (One c, m ++ d).
Proof. intros H. unfold raw_char. by rewrite starts_with_just, H. Qed.
Lemma chars_raw (d s : text) (fuel : nat) :
  d <> [] -> ends_at_first d s -> (length (s ++ d) <= fuel)%nat ->
  chars (raw_char d) fuel (s ++ d) = (map One s, d).
Proof.
  intros Hd. revert fuel. induction s as [|c s IH]; intros fuel He Hf; cbn [app map].
  - destruct fuel; [done|]. cbn [chars]. destruct d as [|c d]; [done|]. unfold raw_char.
    by rewrite starts_with_just, just_refl.
  - cbn [app length] in Hf. destruct fuel as [|fuel]; [lia|]. cbn [chars].
    rewrite raw_char_step.
    + rewrite IH; [done| |lia]. intros a b Hab. apply (He (c :: a) b). cbn [app]. by rewrite Hab.
    + apply just_none_intro. intros r Hr. pose proof (He [] r Hr) as ->.
      apply (f_equal length) in Hr. rewrite !app_length in Hr. cbn [length] in Hr.
      rewrite app_length in Hr. lia.
Qed.

Lemma ends_at_first_one (q : N) (body : text) : q ∉ body -> ends_at_first [q] body.
Proof.
  intros Hq a b H. destruct b as [|c b _] using rev_ind; [done|]. exfalso.
  rewrite !app_assoc in H. apply app_inj_tail in H as [H _]. apply Hq. rewrite H.
  apply elem_of_app. left. apply elem_of_app. right. apply elem_of_list_singleton. done.
Qed.

Theorem raw_reads (alnum : N -> bool) (o : options) (c : N) (blanks : text) (q : N) (body rest : text) :
  is_quote q -> is_raw c = true -> forallb is_blank blanks = true -> q ∉ body ->
  (o.(triple_quote) = true -> ~ starts_with_char q rest) ->
  reads_as alnum o (c :: blanks ++ in_quotes [q] body) rest body (Some c).
Proof.
  intros Hq Hc Hb Hbody Hr. exists (Quoted [q] (Some c)). unfold in_quotes. split.
  - assert (Hsplit : (c :: blanks ++ [q] ++ body ++ [q]) ++ rest = c :: blanks ++ q :: body ++ [q] ++ rest).
    { cbn [app]. f_equal. rewrite <- !app_assoc. cbn [app]. by rewrite <- app_assoc. }
    rewrite Hsplit. apply next_string; [by intros ->|by intros ->| |by rewrite Hsplit].
    pose proof (none_body_app [q] body rest (ends_at_first_one q body Hbody)) as Hn.
    unfold string_token. rewrite choice_app.
    + cbn [choice]. rewrite !raw_string_raw by done. rewrite !just_one.
      destruct Hq as [-> | ->];
        [|change (DQUOTE =? QUOTE) with false; cbn iota]; by rewrite N.eqb_refl, Hn.
    + destruct (triple_quote o); [|done]. cbn [choice]. rewrite !raw_string_raw by done.
      assert (Hl : is_letter c = true).
      { unfold is_raw in Hc. apply orb_true_iff in Hc as [Hc|Hc]; apply N.eqb_eq in Hc as ->; done. }
      unfold escape_string. rewrite Hl, !skip_blanks by done. unfold T_QUOTE, T_DQUOTE.
      rewrite !(just_triple_short q _ body rest); [done| | |..]; auto.
      all: intros s' ->; apply Hbody; constructor.
  - unfold decode. cbn [app]. rewrite strip_prefix_app by done. unfold is_raw in Hc. rewrite Hc.
    apply (decode_text_valid _ [q] body (Some c) (map One body)); [|apply collect_one].
    apply chars_raw; [done| |done]. by apply ends_at_first_one.
Qed.

Lemma dollar_string_eval (t body rest : text) :
  DOLLAR ∉ t -> ends_at_first (in_quotes [DOLLAR] t) body ->
  dollar_string (in_quotes (in_quotes [DOLLAR] t) body ++ rest) = Some (Dollar (in_quotes [DOLLAR] t), rest).
Proof.
  intros Ht He. set (d := in_quotes [DOLLAR] t) in *.
  assert (Hs : in_quotes d body ++ rest = DOLLAR :: t ++ DOLLAR :: body ++ d ++ rest).
  { unfold in_quotes at 1. unfold d at 1. unfold in_quotes. rewrite <- !app_assoc. done. }
  rewrite Hs. unfold dollar_string. rewrite N.eqb_refl.
  rewrite skip_run; cycle 1.
  { apply forallb_forall. intros x Hx. apply negb_true_iff, N.eqb_neq. intros ->. apply Ht.
    by apply elem_of_list_In. }
  { done. }
  replace (DOLLAR :: t ++ DOLLAR :: body ++ d ++ rest) with (d ++ body ++ d ++ rest).
  2: { rewrite <- Hs. unfold in_quotes. by rewrite <- !app_assoc. }
  rewrite slice_app. by rewrite none_body_app.
Qed.

Theorem dollar_reads (alnum : N -> bool) (o : options) (t body rest : text) :
  DOLLAR ∉ t -> ends_at_first (in_quotes [DOLLAR] t) body ->
  reads_as alnum o (in_quotes (in_quotes [DOLLAR] t) body) rest body None.
Proof.
  intros Ht He. exists (Dollar (in_quotes [DOLLAR] t)). split.
  - assert (Hs : exists s', in_quotes (in_quotes [DOLLAR] t) body ++ rest = DOLLAR :: s') by (by eexists).
    destruct Hs as [s' Hs]. rewrite Hs. apply next_string; [done|done| |by rewrite Hs].
    assert (He2 : string_token o (DOLLAR :: s') = dollar_string (DOLLAR :: s')).
    { unfold string_token. rewrite choice_app.
      - cbn [choice]. unfold raw_string, escape_string, unicode_string, backtick_string.
        change (str "U&") with [85; 38]. cbn [is_letter DOLLAR N.eqb orb andb N.leb].
        change (is_letter 36) with false. cbn iota. rewrite !just_other by done.
        by destruct (dollar_string (DOLLAR :: s')).
      - destruct (triple_quote o); [|done]. cbn [choice]. unfold raw_string, escape_string, T_QUOTE, T_DQUOTE.
        change (is_letter DOLLAR) with false. cbn iota. by rewrite !just_other. }
    rewrite He2, <- Hs. by apply dollar_string_eval.
  - unfold decode. apply (decode_text_valid _ _ body None (map One body)); [|apply collect_one].
    apply chars_raw; [|done..]. unfold in_quotes. by destruct t.
Qed.

(** ** Unicode escapes *)

Lemma run_all (p : N -> bool) (a r : text) : forallb p a = true -> run p (length a) (a ++ r) = (a, r).
Proof.
  induction a as [|c a IH]; cbn [length app run forallb]; [by destruct r|].
  intros [Hc Ha]%andb_true_iff. by rewrite Hc, IH.
Qed.
Lemma run_stop (p : N -> bool) (n : nat) (c : N) (s : text) : p c = false -> run p n (c :: s) = ([], c :: s).
Proof. intros H. destruct n; cbn [run]; [done|]. by rewrite H. Qed.
Lemma run_S (p : N -> bool) (n : nat) (c : N) (s : text) :
  run p (S n) (c :: s) = if p c then let '(a, r) := run p n s in (c :: a, r) else ([], c :: s).
Proof. done. Qed.
Lemma hex_char_facts (n : N) : n < 16 ->
  is_hex (hex_char n) = true /\ hex_digit (hex_char n) = n /\
  hex_char n <> BSLASH /\ hex_char n <> QUOTE /\ hex_char n <> DQUOTE.
Proof.
  intros H. unfold is_hex, hex_digit, hex_char, is_digit, BSLASH, QUOTE, DQUOTE.
  destruct (N.ltb_spec n 10); repeat case_match; split_and!; lia.
Qed.
Lemma hex_text_length (k : nat) (n : N) : length (hex_text k n) = k.
Proof.
  revert n. induction k as [|k IH]; intros n; cbn [hex_text]; [done|].
  rewrite app_length, IH. cbn [length]. lia.
Qed.
Lemma hex_text_hex (k : nat) (n : N) : forallb is_hex (hex_text k n) = true.
Proof.
  revert n. induction k as [|k IH]; intros n; cbn [hex_text]; [done|].
  rewrite forallb_app, IH. cbn [forallb andb]. rewrite andb_true_r.
  apply hex_char_facts. apply N.mod_lt. done.
Qed.
Lemma hex_text_value (k : nat) (n : N) :
  n < 16 ^ N.of_nat k -> fold_left (fun a c => a * 16 + hex_digit c) (hex_text k n) 0 = n.
Proof.
  revert n. induction k as [|k IH]; intros n Hn; cbn [hex_text fold_left].
  - cbn in Hn. lia.
  - rewrite fold_left_app. cbn [fold_left].
    rewrite IH.
    + destruct (hex_char_facts (n mod 16)) as (_ & Hd & _); [by apply N.mod_lt|]. rewrite Hd.
      pose proof (N.div_mod n 16). lia.
    + apply N.div_lt_upper_bound; [done|].
      rewrite Nat2N.inj_succ, N.pow_succ_r' in Hn. lia.
Qed.
Lemma from_str_hex (n : N) : is_scalar n = true -> from_str 16 (hex_text 6 n) = One n.
Proof.
  intros H. unfold from_str. rewrite hex_text_value.
  - by rewrite H.
  - unfold is_scalar in H. change (16 ^ N.of_nat 6) with 16777216. lia.
Qed.
Lemma unicode_char_escape (q n : N) (s : text) :
  is_scalar n = true ->
  unicode_char q BSLASH (BSLASH :: 43 :: hex_text 6 n ++ s) = Some (One n, s).
Proof.
  intros H. unfold unicode_char. rewrite N.eqb_refl.
  rewrite run_stop by done. cbn [length Nat.eqb].
  pose proof (run_all is_hex (hex_text 6 n) s (hex_text_hex 6 n)) as Hr.
  rewrite hex_text_length in Hr. rewrite Hr. rewrite hex_text_length, Nat.eqb_refl, N.eqb_refl.
  cbn [andb]. by rewrite from_str_hex.
Qed.
Lemma chars_unicode (q : N) (s : text) (fuel : nat) :
  is_quote q -> forallb is_scalar s = true -> (length (all_escaped s ++ [q]) <= fuel)%nat ->
  chars (unicode_char q BSLASH) fuel (all_escaped s ++ [q]) = (map One s, [q]).
Proof.
  intros Hq. revert fuel. induction s as [|c s IH]; intros fuel Hs Hf.
  - cbn [all_escaped flat_map app map] in *. destruct fuel; [done|]. cbn [chars].
    unfold unicode_char. by rewrite (quote_not_bslash q Hq), N.eqb_refl.
  - cbn [forallb] in Hs. apply andb_true_iff in Hs as [Hc Hs].
    change (all_escaped (c :: s)) with (BSLASH :: 43 :: hex_text 6 c ++ all_escaped s) in *.
    cbn [app length] in *. destruct fuel as [|fuel]; [lia|]. cbn [chars map].
    rewrite <- app_assoc in *. rewrite unicode_char_escape by done.
    rewrite IH; [done..|]. rewrite app_length in Hf. lia.
Qed.
Lemma all_escaped_no_quote (q : N) (s : text) : is_quote q -> q ∉ all_escaped s.
Proof.
  intros Hq. induction s as [|c s IH]; cbn [all_escaped flat_map]; [apply not_elem_of_nil|].
  change (flat_map (fun c => BSLASH :: 43 :: hex_text 6 c) s) with (all_escaped s).
  cbn [app]. rewrite !not_elem_of_cons, not_elem_of_app. split_and!; [..|done].
  - by destruct Hq as [-> | ->].
  - by destruct Hq as [-> | ->].
  - intros Hin. apply elem_of_list_In in Hin.
    pose proof (proj1 (forallb_forall is_hex (hex_text 6 c)) (hex_text_hex 6 c) q Hin) as Hx.
    by destruct Hq as [-> | ->].
Qed.

Theorem unicode_reads (alnum : N -> bool) (o : options) (q : N) (s rest : text) :
  is_quote q -> forallb is_scalar s = true ->
  reads_as alnum o (str "U&" ++ in_quotes [q] (all_escaped s)) rest s None.
Proof.
  intros Hq Hs. exists (Unicode q None). unfold in_quotes. change (str "U&") with [85; 38]. split.
  - assert (Hsplit : ([85; 38] ++ [q] ++ all_escaped s ++ [q]) ++ rest =
      85 :: 38 :: q :: all_escaped s ++ [q] ++ rest).
    { cbn [app]. by rewrite <- app_assoc. }
    rewrite Hsplit. apply next_string; [done|done| |by rewrite Hsplit].
    pose proof (none_body_app [q] (all_escaped s) rest
      (ends_at_first_one q _ (all_escaped_no_quote q s Hq))) as Hn.
    assert (Hraw : forall d x, raw_string d (85 :: x) = None) by done.
    assert (Hesc : forall body a d x, a <> 38 -> escape_string body (a :: d) (85 :: 38 :: x) = None).
    { intros body a d x Ha. unfold escape_string. change (is_letter 85) with true. cbn iota.
      cbn [skip]. change (is_blank 38) with false. cbn iota. by rewrite just_other. }
    unfold string_token. rewrite choice_app.
    + cbn [choice]. rewrite !Hraw, !Hesc by done. unfold unicode_string. change (str "U&") with [85; 38].
      rewrite !(just_cons 85 [38] (q :: all_escaped s ++ [q] ++ rest) :
        just [85; 38] (85 :: 38 :: q :: all_escaped s ++ [q] ++ rest) = _).
      rewrite !just_one. destruct Hq as [-> | ->];
        [|change (DQUOTE =? QUOTE) with false; cbn iota]; by rewrite N.eqb_refl, Hn.
    + destruct (triple_quote o); [|done]. cbn [choice]. unfold T_QUOTE, T_DQUOTE.
      by rewrite !Hraw, !Hesc.
  - unfold decode. change (str "U&") with [85; 38].
    rewrite (just_app [85; 38] ([q] ++ all_escaped s ++ [q])). cbn [default].
    apply (decode_text_valid _ [q] (all_escaped s) None (map One s)); [|apply collect_one].
    by apply chars_unicode.
Qed.

(** ** Every string token can be decoded *)

(** The text between two delimiters, as the lexer sees it. *)
Lemma back_body_split (d s rest : text) :
  d <> [] ->
  back_body d s = Some rest -> exists m, s = m ++ d ++ rest /\ back_body d (m ++ d) = Some [].
Proof.
  intros Hd.
  remember (length s) as n eqn:Hn. revert s Hn.
  induction (lt_wf n) as [n _ IH]. intros s -> H.
  destruct s as [|c s]; [done|]. cbn [back_body] in H.
  destruct (c =? BSLASH) eqn:Ec.
  - destruct s as [|e s]; [done|].
    destruct (IH (length s)) with (s := s) as (m & Hs & Hm); [cbn [length]; lia|done|done|].
    exists (c :: e :: m). split; [by rewrite Hs|]. cbn [app back_body]. by rewrite Ec.
  - destruct (just d (c :: s)) as [r|] eqn:Ej.
    + injection H as ->. apply just_some in Ej. exists []. split; [done|]. cbn [app].
      destruct d as [|c' d]; [done|].
      injection Ej as -> ->. cbn [back_body]. by rewrite Ec, just_refl.
    + destruct (IH (length s)) with (s := s) as (m & Hs & Hm); [cbn [length]; lia|done|done|].
      exists (c :: m). split; [by rewrite Hs|]. cbn [app back_body]. rewrite Ec.
      rewrite Hs in Ej. apply (just_shorter d (c :: m) rest []) in Ej. rewrite app_nil_r in Ej.
      cbn [app] in Ej. by rewrite Ej.
Qed.

Lemma dual_body_split (q : N) (s rest : text) :
  dual_body q s = Some rest -> exists m, s = m ++ [q] ++ rest /\ dual_body q (m ++ [q]) = Some [].
Proof.
  remember (length s) as n eqn:Hn. revert s Hn.
  induction (lt_wf n) as [n _ IH]. intros s -> H.
  destruct s as [|c s]; [done|]. cbn [dual_body] in H.
  destruct (c =? BSLASH) eqn:Ec; [|destruct (c =? q) eqn:Eq].
  - destruct s as [|e s]; [done|].
    destruct (IH (length s)) with (s := s) as (m & Hs & Hm); [cbn [length]; lia|done|done|].
    exists (c :: e :: m). split; [by rewrite Hs|]. cbn [app dual_body]. by rewrite Ec.
  - apply N.eqb_eq in Eq as ->. destruct s as [|c' s].
    + injection H as <-. exists []. cbn [app dual_body]. by rewrite Ec, N.eqb_refl.
    + destruct (c' =? q) eqn:Eq'.
      * destruct (IH (length s)) with (s := s) as (m & Hs & Hm); [cbn [length]; lia|done|done|].
        exists (q :: c' :: m). split; [by rewrite Hs|]. cbn [app dual_body]. by rewrite Ec, N.eqb_refl, Eq'.
      * injection H as <-. exists []. cbn [app dual_body]. by rewrite Ec, N.eqb_refl.
  - destruct (IH (length s)) with (s := s) as (m & Hs & Hm); [cbn [length]; lia|done|done|].
    exists (c :: m). split; [by rewrite Hs|]. cbn [app dual_body]. by rewrite Ec, Eq.
Qed.
Lemma tick_body_split (s rest : text) :
  tick_body s = Some rest -> exists m, s = m ++ [TICK] ++ rest /\ tick_body (m ++ [TICK]) = Some [].
Proof.
  remember (length s) as n eqn:Hn. revert s Hn.
  induction (lt_wf n) as [n _ IH]. intros s -> H.
  destruct s as [|c s]; [done|]. cbn [tick_body] in H.
  destruct (c =? TICK) eqn:Eq.
  - apply N.eqb_eq in Eq as ->. destruct s as [|c' s].
    + injection H as <-. by exists [].
    + destruct (c' =? TICK) eqn:Eq'.
      * destruct (IH (length s)) with (s := s) as (m & Hs & Hm); [cbn [length]; lia|done|done|].
        exists (TICK :: c' :: m). split; [by rewrite Hs|]. cbn [app tick_body]. by rewrite N.eqb_refl, Eq'.
      * injection H as <-. by exists [].
  - destruct (IH (length s)) with (s := s) as (m & Hs & Hm); [cbn [length]; lia|done|done|].
    exists (c :: m). split; [by rewrite Hs|]. cbn [app tick_body]. by rewrite Eq.
Qed.

Section Aligned.
Context (d : text) (q : N) (P : text -> Prop).
Context (Hd : head d = Some q) (Hq : is_quote q).
Context (Hplain : forall c m, P (c :: m) -> c <> BSLASH -> just d (c :: m ++ d) = None -> P m).
Context (Hesc : forall m, P (BSLASH :: m) -> exists e m', m = e :: m' /\ P m').

Lemma run_aligned (p : N -> bool) (n : nat) (m : text) :
  (forall c, p c = true -> c <> BSLASH /\ c <> q) -> P m ->
  exists a m', run p n (m ++ d) = (a, m' ++ d) /\ P m' /\ (length m' <= length m)%nat.
Proof.
  intros Hp. revert m. induction n as [|n IH]; intros m Hm.
  - exists [], m. cbn [run]. by split_and!.
  - destruct m as [|c m].
    + exists [], []. split_and!; [|done..]. cbn [app]. destruct d as [|q' d']; [done|]. injection Hd as ->.
      apply run_stop. destruct (p q) eqn:E; [|done]. by apply Hp in E as [_ E].
    + cbn [app run]. destruct (p c) eqn:E.
      * apply Hp in E as [E1 E2].
        assert (Hm' : P m).
        { apply (Hplain c m); [done..|]. destruct d as [|q' d']; [done|]. injection Hd as ->.
          by apply just_other. }
        destruct (IH m Hm') as (a & m' & Hr & Hp' & Hl). rewrite Hr. exists (c :: a), m'.
        split_and!; [done..|]. cbn [length]. lia.
      * exists [], (c :: m). split_and!; done.
Qed.
Lemma hex_plain (c : N) : is_hex c = true -> c <> BSLASH /\ c <> q.
Proof. intros H. destruct Hq as [-> | ->]; split; intros ->; done. Qed.
Lemma octal_plain (c : N) : is_octal c = true -> c <> BSLASH /\ c <> q.
Proof. intros H. destruct Hq as [-> | ->]; split; intros ->; done. Qed.

Lemma back_char_aligned (c : N) (m : text) :
  P (c :: m) -> c = BSLASH \/ just d (c :: m ++ d) = None ->
  exists x m', back_char d (c :: m ++ d) = Some (x, m' ++ d) /\ P m' /\ (length m' < length (c :: m))%nat.
Proof.
  intros Hm Hc. unfold back_char. destruct (N.eqb_spec c BSLASH) as [-> |Hne].
  - destruct (Hesc m Hm) as (e & m2 & -> & Hm2). cbn [app].
    destruct (run_aligned is_hex 2 m2 hex_plain Hm2) as (a2 & n2 & R2 & P2 & L2).
    destruct (run_aligned is_hex 4 m2 hex_plain Hm2) as (a4 & n4 & R4 & P4 & L4).
    destruct (run_aligned is_hex 8 m2 hex_plain Hm2) as (a8 & n8 & R8 & P8 & L8).
    destruct (run_aligned is_octal 2 m2 octal_plain Hm2) as (ao & no & Ro & Po & Lo).
    rewrite R2, R4, R8, run_S. destruct (is_octal e) eqn:Eo.
    + rewrite Ro. cbn [length].
      repeat (match goal with |- context [if ?b then _ else _] => destruct b end);
        eexists _, _; (split; [reflexivity|]); (split; [eassumption|]); lia.
    + cbn [length].
      repeat (match goal with |- context [if ?b then _ else _] => destruct b end);
        eexists _, _; (split; [reflexivity|]); (split; [eassumption|]); lia.
  - destruct Hc as [?|Hj]; [done|]. rewrite starts_with_just, Hj.
    exists (One c), m. split_and!; [done| |cbn [length]; lia]. by apply (Hplain c m).
Qed.
End Aligned.

Lemma back_total (q : N) (d m : text) (p : option N) :
  head d = Some q -> is_quote q -> back_body d (m ++ d) = Some [] ->
  decode_text d (back_char d) p (d ++ m ++ d) <> InvalidLiteral.
Proof.
  intros Hd Hq Hm. set (P := fun m => back_body d (m ++ d) = Some []).
  assert (Hd0 : d <> []) by (by intros ->).
  assert (Hnone : forall c m, P (c :: m) -> c <> BSLASH -> just d (c :: m ++ d) = None /\ P m).
  { intros c m0 H Hc. unfold P in H. cbn [app back_body] in H.
    destruct (N.eqb_spec c BSLASH); [done|].
    destruct (just d (c :: m0 ++ d)) as [r|] eqn:E; [|done]. injection H as ->.
    apply just_some in E. apply (f_equal length) in E. cbn [length] in E.
    rewrite !app_length in E. cbn [length] in E. lia. }
  apply (decode_text_not_malformed _ d m p P); [|done]. clear m Hm. intros m Hm.
  destruct m as [|c m].
  - left. split; [done|]. destruct d as [|q' d']; [done|]. injection Hd as ->.
    rewrite <- (app_nil_r d') at 2. by apply back_char_delimiter.
  - right. apply (back_char_aligned d q P); [done|done| | |done|].
    + intros c' m' H1 H2 _. by apply (Hnone c' m').
    + intros m' H. unfold P in H. cbn [app back_body] in H. rewrite N.eqb_refl in H.
      destruct m' as [|e m']; [|by eexists _, _]. exfalso. cbn [app] in H.
      destruct d as [|q' d']; [done|]. apply back_body_split in H as (x & Hx & _); [|done].
      apply (f_equal length) in Hx. rewrite !app_length in Hx. cbn [length] in Hx. lia.
    + destruct (N.eq_dec c BSLASH); [by left|]. right. by apply (Hnone c m).
Qed.

Lemma dual_total (q : N) (m : text) (p : option N) :
  is_quote q -> dual_body q (m ++ [q]) = Some [] ->
  decode_text [q] (dual_char q) p ([q] ++ m ++ [q]) <> InvalidLiteral.
Proof.
  intros Hq Hm. set (P := fun m => dual_body q (m ++ [q]) = Some []).
  assert (Hqb : q <> BSLASH) by (by destruct Hq as [-> | ->]).
  apply (decode_text_not_malformed _ [q] m p P); [|done]. clear m Hm. intros m Hm.
  destruct m as [|c m].
  - left. split; [done|]. by apply dual_char_end.
  - right. destruct (N.eq_dec c q) as [-> |Hc].
    + unfold P in Hm. cbn [app dual_body] in Hm. rewrite (quote_not_bslash q Hq), N.eqb_refl in Hm.
      destruct m as [|c' m]; cbn [app] in Hm.
      * by rewrite N.eqb_refl in Hm.
      * destruct (N.eqb_spec c' q) as [-> |]; [|by destruct m].
        exists (One q), m. cbn [app]. unfold dual_char.
        rewrite (just_cons q [q] (m ++ [q]) : just [q; q] (q :: q :: m ++ [q]) = _).
        split_and!; [done..|]. cbn [length]. lia.
    + cbn [app]. rewrite dual_char_other by done.
      apply (back_char_aligned [q] q P); [done|done| | |done|].
      * intros c' m' H1 H2 H3. unfold P in *. cbn [app dual_body] in H1.
        rewrite just_one in H3. destruct (N.eqb_spec c' BSLASH); [done|]. by destruct (c' =? q).
      * intros m' H. unfold P in *. cbn [app dual_body] in H. rewrite N.eqb_refl in H.
        destruct m' as [|e m']; [done|]. by exists e, m'.
      * right. rewrite just_one. by destruct (N.eqb_spec c q).
Qed.

Lemma raw_total (d m : text) (p : option N) :
  d <> [] -> none_body d (m ++ d) = Some [] ->
  decode_text d (raw_char d) p (d ++ m ++ d) <> InvalidLiteral.
Proof.
  intros Hd Hm. apply (decode_text_not_malformed _ d m p (fun m => none_body d (m ++ d) = Some [])); [|done].
  clear m Hm. intros m Hm. destruct m as [|c m].
  - left. split; [done|]. destruct d as [|q d]; [done|]. unfold raw_char.
    by rewrite starts_with_just, just_refl.
  - right. cbn [app none_body] in Hm. destruct (just d (c :: m ++ d)) as [r|] eqn:E.
    + injection Hm as ->. apply just_some in E. apply (f_equal length) in E. cbn [length] in E.
      rewrite !app_length in E. cbn [length] in E. lia.
    + exists (One c), m. cbn [app]. rewrite raw_char_step by done. split_and!; [done..|]. cbn [length]. lia.
Qed.
Lemma tick_total (m : text) (p : option N) :
  tick_body (m ++ [TICK]) = Some [] -> decode_text [TICK] tick_char p ([TICK] ++ m ++ [TICK]) <> InvalidLiteral.
Proof.
  intros Hm. apply (decode_text_not_malformed _ [TICK] m p (fun m => tick_body (m ++ [TICK]) = Some [])); [|done].
  clear m Hm. intros m Hm. destruct m as [|c m]; [by left|]. right.
  cbn [app tick_body] in Hm. cbn [app]. unfold tick_char. destruct (c =? TICK) eqn:E.
  - destruct m as [|c' m]; [done|]. cbn [app] in *. destruct (c' =? TICK) eqn:E'; [|by destruct m].
    exists (One TICK), m. split_and!; [done..|]. cbn [length]. lia.
  - exists (One c), m. split_and!; [done..|]. cbn [length]. lia.
Qed.

(** What a successful alternative consumed, and that it decodes. *)
Definition well_read (o : options) (s : text) (st : style) (rest : text) : Prop :=
  exists raw, s = raw ++ rest /\ raw <> [] /\
    ((forall q e, st <> Unicode q e) -> decode o st raw <> InvalidLiteral).

Lemma raw_string_read (o : options) (d : text) (q : N) (s : text) st rest :
  head d = Some q -> is_quote q -> raw_string d s = Some (st, rest) -> well_read o s st rest.
Proof.
  intros Hd Hq H. assert (Hd0 : d <> []) by (by intros ->).
  unfold raw_string in H. destruct s as [|c s]; [done|].
  destruct ((c =? 114) || (c =? 82)) eqn:Ec; [|done].
  destruct (skip_split is_blank s) as (bl & Hs & Hbl & _).
  destruct (just d (skip is_blank s)) as [b|] eqn:Ej; [|done]. apply just_some in Ej.
  destruct (none_body d b) as [r|] eqn:En; [|done]. injection H as <- <-.
  apply none_body_split in En as (m & -> & Hm). rewrite Ej in Hs.
  exists (c :: bl ++ d ++ m ++ d). split_and!; [|done|].
  - rewrite Hs. cbn [app]. by rewrite <- !app_assoc.
  - intros _. unfold decode. destruct d as [|q' d']; [done|]. injection Hd as ->. cbn [app].
    rewrite strip_prefix_app by done. rewrite Ec. by apply (raw_total (q :: d') m).
Qed.

Lemma escape_string_read (o : options) (body : text -> option text) (d : text) (q : N) (s : text) st rest :
  head d = Some q -> is_quote q ->
  (body = back_body d /\ (o.(dual_quote) = false \/ length d <> 1%nat) \/
   body = dual_body q /\ o.(dual_quote) = true /\ d = [q]) ->
  raw_string d s = None -> escape_string body d s = Some (st, rest) -> well_read o s st rest.
Proof.
  intros Hd Hq Hbody Hraw H. assert (Hd0 : d <> []) by (by intros ->).
  (* the body and its decoder *)
  assert (Hread : forall b r, body b = Some r -> exists m, b = m ++ d ++ r /\ forall p,
    decode_text d (if o.(dual_quote) && bool_decide (length d = 1%nat) then dual_char q else back_char d) p
      (d ++ m ++ d) <> InvalidLiteral).
  { intros b r Hb. destruct Hbody as [[-> Ho]|[-> [Ho ->]]].
    - apply back_body_split in Hb as (m & -> & Hm); [|done]. exists m. split; [done|]. intros p.
      replace (dual_quote o && bool_decide (length d = 1%nat)) with false.
      + by apply (back_total q).
      + destruct Ho as [-> |Ho]; [done|]. rewrite bool_decide_false by done. by rewrite andb_false_r.
    - apply dual_body_split in Hb as (m & -> & Hm). exists m. split; [done|]. intros p.
      rewrite Ho, bool_decide_true by done. by apply dual_total. }
  assert (Hhead : default 0 (head d) = q) by (by rewrite Hd).
  unfold escape_string in H. destruct s as [|c s].
  { destruct d; [done|]. by rewrite just_nil in H. }
  destruct (is_letter c) eqn:Ec.
  - destruct (skip_split is_blank s) as (bl & Hs & Hbl & _).
    destruct (just d (skip is_blank s)) as [b|] eqn:Ej; [|done].
    pose proof Ej as Ej2. apply just_some in Ej.
    destruct (body b) as [r|] eqn:En; [|done]. injection H as <- <-.
    destruct (Hread b r En) as (m & -> & Hm). rewrite Ej in Hs.
    exists (c :: bl ++ d ++ m ++ d). split_and!; [|done|].
    + rewrite Hs. cbn [app]. by rewrite <- !app_assoc.
    + intros _. unfold raw_string in Hraw. rewrite Ej2 in Hraw.
      destruct ((c =? 114) || (c =? 82)) eqn:Er.
      * exfalso. destruct (none_body d (m ++ d ++ r)) as [?|] eqn:Enb; [done|].
        clear - Enb Hd0. induction m as [|c m IH].
        -- cbn [app] in Enb. destruct d as [|q d]; [done|]. cbn [app none_body] in Enb.
           by rewrite just_cons in Enb.
        -- cbn [app none_body] in Enb. destruct (just d (c :: m ++ d ++ r)); [done|]. by apply IH.
      * unfold decode. rewrite Hhead.
        assert (Hst : strip_prefix c (c :: bl ++ d ++ m ++ d) = Some (d ++ m ++ d)).
        { destruct d as [|q' d']; [done|]. injection Hd as ->. cbn [app]. by apply strip_prefix_app. }
        rewrite Hst, Er. apply Hm.
  - destruct (just d (c :: s)) as [b|] eqn:Ej; [|done]. apply just_some in Ej.
    destruct (body b) as [r|] eqn:En; [|done]. injection H as <- <-.
    destruct (Hread b r En) as (m & -> & Hm).
    exists (d ++ m ++ d). split_and!.
    + rewrite Ej. by rewrite <- !app_assoc.
    + by destruct d.
    + intros _. unfold decode. rewrite Hhead. apply Hm.
Qed.

Lemma unicode_string_read (o : options) (q : N) (s : text) st rest :
  unicode_string q s = Some (st, rest) -> well_read o s st rest.
Proof.
  intros H. unfold unicode_string in H. change (str "U&") with [85; 38] in H.
  destruct (just [85; 38] s) as [s1|] eqn:E1; [|done]. apply just_some in E1.
  destruct (just [q] s1) as [b|] eqn:E2; [|done]. apply just_some in E2.
  destruct (none_body [q] b) as [r|] eqn:E3; [|done]. injection H as <- <-.
  apply none_body_split in E3 as (m & -> & _).
  exists ([85; 38] ++ [q] ++ m ++ [q]). split_and!; [|done|].
  - rewrite E1, E2. by rewrite <- !app_assoc.
  - intros H. by destruct (H q None).
Qed.
Lemma backtick_string_read (o : options) (s : text) st rest :
  backtick_string s = Some (st, rest) -> well_read o s st rest.
Proof.
  intros H. unfold backtick_string in H. destruct s as [|c s]; [done|].
  destruct (c =? TICK) eqn:E; [|done]. apply N.eqb_eq in E as ->.
  destruct (tick_body s) as [r|] eqn:Et; [|done]. injection H as <- <-.
  apply tick_body_split in Et as (m & -> & Hm).
  exists ([TICK] ++ m ++ [TICK]). split_and!; [|done|].
  - cbn [app]. by rewrite <- app_assoc.
  - intros _. by apply tick_total.
Qed.
Lemma dollar_string_read (o : options) (s : text) st rest :
  dollar_string s = Some (st, rest) -> well_read o s st rest.
Proof.
  intros H. unfold dollar_string in H. destruct s as [|c s]; [done|].
  destruct (c =? DOLLAR) eqn:E; [|done].
  destruct (skip_split (fun c => negb (c =? DOLLAR)) s) as (t & Hs & Ht & Hh).
  destruct (skip (fun c => negb (c =? DOLLAR)) s) as [|c' b] eqn:Esk; [done|].
  assert (Hcs : c :: s = (c :: t ++ [c']) ++ b).
  { rewrite Hs. cbn [app]. by rewrite <- app_assoc. }
  rewrite Hcs, slice_app in H. set (tag := c :: t ++ [c']) in *.
  destruct (none_body tag b) as [r|] eqn:En; [|done]. injection H as <- <-.
  apply none_body_split in En as (m & -> & Hm).
  exists (tag ++ m ++ tag). split_and!; [|done|].
  - rewrite Hcs. by rewrite <- !app_assoc.
  - intros _. by apply raw_total.
Qed.

Lemma string_token_read (o : options) (s : text) st rest :
  string_token o s = Some (st, rest) -> well_read o s st rest.
Proof.
  unfold string_token. intros H.
  assert (Hq : is_quote QUOTE) by (by left). assert (Hdq : is_quote DQUOTE) by (by right).
  set (body := fun q => if dual_quote o then dual_body q else back_body [q]) in H.
  assert (Hb : forall q, is_quote q ->
    (body q = back_body [q] /\ (o.(dual_quote) = false \/ length [q] <> 1%nat) \/
     body q = dual_body q /\ o.(dual_quote) = true /\ [q] = [q])).
  { intros q _. unfold body. destruct (dual_quote o); [by right|]. left. split; [done|]. by left. }
  assert (Hrest : choice [raw_string [QUOTE]; raw_string [DQUOTE];
     escape_string (body QUOTE) [QUOTE]; escape_string (body DQUOTE) [DQUOTE];
     unicode_string QUOTE; unicode_string DQUOTE; backtick_string; dollar_string] s = Some (st, rest) ->
     well_read o s st rest).
  { cbn [choice]. clear H. intros H.
    destruct (raw_string [QUOTE] s) as [[??]|] eqn:E1.
    { simplify_eq. by apply (raw_string_read o [QUOTE] QUOTE). }
    destruct (raw_string [DQUOTE] s) as [[??]|] eqn:E2.
    { simplify_eq. by apply (raw_string_read o [DQUOTE] DQUOTE). }
    destruct (escape_string (body QUOTE) [QUOTE] s) as [[??]|] eqn:E3.
    { simplify_eq. apply (escape_string_read o (body QUOTE) [QUOTE] QUOTE); try done. by apply Hb. }
    destruct (escape_string (body DQUOTE) [DQUOTE] s) as [[??]|] eqn:E4.
    { simplify_eq. apply (escape_string_read o (body DQUOTE) [DQUOTE] DQUOTE); try done. by apply Hb. }
    destruct (unicode_string QUOTE s) as [[??]|] eqn:E5.
    { simplify_eq. by eapply unicode_string_read. }
    destruct (unicode_string DQUOTE s) as [[??]|] eqn:E6.
    { simplify_eq. by eapply unicode_string_read. }
    destruct (backtick_string s) as [[??]|] eqn:E7.
    { simplify_eq. by eapply backtick_string_read. }
    destruct (dollar_string s) as [[??]|] eqn:E8; [|done].
    simplify_eq. by eapply dollar_string_read. }
  destruct (triple_quote o) eqn:Et; [|by apply Hrest].
  assert (Hlen : forall q : N, length [q; q; q] <> 1%nat) by done.
  cbn [app] in H. change (choice ?l) with (choice l) in H.
  cbn [choice] in H. cbn [choice] in Hrest.
  destruct (raw_string T_QUOTE s) as [[??]|] eqn:E1.
  { simplify_eq. by apply (raw_string_read o T_QUOTE QUOTE). }
  destruct (raw_string T_DQUOTE s) as [[??]|] eqn:E2.
  { simplify_eq. by apply (raw_string_read o T_DQUOTE DQUOTE). }
  destruct (escape_string (back_body T_QUOTE) T_QUOTE s) as [[??]|] eqn:E3.
  { simplify_eq. apply (escape_string_read o (back_body T_QUOTE) T_QUOTE QUOTE); try done. left. split; [done|by right]. }
  destruct (escape_string (back_body T_DQUOTE) T_DQUOTE s) as [[??]|] eqn:E4.
  { simplify_eq. apply (escape_string_read o (back_body T_DQUOTE) T_DQUOTE DQUOTE); try done. left. split; [done|by right]. }
  by apply Hrest.
Qed.

Theorem string_total (alnum : N -> bool) (o : options) (s raw : text) (st : style) (rest : text) :
  next alnum o s = Some (Str raw st, rest) ->
  s = raw ++ rest /\ ((forall q e, st <> Unicode q e) -> decode o st raw <> InvalidLiteral).
Proof.
  intros H. unfold next in H. destruct s as [|c s]; [done|].
  destruct (line_comment (c :: s)); [done|]. destruct (block_comment (c :: s)); [done|].
  destruct (string_token o (c :: s)) as [[st' r]|] eqn:E.
  - injection H as Hraw -> ->. apply string_token_read in E as (raw' & Hs & _ & Hd).
    rewrite Hs, slice_app in Hraw. subst. done.
  - repeat case_match; done.
Qed.
