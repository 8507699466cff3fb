(** How the texts of intervals are split into tokens. *)
From Coq Require Import NArith ZArith ZifyN ZifyBool Ascii String Lia.
From stdpp Require Import prelude list strings.
From Verif Require Import Lib.Text Sql.LexModel Sql.LexSpec Sql.LexProofs Literal.NumberSpec Literal.IntervalModel
  Literal.IntervalSpec.
From Verif.Sql Require NameProofs MarkerProofs.
#[local] Open Scope N_scope.

Section lexing.
Context (alnum : N -> bool) (Ha : ascii_alnum alnum).

Definition lexes (s : text) (toks : list token) : Prop :=
  forall fuel, (length s <= fuel)%nat ->
    exists l, lex_loop alnum default_options fuel s = Some l /\ map fst l = toks.
Lemma lexes_lex (s : text) (toks : list token) :
  lexes s toks -> exists l, lex alnum default_options s = Some l /\ map fst l = toks.
Proof. intros H. apply H. done. Qed.
Lemma lexes_nil : lexes [] [].
Proof. intros fuel _. exists []. by destruct fuel. Qed.
Lemma lexes_step (raw rest : text) (t : token) (toks : list token) :
  raw <> [] -> next alnum default_options (raw ++ rest) = Some (t, rest) -> lexes rest toks ->
  lexes (raw ++ rest) (t :: toks).
Proof.
  intros Hr Hn Hl fuel Hf.
  destruct (NameProofs.lex_loop_step alnum default_options fuel raw rest t Hr Hf Hn) as (fuel' & Hf' & ->).
  destruct (Hl fuel' Hf') as (l & -> & <-). by eexists.
Qed.

Definition no_word_head (s : text) : Prop := match s with c :: _ => word_char alnum c = false | [] => True end.
Lemma low_not_word (c : N) (s : text) :
  c < 128 -> (is_letter c || is_digit c || (c =? UNDERSCORE)) = false -> no_word_head (c :: s).
Proof. intros H1 H2. cbn. by apply (MarkerProofs.not_word alnum Ha). Qed.

Lemma next_letters (w rest : text) :
  (2 <= length w)%nat -> forallb is_letter w = true -> no_word_head rest ->
  next alnum default_options (w ++ rest) = Some (Word w, rest).
Proof.
  intros Hw Hl Hr.
  assert (Hall : forallb (word_char alnum) w = true).
  { apply forallb_forall. intros x Hx. apply (MarkerProofs.letter_word alnum Ha).
    exact (proj1 (forallb_forall _ _) Hl x Hx). }
  assert (Hsk : skip (word_char alnum) (w ++ rest) = rest) by (by apply skip_run).
  assert (Hsl : slice (w ++ rest) rest = w) by (by apply slice_app).
  destruct w as [|c [|c2 w]]; [cbn in Hw; lia|cbn in Hw; lia|]. cbn [app] in *.
  cbn [forallb] in Hl, Hall. apply andb_true_iff in Hl as [Hc Hl]. apply andb_true_iff in Hl as [Hc2 _].
  apply andb_true_iff in Hall as [Hwc _].
  unfold next, line_comment, block_comment.
  change (str "--") with [45; 45]. change (str "/*") with [47; 42].
  destruct (letter_facts c Hc). rewrite !just_other by congruence.
  rewrite MarkerProofs.letter_none; [by rewrite Hwc, Hsk, Hsl|done| |].
  - intros q z Hq. assert (Hb : is_blank c2 = false) by (unfold is_blank, is_letter in *; lia).
    cbn [skip]. rewrite Hb. intros [= -> _]. destruct (quote_facts q Hq) as (Hlq & _). congruence.
  - intros -> q z Hq [= -> _]. done.
Qed.
Lemma next_digits (d rest : text) :
  number d -> no_word_head rest -> next alnum default_options (d ++ rest) = Some (Word d, rest).
Proof.
  intros [Hd Hne] Hh.
  assert (Hw : forallb (word_char alnum) d = true).
  { apply forallb_forall. intros x Hx. assert (Hxd : is_digit x = true).
    { apply elem_of_list_In in Hx. unfold all_digits in Hd. rewrite list.Forall_forall in Hd. by apply Hd. }
    rewrite (MarkerProofs.word_char_low alnum Ha); [by rewrite Hxd, orb_true_r|]. unfold is_digit in Hxd. lia. }
  assert (Hsk : skip (word_char alnum) (d ++ rest) = rest) by (by apply skip_run).
  assert (Hsl : slice (d ++ rest) rest = d) by (by apply slice_app).
  destruct d as [|c x]; [done|]. cbn [app] in *.
  apply Forall_inv in Hd. cbn [forallb] in Hw. apply andb_true_iff in Hw as [Hwc _].
  assert (Hlt : 48 <= c <= 57) by (unfold is_digit in Hd; lia).
  unfold next, line_comment, block_comment.
  change (str "--") with [45; 45]. change (str "/*") with [47; 42]. rewrite !just_other by lia.
  rewrite MarkerProofs.nonletter_none; unfold QUOTE, DQUOTE, TICK, DOLLAR in *; try lia.
  - by rewrite Hwc, Hsk, Hsl.
  - unfold is_letter. lia.
Qed.
Lemma next_space (rest : text) :
  match rest with c :: _ => c <> 32 | [] => True end ->
  next alnum default_options (32 :: rest) = Some (Blank 32 1, rest).
Proof.
  intros Hr. unfold next, line_comment, block_comment.
  change (str "--") with [45; 45]. change (str "/*") with [47; 42]. rewrite !just_other by lia.
  rewrite MarkerProofs.nonletter_none by done. rewrite (MarkerProofs.not_word alnum Ha) by done.
  cbn [is_ws]. change (is_ws 32) with true. cbv beta iota zeta.
  assert (Hs : skip (fun x => x =? 32) (32 :: rest) = rest).
  { apply (skip_run (fun x => x =? 32) [32] rest); [done|]. destruct rest; [done|]. lia. }
  rewrite Hs. cbn [length]. by replace (S (length rest) - length rest)%nat with 1%nat by lia.
Qed.
Lemma next_minus (rest : text) :
  match rest with c :: _ => c <> 45 | [] => True end ->
  next alnum default_options (45 :: rest) = Some (Punct 45, rest).
Proof.
  intros Hr. unfold next, line_comment, block_comment.
  change (str "--") with [45; 45]. change (str "/*") with [47; 42]. rewrite (just_other 47) by lia.
  rewrite (just_none_intro [45; 45]).
  - rewrite MarkerProofs.nonletter_none by done. rewrite (MarkerProofs.not_word alnum Ha) by done. done.
  - intros r [= ->]. done.
Qed.
Lemma next_point (rest : text) : next alnum default_options (46 :: rest) = Some (Punct 46, rest).
Proof. exact (NameProofs.next_period alnum default_options rest Ha). Qed.

Definition plain_char (c : N) : Prop := c <> QUOTE /\ c <> BSLASH.
Lemma escaped_plain (s : text) : Forall plain_char s -> escaped QUOTE s = s.
Proof.
  induction 1 as [|c s [H1 H2] _ IH]; [done|]. rewrite escaped_cons, IH.
  destruct (N.eqb_spec c QUOTE); [done|]. by destruct (N.eqb_spec c BSLASH).
Qed.
Definition quote (s : text) : text := QUOTE :: s ++ [QUOTE].
Lemma next_quote (s rest : text) :
  Forall plain_char s -> ~ starts_with_char QUOTE rest ->
  next alnum default_options (quote s ++ rest) = Some (Str (quote s) (Quoted [QUOTE] None), rest) /\
  decode default_options (Quoted [QUOTE] None) (quote s) = Valid s None.
Proof.
  intros Hs Hr. assert (Hq : is_quote QUOTE) by (by left). pose proof (escaped_plain s Hs) as He. split.
  - assert (Hsplit : quote s ++ rest = prefix_text None [] ++ QUOTE :: s ++ QUOTE :: rest).
    { unfold quote. cbn [app prefix_text]. by rewrite <- app_assoc. }
    rewrite Hsplit. cbn [prefix_text app]. apply next_string; [done|done| |].
    + apply (string_token_quoted default_options None [] QUOTE s rest); [done|done|done|done| |].
      * intros s' ->. by apply Forall_inv in Hs as [? _].
      * rewrite <- He at 1. apply (back_body_escaped QUOTE [QUOTE] s rest); done.
    + unfold quote. cbn [app]. by rewrite <- app_assoc.
  - pose proof (decode_prefixed default_options None [] QUOTE [QUOTE] (s ++ [QUOTE]) I eq_refl Hq eq_refl) as Hd.
    cbn [prefix_text app] in Hd. unfold quote. rewrite Hd. clear Hd.
    change (QUOTE :: s ++ [QUOTE]) with ([QUOTE] ++ s ++ [QUOTE]).
    eapply decode_text_valid; [|apply collect_one]. rewrite <- He at 2.
    apply (chars_escaped QUOTE); [done|done|]. by rewrite He.
Qed.
End lexing.
