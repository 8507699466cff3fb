(** Quoted object names are read back. *)
From Coq Require Import NArith ZifyN ZifyBool Ascii String Lia.
From stdpp Require Import prelude list.
From Verif.Lib Require Import Text.
From Verif.Catalog Require Import QuoteModel.
From Verif.Sql Require Import LexModel LexSpec LexProofs.
Local Open Scope N_scope.

(** What follows a name: nothing or a period. *)
Definition after_name (r : text) : Prop := r = [] \/ exists r', r = PERIOD :: r'.

Lemma word_char_ascii (alnum : N -> bool) (c : N) :
  ascii_alnum alnum -> c < 128 ->
  word_char alnum c = LexModel.is_letter c || Text.is_digit c || (c =? UNDERSCORE).
Proof. intros Ha Hc. unfold word_char. by rewrite Ha. Qed.

Lemma double_cons (q c : N) (s : text) : double q (c :: s) = (if c =? q then [q; q] else [c]) ++ double q s.
Proof. done. Qed.
Lemma tick_body_double (s rest : text) :
  after_name rest -> tick_body (double TICK s ++ TICK :: rest) = Some rest.
Proof.
  intros Hr. induction s as [|c s IH].
  - cbn [double flat_map app tick_body]. rewrite N.eqb_refl. by destruct Hr as [-> |[r' ->]].
  - rewrite double_cons. destruct (c =? TICK) eqn:E; cbn [app tick_body].
    + by rewrite N.eqb_refl.
    + by rewrite E.
Qed.
Lemma chars_double (s : text) (fuel : nat) :
  (length (double TICK s ++ [TICK]) <= fuel)%nat ->
  chars tick_char fuel (double TICK s ++ [TICK]) = (map One s, [TICK]).
Proof.
  revert fuel. induction s as [|c s IH]; intros fuel Hf.
  - cbn [double flat_map app map]. by destruct fuel.
  - rewrite double_cons, <- app_assoc, app_length in Hf. rewrite double_cons, <- app_assoc.
    destruct (c =? TICK) eqn:E; cbn [app length] in *; (destruct fuel as [|fuel]; [lia|]); cbn [chars].
    + apply N.eqb_eq in E as ->. unfold tick_char at 1. rewrite N.eqb_refl, IH by lia. done.
    + unfold tick_char at 1. rewrite E, IH by lia. done.
Qed.

Lemma next_quoted_name (alnum : N -> bool) (o : options) (s rest : text) :
  after_name rest ->
  next alnum o ((TICK :: double TICK s ++ [TICK]) ++ rest) =
    Some (Str (TICK :: double TICK s ++ [TICK]) Backtick, rest).
Proof.
  intros Hr.
  assert (Hs : (TICK :: double TICK s ++ [TICK]) ++ rest = TICK :: double TICK s ++ TICK :: rest).
  { cbn [app]. by rewrite <- app_assoc. }
  rewrite Hs. apply next_string; [done|done| |by rewrite Hs].
  unfold string_token. rewrite choice_app.
  - cbn [choice]. unfold raw_string, escape_string, unicode_string, backtick_string.
    change (str "U&") with [85; 38]. change (LexModel.is_letter TICK) with false. cbn iota.
    rewrite !just_other by done. change ((TICK =? 114) || (TICK =? 82)) with false. cbn iota.
    by rewrite N.eqb_refl, tick_body_double.
  - destruct (triple_quote o); [|done]. cbn [choice]. unfold raw_string, escape_string, T_QUOTE, T_DQUOTE.
    change (LexModel.is_letter TICK) with false. cbn iota.
    change ((TICK =? 114) || (TICK =? 82)) with false. cbn iota. by rewrite !just_other.
Qed.
Lemma ident_quoted_name (o : options) (s : text) :
  ident o (Str (TICK :: double TICK s ++ [TICK]) Backtick) = Some s.
Proof.
  unfold ident, is_identifier_string, decode.
  change (TICK :: double TICK s ++ [TICK]) with ([TICK] ++ double TICK s ++ [TICK]).
  by rewrite (decode_text_valid tick_char [TICK] (double TICK s) None (map One s) s
    (chars_double s _ (le_n _)) (collect_one s)).
Qed.

Lemma valid_identifier_chars (s : text) :
  valid_identifier s = true -> exists c s', s = c :: s' /\ (LexModel.is_letter c || (c =? 95)) = true /\
    forallb (fun c => LexModel.is_letter c || Text.is_digit c || (c =? UNDERSCORE)) s = true.
Proof.
  destruct s as [|c s]; [done|]. cbn [valid_identifier]. intros [Hc Hs]%andb_true_iff.
  exists c, s. split_and!; [done|done|]. cbn [forallb].
  change QuoteModel.is_letter with LexModel.is_letter in *. change QuoteModel.is_digit with Text.is_digit in *.
  unfold UNDERSCORE. rewrite Hs, andb_true_r.
  apply orb_true_iff in Hc as [Hc|Hc]; rewrite Hc; [done|]. by rewrite orb_true_r.
Qed.

Lemma next_plain_name (alnum : N -> bool) (o : options) (s rest : text) :
  ascii_alnum alnum -> after_name rest -> valid_identifier s = true ->
  next alnum o (s ++ rest) = Some (Word s, rest).
Proof.
  intros Ha Hr Hv. apply valid_identifier_chars in Hv as (c & s' & -> & Hc & Hall).
  assert (Hwc : forall x, (LexModel.is_letter x || Text.is_digit x || (x =? UNDERSCORE)) = true ->
    word_char alnum x = true).
  { intros x Hx. rewrite word_char_ascii; [done|done|].
    unfold LexModel.is_letter, Text.is_digit, UNDERSCORE in Hx. lia. }
  assert (Hwall : forallb (word_char alnum) (c :: s') = true).
  { apply forallb_forall. intros x Hx. apply Hwc. by apply (proj1 (forallb_forall _ _) Hall). }
  assert (Hskip : skip (word_char alnum) ((c :: s') ++ rest) = rest).
  { apply skip_run; [done|]. destruct Hr as [-> |[r' ->]]; [done|]. by rewrite word_char_ascii. }
  (* the character after the first one is neither a blank nor a quote *)
  assert (Hnext : exists r0, s' ++ rest = r0 /\
    match r0 with [] => True | x :: _ => is_blank x = false /\ x <> QUOTE /\ x <> DQUOTE /\ x <> 38 end).
  { eexists; split; [reflexivity|]. destruct s' as [|x s']; cbn [app].
    - by destruct Hr as [-> |[r' ->]].
    - cbn [forallb] in Hall. apply andb_true_iff in Hall as [_ Hall]. apply andb_true_iff in Hall as [Hx _].
      unfold LexModel.is_letter, Text.is_digit, UNDERSCORE, is_blank, QUOTE, DQUOTE in *. lia. }
  destruct Hnext as (r0 & Hr0 & Hh).
  assert (Hjust : forall a d, a = QUOTE \/ a = DQUOTE -> just (a :: d) (skip is_blank r0) = None).
  { intros a d Hq. destruct r0 as [|x r0]; cbn [skip]; [apply just_nil|].
    destruct Hh as (Hb & H1 & H2 & _). rewrite Hb. apply just_other. destruct Hq as [-> | ->]; congruence. }
  cbn [app] in *. rewrite Hr0 in *.
  assert (Hraw : forall a d, a = QUOTE \/ a = DQUOTE -> raw_string (a :: d) (c :: r0) = None).
  { intros a d Hq. unfold raw_string. destruct ((c =? 114) || (c =? 82)); [|done]. by rewrite Hjust. }
  assert (Hesc : forall body a d, a = QUOTE \/ a = DQUOTE -> escape_string body (a :: d) (c :: r0) = None).
  { intros body a d Hq. unfold escape_string. destruct (LexModel.is_letter c) eqn:El; [by rewrite Hjust|].
    rewrite just_other; [done|]. cbn [orb] in Hc. apply N.eqb_eq in Hc. subst c.
    by destruct Hq as [-> | ->]. }
  assert (Huni : forall q, unicode_string q (c :: r0) = None).
  { intros q. unfold unicode_string. change (str "U&") with [85; 38]. rewrite just_none_intro; [done|].
    intros r. destruct r0 as [|x r0]; [done|]. intros [= _ -> _]. destruct Hh as (_ & _ & _ & Hh). done. }
  assert (Hstr : string_token o (c :: r0) = None).
  { unfold string_token. rewrite choice_app.
    - cbn [choice]. rewrite !Hraw, !Hesc, !Huni by auto.
      unfold backtick_string, dollar_string.
      destruct (N.eqb_spec c TICK) as [-> |]; [done|]. destruct (N.eqb_spec c DOLLAR) as [-> |]; done.
    - destruct (triple_quote o); [|done]. cbn [choice]. unfold T_QUOTE, T_DQUOTE.
      by rewrite !Hraw, !Hesc by auto. }
  unfold next, line_comment, block_comment.
  change (str "--") with [45; 45]. change (str "/*") with [47; 42].
  rewrite !just_other by (intros <-; done).
  rewrite Hstr. cbn [forallb] in Hwall. apply andb_true_iff in Hwall as [Hw _]. rewrite Hw.
  rewrite Hskip. rewrite <- Hr0. by rewrite slice_cons.
Qed.

Lemma next_name (alnum : N -> bool) (o : options) (s rest : text) :
  ascii_alnum alnum -> after_name rest ->
  exists t, next alnum o (quote_name s ++ rest) = Some (t, rest) /\ ident o t = Some s /\
    is_whitespace t = false.
Proof.
  intros Ha Hr. unfold quote_name. destruct (valid_identifier s) eqn:E.
  - exists (Word s). by rewrite next_plain_name.
  - exists (Str (TICK :: double TICK s ++ [TICK]) Backtick).
    change BACKTICK with TICK. rewrite next_quoted_name by done. by rewrite ident_quoted_name.
Qed.
Lemma quote_name_nonempty (s : text) : quote_name s <> [].
Proof. unfold quote_name. by destruct s; [|destruct (valid_identifier _)]. Qed.

Lemma next_period (alnum : N -> bool) (o : options) (s : text) :
  ascii_alnum alnum -> next alnum o (PERIOD :: s) = Some (Punct PERIOD, s).
Proof.
  intros Ha. unfold next, line_comment, block_comment.
  change (str "--") with [45; 45]. change (str "/*") with [47; 42]. rewrite !just_other by done.
  assert (Hstr : string_token o (PERIOD :: s) = None).
  { unfold string_token. rewrite choice_app.
    - cbn [choice]. unfold raw_string, escape_string, unicode_string, backtick_string, dollar_string.
      change (str "U&") with [85; 38]. change (LexModel.is_letter PERIOD) with false. cbn iota.
      rewrite !just_other by done. done.
    - destruct (triple_quote o); [|done]. cbn [choice]. unfold raw_string, escape_string, T_QUOTE, T_DQUOTE.
      change (LexModel.is_letter PERIOD) with false. cbn iota. by rewrite !just_other. }
  rewrite Hstr, word_char_ascii by done. done.
Qed.

Lemma lex_loop_step (alnum : N -> bool) (o : options) (fuel : nat) (raw rest : text) (t : token) :
  raw <> [] -> (length (raw ++ rest) <= fuel)%nat -> next alnum o (raw ++ rest) = Some (t, rest) ->
  exists fuel', (length rest <= fuel')%nat /\
    lex_loop alnum o fuel (raw ++ rest) =
      match lex_loop alnum o fuel' rest with Some l => Some ((t, raw) :: l) | None => None end.
Proof.
  intros Hraw Hf Hn. destruct raw as [|c raw]; [done|]. cbn [app length] in Hf.
  destruct fuel as [|fuel]; [lia|]. exists fuel. rewrite app_length in Hf. split; [lia|].
  cbn [app lex_loop]. cbn [app] in Hn. rewrite Hn.
  by rewrite slice_cons.
Qed.

Lemma object_name_quoted (alnum : N -> bool) (o : options) (names : list text) (fuel : nat) :
  ascii_alnum alnum -> names <> [] -> (length (quote_names names) <= fuel)%nat ->
  exists l, lex_loop alnum o fuel (quote_names names) = Some l /\ object_name o (significant l) = Some names.
Proof.
  intros Ha. revert fuel. induction names as [|s names IH]; intros fuel Hne Hf; [done|].
  destruct names as [|s' names].
  - cbn [quote_names] in *. destruct (next_name alnum o s [] Ha (or_introl eq_refl)) as (t & Hn & Hi & Hw).
    rewrite <- (app_nil_r (quote_name s)) in Hf |- *.
    destruct (lex_loop_step alnum o fuel (quote_name s) [] t (quote_name_nonempty s) Hf Hn) as (f & _ & Hl).
    rewrite Hl. replace (lex_loop alnum o f []) with (Some ([] : list (token * text))) by (by destruct f).
    eexists. split; [done|]. unfold significant. cbn [map fst List.filter]. rewrite Hw. cbn [negb object_name].
    by rewrite Hi.
  - change (quote_names (s :: s' :: names)) with (quote_name s ++ PERIOD :: quote_names (s' :: names)) in *.
    set (tail := quote_names (s' :: names)) in *.
    destruct (next_name alnum o s (PERIOD :: tail) Ha) as (t & Hn & Hi & Hw); [by right; eexists|].
    destruct (lex_loop_step alnum o fuel (quote_name s) (PERIOD :: tail) t (quote_name_nonempty s) Hf Hn)
      as (f & Hf1 & Hl).
    rewrite Hl.
    destruct (lex_loop_step alnum o f [PERIOD] tail (Punct PERIOD)) as (f2 & Hf2 & Hl2);
      [done|done|by apply next_period|].
    cbn [app] in Hl2. rewrite Hl2.
    destruct (IH f2 ltac:(done) Hf2) as (l & Hl3 & Ho). rewrite Hl3.
    eexists. split; [done|]. unfold significant in *. cbn [map fst List.filter is_whitespace negb]. rewrite Hw.
    cbn [negb object_name]. rewrite Hi, N.eqb_refl, Ho. done.
Qed.

Theorem object_name_round_trip (alnum : N -> bool) (o : options) (names : list text) :
  ascii_alnum alnum -> names <> [] -> parse_object_name alnum o (quote_names names) = Some names.
Proof.
  intros Ha Hn. unfold parse_object_name, lex.
  destruct (object_name_quoted alnum o names (length (quote_names names)) Ha Hn (le_n _)) as (l & Hl & Ho).
  by rewrite Hl.
Qed.

Lemma quote_names_empty (names : list text) : quote_names names = [] -> names = [].
Proof.
  destruct names as [|s [|s' names]]; [done| |]; intros H; exfalso; apply (quote_name_nonempty s).
  - done.
  - change (quote_names (s :: s' :: names)) with (quote_name s ++ PERIOD :: quote_names (s' :: names)) in H.
    by apply app_eq_nil in H as [H _].
Qed.
(** The ASCII characters alone are one reading of [char::is_alphanumeric]. *)
Lemma ascii_alnum_exists : ascii_alnum (fun c => LexModel.is_letter c || Text.is_digit c).
Proof. by intros c _. Qed.
Theorem quote_names_inj (l1 l2 : list text) : quote_names l1 = quote_names l2 -> l1 = l2.
Proof.
  intros H. destruct l1 as [|s l1].
  - symmetry. by apply quote_names_empty.
  - destruct l2 as [|s2 l2]; [by apply quote_names_empty in H|].
    pose proof (object_name_round_trip _ default_options (s :: l1) ascii_alnum_exists ltac:(done)) as H1.
    pose proof (object_name_round_trip _ default_options (s2 :: l2) ascii_alnum_exists ltac:(done)) as H2.
    rewrite H in H1. congruence.
Qed.
