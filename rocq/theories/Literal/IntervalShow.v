(** Reading the texts of shown intervals. *)
From Coq Require Import NArith ZArith ZifyN ZifyBool Ascii String Lia.
From stdpp Require Import prelude list strings.
From Verif Require Import Lib.Text Functions.IntModel Sql.LexModel Sql.LexSpec Sql.LexProofs Literal.NumberModel
  Literal.NumberSpec Literal.NumberProofs Literal.IntervalModel Literal.IntervalSpec Literal.IntervalProofs
  Literal.IntervalLex.
From Verif.Sql Require MarkerProofs.
#[local] Open Scope Z_scope.

Section reading.
Context (alnum : N -> bool) (Ha : ascii_alnum alnum).

Definition quoted_token (body : text) : token := Str (quote body) (Quoted [QUOTE] None).
Lemma qualified_tokens (body a b : text) :
  Forall plain_char body ->
  (2 <= length a)%nat -> forallb is_letter a = true -> (2 <= length b)%nat -> forallb is_letter b = true ->
  lexes alnum (str "INTERVAL" ++ str " " ++ quote body ++ str " " ++ a ++ str " " ++ str "TO" ++ str " " ++ b)
    [Word (str "INTERVAL"); Blank 32 1; quoted_token body; Blank 32 1; Word a; Blank 32 1; Word (str "TO");
     Blank 32 1; Word b].
Proof.
  intros Hbody Ha1 Ha2 Hb1 Hb2.
  assert (Hnb : forall (s r : text), (2 <= length s)%nat -> forallb is_letter s = true ->
    match s ++ r with c :: _ => c <> 32%N | [] => True end).
  { intros s r H1 H2. destruct s as [|c s]; [cbn in H1; lia|]. cbn [app forallb] in *.
    apply andb_true_iff in H2 as [H2 _]. intros ->. done. }
  assert (Hsp : forall s : text, no_word_head alnum (str " " ++ s)).
  { intros s. apply low_not_word; done. }
  apply lexes_step; [done|by apply next_letters; [done|first [done|cbn; lia]|done|first [apply Hsp|done]]|].
  apply lexes_step; [done|by apply next_space|].
  apply lexes_step; [done|apply next_quote; [done|by intros [s' [=]]]|].
  apply lexes_step; [done|by apply next_space, Hnb|].
  apply lexes_step; [by destruct a; [cbn in Ha1; lia|]|by apply next_letters; [done|first [done|cbn; lia]|done|first [apply Hsp|done]]|].
  apply lexes_step; [done|by apply next_space|].
  apply lexes_step; [done|by apply next_letters; [done|first [done|cbn; lia]|done|first [apply Hsp|done]]|].
  pose proof (Hnb b [] Hb1 Hb2) as Hnb2. rewrite app_nil_r in Hnb2.
  apply lexes_step; [done|exact (next_space alnum Ha b Hnb2)|].
  assert (Hlast : lexes alnum (b ++ []) [Word b]).
  { apply lexes_step; [by destruct b; [cbn in Hb1; lia|]|by apply next_letters|apply lexes_nil]. }
  by rewrite app_nil_r in Hlast.
Qed.
Lemma read_year_month (body : text) :
  Forall plain_char body ->
  read_interval [Word (str "INTERVAL"); Blank 32 1; quoted_token body; Blank 32 1; Word (str "YEAR"); Blank 32 1;
    Word (str "TO"); Blank 32 1; Word (str "MONTH")] = Some (Standard (VStr body) YearToMonth).
Proof.
  intros Hb. destruct (next_quote alnum body [] Hb) as [_ Hd]; [by intros [s' [=]]|].
  unfold quoted_token. lazy -[decode quote default_options QUOTE]. rewrite Hd. lazy. done.
Qed.
Lemma read_day_second (body : text) :
  Forall plain_char body ->
  read_interval [Word (str "INTERVAL"); Blank 32 1; quoted_token body; Blank 32 1; Word (str "DAY"); Blank 32 1;
    Word (str "TO"); Blank 32 1; Word (str "SECOND")] = Some (Standard (VStr body) DayToSecond).
Proof.
  intros Hb. destruct (next_quote alnum body [] Hb) as [_ Hd]; [by intros [s' [=]]|].
  unfold quoted_token. lazy -[decode quote default_options QUOTE]. rewrite Hd. lazy. done.
Qed.
Lemma standard_value_str (k : kind) (s : text) : standard_value k false (VStr s) = parse_standard k false s.
Proof. done. Qed.
Lemma parse_qualified_ym (body : text) :
  Forall plain_char body ->
  parse_interval alnum (str "INTERVAL '" ++ body ++ str "' YEAR TO MONTH") = parse_standard YearToMonth false body.
Proof.
  intros Hb.
  pose proof (qualified_tokens body (str "YEAR") (str "MONTH") Hb ltac:(cbn; lia) eq_refl ltac:(cbn; lia) eq_refl) as Hl.
  apply lexes_lex in Hl as (l & Hl & Ht).
  replace (str "INTERVAL" ++ str " " ++ quote body ++ str " " ++ str "YEAR" ++ str " " ++ str "TO" ++ str " " ++ str "MONTH")
    with (str "INTERVAL '" ++ body ++ str "' YEAR TO MONTH") in Hl.
  - unfold parse_interval. cbn [parse_loop]. rewrite Hl. cbn [mbind option_bind]. rewrite Ht, read_year_month by done. done.
  - unfold quote. change (str "' YEAR TO MONTH") with ([QUOTE] ++ str " " ++ str "YEAR" ++ str " " ++ str "TO" ++ str " " ++ str "MONTH").
    change (str "INTERVAL '") with (str "INTERVAL" ++ str " " ++ [QUOTE]). rewrite <- !app_assoc. cbn [app]. by rewrite <- !app_assoc.
Qed.
Lemma parse_qualified_ds (body : text) :
  Forall plain_char body ->
  parse_interval alnum (str "INTERVAL '" ++ body ++ str "' DAY TO SECOND") = parse_standard DayToSecond false body.
Proof.
  intros Hb.
  pose proof (qualified_tokens body (str "DAY") (str "SECOND") Hb ltac:(cbn; lia) eq_refl ltac:(cbn; lia) eq_refl) as Hl.
  apply lexes_lex in Hl as (l & Hl & Ht).
  replace (str "INTERVAL" ++ str " " ++ quote body ++ str " " ++ str "DAY" ++ str " " ++ str "TO" ++ str " " ++ str "SECOND")
    with (str "INTERVAL '" ++ body ++ str "' DAY TO SECOND") in Hl.
  - unfold parse_interval. cbn [parse_loop]. rewrite Hl. cbn [mbind option_bind]. rewrite Ht, read_day_second by done. done.
  - unfold quote. change (str "' DAY TO SECOND") with ([QUOTE] ++ str " " ++ str "DAY" ++ str " " ++ str "TO" ++ str " " ++ str "SECOND").
    change (str "INTERVAL '") with (str "INTERVAL" ++ str " " ++ [QUOTE]). rewrite <- !app_assoc. cbn [app]. by rewrite <- !app_assoc.
Qed.
End reading.
