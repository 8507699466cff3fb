(** Replacing parameter markers leaves the other tokens as they were. *)
From Coq Require Import NArith ZifyN ZifyBool Ascii String Lia.
From stdpp Require Import prelude list.
From Verif.Lib Require Import Text.
From Verif.Sql Require Import LexModel LexSpec LexProofs NameProofs.
Local Open Scope N_scope.

(** ** Decimal numbers *)

Lemma decimal_loop_digits (fuel : nat) (n : N) : forallb is_digit (decimal_loop fuel n) = true.
Proof.
  revert n. induction fuel as [|fuel IH]; intros n; cbn [decimal_loop]; [done|].
  destruct (N.ltb_spec n 10).
  - cbn [forallb]. unfold is_digit. lia.
  - rewrite forallb_app, IH. cbn [forallb andb]. unfold is_digit.
    pose proof (N.mod_lt n 10 ltac:(done)). lia.
Qed.
Lemma decimal_loop_value (fuel : nat) (n : N) :
  n < 2 ^ N.of_nat fuel -> dec_value (decimal_loop fuel n) = n.
Proof.
  revert n. induction fuel as [|fuel IH]; intros n Hn; cbn [decimal_loop].
  - cbn in Hn. unfold dec_value. cbn [fold_left]. lia.
  - rewrite Nat2N.inj_succ, N.pow_succ_r' in Hn.
    destruct (N.ltb_spec n 10).
    + unfold dec_value. cbn [fold_left]. lia.
    + unfold dec_value in *. rewrite fold_left_app. cbn [fold_left].
      rewrite IH.
      * pose proof (N.div_mod n 10 ltac:(done)). pose proof (N.mod_lt n 10 ltac:(done)). lia.
      * apply N.div_lt_upper_bound; lia.
Qed.
Lemma decimal_digits (n : N) : forallb is_digit (decimal n) = true.
Proof. apply decimal_loop_digits. Qed.
Lemma decimal_value (n : N) : dec_value (decimal n) = n.
Proof.
  apply decimal_loop_value. rewrite Nat2N.inj_succ, N2Nat.id.
  destruct (N.eq_dec n 0) as [-> |]; [done|]. apply N.log2_spec. lia.
Qed.
Lemma decimal_nonempty (n : N) : decimal n <> [].
Proof. unfold decimal. cbn [decimal_loop]. destruct (n <? 10); [done|].  by destruct (decimal_loop _ _). Qed.
Lemma decimal_inj (n k : N) : decimal n = decimal k -> n = k.
Proof. intros H. rewrite <- (decimal_value n), <- (decimal_value k). by rewrite H. Qed.

Definition no_digit_head (s : text) : Prop := match s with c :: _ => is_digit c = false | [] => True end.
Lemma digit_run (a b x y : text) :
  forallb is_digit a = true -> forallb is_digit b = true -> no_digit_head x -> no_digit_head y ->
  a ++ x = b ++ y -> a = b.
Proof.
  revert b. induction a as [|c a IH]; intros [|c' b] Ha Hb Hx Hy H; cbn [app] in H; [done|..].
  - subst x. cbn [forallb] in Hb. cbn [no_digit_head] in Hx. by rewrite Hx in Hb.
  - subst y. cbn [forallb] in Ha. cbn [no_digit_head] in Hy. by rewrite Hy in Ha.
  - injection H as -> H. f_equal. cbn [forallb] in Ha, Hb.
    apply andb_true_iff in Ha as [_ Ha], Hb as [_ Hb]. by apply (IH b).
Qed.

(** ** Texts that differ in their markers *)

(** Some question marks of the first text are numbered parameters in the second. *)
Inductive marked : text -> text -> Prop :=
  | marked_nil : marked [] []
  | marked_same (c : N) (s s' : text) : marked s s' -> marked (c :: s) (c :: s')
  | marked_mark (n : N) (s s' : text) : marked s s' -> marked (QMARK :: s) (DOLLAR :: decimal n ++ s').

Lemma marked_app (a s s' : text) : marked s s' -> marked (a ++ s) (a ++ s').
Proof. intros H. induction a as [|c a IH]; [done|]. by apply marked_same. Qed.
Lemma marked_cons (c : N) (s r' : text) :
  marked (c :: s) r' -> (exists s', r' = c :: s' /\ marked s s') \/
    (c = QMARK /\ exists n s', r' = DOLLAR :: decimal n ++ s' /\ marked s s').
Proof. intros H. inversion H; subst; [left; by eexists|right]. split; [done|]. by eexists _, _. Qed.
(** The first characters agree, but for a marker. *)
Lemma marked_head (P : N -> Prop) (r r' : text) :
  marked r r' -> (P QMARK -> P DOLLAR) -> match r with c :: _ => P c | [] => True end ->
  match r' with c :: _ => P c | [] => True end.
Proof. intros H HD Hr. inversion H; subst; auto. Qed.
Lemma marked_skip_blank (r r' : text) :
  marked r r' -> marked (skip is_blank r) (skip is_blank r').
Proof.
  intros H. induction H as [|c s s' H IH|n s s' H IH]; cbn [skip].
  - apply marked_nil.
  - destruct (is_blank c); [done|]. by apply marked_same.
  - change (is_blank QMARK) with false. change (is_blank DOLLAR) with false. cbn iota.
    by apply marked_mark.
Qed.

Lemma comment_skip (d : nat) (c : N) (x : text) : c <> 42 -> c <> 47 -> comment_body d (c :: x) = comment_body d x.
Proof.
  intros H1 H2. cbn [comment_body]. destruct x as [|c' x]; [done|].
  destruct (N.eqb_spec c 42), (N.eqb_spec c 47); done.
Qed.
Lemma comment_skip_app (d : nat) (a x : text) :
  Forall (fun c => c <> 42 /\ c <> 47) a -> comment_body d (a ++ x) = comment_body d x.
Proof.
  intros H. induction H as [|c a [H1 H2] _ IH]; [done|]. cbn [app]. by rewrite comment_skip.
Qed.
Lemma decimal_no_comment (n : N) : Forall (fun c => c <> 42 /\ c <> 47) (DOLLAR :: decimal n).
Proof.
  apply Forall_cons. split; [done|]. apply Forall_forall. intros c Hc. apply elem_of_list_In in Hc.
  pose proof (proj1 (forallb_forall _ _) (decimal_digits n) c Hc) as H. unfold is_digit in H. lia.
Qed.
Lemma comment_two (d : nat) (c c' : N) (s : text) :
  comment_body d (c :: c' :: s) =
    if (c =? 42) && (c' =? 47) then match d with O => Some s | S d' => comment_body d' s end
    else if (c =? 47) && (c' =? 42) then comment_body (S d) s
    else comment_body d (c' :: s).
Proof. done. Qed.
Lemma marked_comment (d : nat) (r r' : text) :
  marked r r' -> comment_body d r = None -> comment_body d r' = None.
Proof.
  remember (length r) as n eqn:Hn. revert d r r' Hn.
  induction (lt_wf n) as [n _ IH]. intros d r r' -> H HN.
  inversion H as [|c s s' Hs|k s s' Hs]; subst; [done|..].
  2: { rewrite comment_skip in HN by done.
       change (DOLLAR :: decimal k ++ s') with ((DOLLAR :: decimal k) ++ s').
       rewrite comment_skip_app by apply decimal_no_comment.
       apply (IH (length s)) with (r := s); [cbn [length]; lia|done..]. }
  destruct s as [|c' s].
  { inversion Hs. done. }
  rewrite comment_two in HN.
  apply marked_cons in Hs as [(s2 & -> & Hs2)|(-> & k & s2 & -> & Hs2)].
  - rewrite comment_two.
    destruct ((c =? 42) && (c' =? 47)).
    + destruct d as [|d]; [done|]. apply (IH (length s)) with (r := s); [cbn [length]; lia|done..].
    + destruct ((c =? 47) && (c' =? 42)).
      * apply (IH (length s)) with (r := s); [cbn [length]; lia|done..].
      * apply (IH (length (c' :: s))) with (r := c' :: s); [cbn [length]; lia|done| |done].
        by apply marked_same.
  - change (QMARK =? 47) with false in HN. change (QMARK =? 42) with false in HN.
    rewrite !andb_false_r in HN.
    rewrite comment_two. change (DOLLAR =? 47) with false. change (DOLLAR =? 42) with false.
    rewrite !andb_false_r.
    apply (IH (length (QMARK :: s))) with (r := QMARK :: s); [cbn [length]; lia|done| |done].
    by apply marked_mark.
Qed.
Lemma comment_extend (d : nat) (s r : text) :
  comment_body d s = Some r -> exists m, s = m ++ r /\ forall y, comment_body d (m ++ y) = Some y.
Proof.
  remember (length s) as n eqn:Hn. revert d s Hn.
  induction (lt_wf n) as [n _ IH]. intros d s -> H.
  destruct s as [|c [|c' s]]; [done|done|]. rewrite comment_two in H.
  destruct ((c =? 42) && (c' =? 47)) eqn:E1.
  - destruct d as [|d].
    + injection H as ->. exists [c; c']. split; [done|]. intros y. cbn [app]. rewrite comment_two. by rewrite E1.
    + destruct (IH (length s)) with (d := d) (s := s) as (m & -> & Hm); [cbn [length]; lia|done|done|].
      exists (c :: c' :: m). split; [done|]. intros y. cbn [app]. rewrite comment_two. by rewrite E1.
  - destruct ((c =? 47) && (c' =? 42)) eqn:E2.
    + destruct (IH (length s)) with (d := S d) (s := s) as (m & -> & Hm); [cbn [length]; lia|done|done|].
      exists (c :: c' :: m). split; [done|]. intros y. cbn [app]. rewrite comment_two. by rewrite E1, E2.
    + destruct (IH (length (c' :: s))) with (d := d) (s := c' :: s) as (m & Hs & Hm); [cbn [length]; lia|done|done|].
      destruct m as [|c2 m].
      { cbn [app] in *. subst r. exfalso. specialize (Hm []). by cbn in Hm. }
      injection Hs as <- ->. exists (c :: c' :: m). split; [done|]. intros y. cbn [app]. rewrite comment_two.
      rewrite E1, E2. apply Hm.
Qed.

(** ** Bodies and what follows them *)

Lemma just_extend (d : text) (c : N) (m y : text) :
  just d (c :: m ++ d) = None -> just d (c :: m ++ d ++ y) = None.
Proof. intros H. apply (just_shorter d (c :: m) [] y). by rewrite app_nil_r. Qed.
Lemma none_body_extend (d m y : text) :
  none_body d (m ++ d) = Some [] -> none_body d (m ++ d ++ y) = Some y.
Proof.
  intros H. induction m as [|c m IH].
  - cbn [app]. destruct (d ++ y) as [|c s] eqn:E; cbn [none_body]; rewrite <- E; by rewrite just_app.
  - cbn [app none_body] in *. destruct (just d (c :: m ++ d)) as [r|] eqn:E.
    + injection H as ->. apply just_some in E. apply (f_equal length) in E. cbn [length] in E.
      rewrite !app_length in E. cbn [length] in E. lia.
    + rewrite just_extend by done. by apply IH.
Qed.
Lemma back_body_extend (d m y : text) :
  d <> [] -> back_body d (m ++ d) = Some [] -> back_body d (m ++ d ++ y) = Some y.
Proof.
  intros Hd. remember (length m) as n eqn:Hn. revert m Hn.
  induction (lt_wf n) as [n _ IH]. intros m -> H.
  destruct m as [|c m].
  - cbn [app] in *. destruct d as [|q d]; [done|]. cbn [app back_body] in *.
    destruct (q =? BSLASH).
    + destruct d as [|e d]; [done|]. apply back_body_split in H as (x & Hx & _); [|done].
      apply (f_equal length) in Hx. rewrite !app_length in Hx. cbn [length] in Hx. lia.
    + by rewrite just_cons.
  - cbn [app back_body] in *. destruct (c =? BSLASH).
    + destruct m as [|e m].
      * cbn [app] in *. destruct d as [|q d]; [done|].
        apply back_body_split in H as (x & Hx & _); [|done].
        apply (f_equal length) in Hx. rewrite !app_length in Hx. cbn [length] in Hx. lia.
      * cbn [app] in *. apply (IH (length m)); [cbn [length]; lia|done|done].
    + destruct (just d (c :: m ++ d)) as [r|] eqn:E.
      * injection H as ->. apply just_some in E. apply (f_equal length) in E. cbn [length] in E.
        rewrite !app_length in E. cbn [length] in E. lia.
      * rewrite just_extend by done. apply (IH (length m)); [cbn [length]; lia|done|done].
Qed.
Lemma tick_body_extend (m y : text) :
  (~ starts_with_char TICK y) -> tick_body (m ++ [TICK]) = Some [] -> tick_body (m ++ [TICK] ++ y) = Some y.
Proof.
  intros Hy. remember (length m) as n eqn:Hn. revert m Hn.
  induction (lt_wf n) as [n _ IH]. intros m -> H.
  destruct m as [|c m]; cbn [app tick_body] in *.
  - rewrite N.eqb_refl. destruct y as [|c y]; [done|].
    destruct (N.eqb_spec c TICK) as [-> |]; [|done]. destruct Hy. by eexists.
  - destruct (c =? TICK).
    + destruct m as [|c' m]; cbn [app] in *; [done|]. destruct (c' =? TICK); [|by destruct m].
      apply (IH (length m)); [cbn [length]; lia|done|done].
    + apply (IH (length m)); [cbn [length]; lia|done|done].
Qed.
Lemma tick_body_after (s rest : text) : tick_body s = Some rest -> ~ starts_with_char TICK rest.
Proof.
  remember (length s) as n eqn:Hn. revert s Hn.
  induction (lt_wf n) as [n _ IH]. intros s -> H.
  destruct s as [|c s]; [done|]. cbn [tick_body] in H. destruct (c =? TICK).
  - destruct s as [|c' s].
    + injection H as <-. by intros [? ?].
    + destruct (c' =? TICK) eqn:E.
      * apply (IH (length s)) with (s := s); [cbn [length]; lia|done..].
      * injection H as <-. intros [s' [= -> _]]. by rewrite N.eqb_refl in E.
  - apply (IH (length s)) with (s := s); [cbn [length]; lia|done..].
Qed.
Lemma none_then_back (d s : text) : d <> [] -> none_body d s = None -> back_body d s = None.
Proof.
  intros Hd H. destruct (back_body d s) as [r|] eqn:E; [|done]. exfalso.
  apply back_body_split in E as (m & -> & _); [|done].
  induction m as [|c m IH]; cbn [app] in H.
  - destruct (d ++ r) as [|c s] eqn:E; [by destruct d|]. cbn [none_body] in H.
    rewrite <- E in H. by rewrite just_app in H.
  - cbn [none_body] in H. destruct (just d (c :: m ++ d ++ r)); [done|]. by apply IH.
Qed.

(** ** One token, with the text after it changed *)

Notation odef := default_options.

Lemma string_token_default (s : text) :
  string_token odef s =
  choice [raw_string [QUOTE]; raw_string [DQUOTE];
     escape_string (back_body [QUOTE]) [QUOTE]; escape_string (back_body [DQUOTE]) [DQUOTE];
     unicode_string QUOTE; unicode_string DQUOTE; backtick_string; dollar_string] s.
Proof. done. Qed.

Lemma eval_raw (c q : N) (bl m y : text) :
  is_raw c = true -> forallb is_blank bl = true -> is_quote q -> none_body [q] (m ++ [q]) = Some [] ->
  string_token odef (c :: bl ++ [q] ++ m ++ [q] ++ y) = Some (Quoted [q] (Some c), y).
Proof.
  intros Hc Hb Hq Hm. apply (none_body_extend [q] m y) in Hm. rewrite string_token_default.
  cbn [app] in *. cbn [choice]. rewrite !raw_string_raw by done. rewrite !just_one.
  destruct Hq as [-> | ->]; [|change (DQUOTE =? QUOTE) with false; cbn iota]; by rewrite N.eqb_refl, Hm.
Qed.
Lemma eval_esc (p : option N) (q : N) (bl m y : text) :
  plain_prefix p -> forallb is_blank bl = true -> is_quote q -> back_body [q] (m ++ [q]) = Some [] ->
  string_token odef (prefix_text p bl ++ [q] ++ m ++ [q] ++ y) = Some (Quoted [q] p, y).
Proof.
  intros Hp Hb Hq Hm. apply (back_body_extend [q] m y) in Hm; [|done]. rewrite string_token_default.
  cbn [app] in *. cbn [choice]. rewrite !raw_string_plain by done. rewrite !escape_string_prefix by done.
  rewrite !just_one.
  destruct Hq as [-> | ->]; [|change (DQUOTE =? QUOTE) with false; cbn iota]; by rewrite N.eqb_refl, Hm.
Qed.
Lemma raw_string_U (d x : text) : raw_string d (85 :: x) = None.
Proof. done. Qed.
Lemma escape_string_U (body : text -> option text) (a : N) (d x : text) :
  a <> 38 -> escape_string body (a :: d) (85 :: 38 :: x) = None.
Proof.
  intros Ha. unfold escape_string. change (is_letter 85) with true. cbn iota.
  cbn [skip]. change (is_blank 38) with false. cbn iota. by rewrite just_other.
Qed.
Lemma unicode_string_U (q : N) (x : text) :
  unicode_string q (85 :: 38 :: x) =
    match just [q] x with
    | Some b => match none_body [q] b with Some rest => Some (Unicode q None, rest) | None => None end
    | None => None
    end.
Proof.
  unfold unicode_string. change (str "U&") with [85; 38].
  by rewrite (just_cons 85 [38] x : just [85; 38] (85 :: 38 :: x) = _).
Qed.
Lemma eval_uni (q : N) (m y : text) :
  is_quote q -> none_body [q] (m ++ [q]) = Some [] ->
  string_token odef (85 :: 38 :: [q] ++ m ++ [q] ++ y) = Some (Unicode q None, y).
Proof.
  intros Hq Hm. apply (none_body_extend [q] m y) in Hm. rewrite string_token_default.
  cbn [app] in *. cbn [choice]. rewrite !raw_string_U, !escape_string_U, !unicode_string_U by done.
  rewrite !just_one.
  destruct Hq as [-> | ->]; [|change (DQUOTE =? QUOTE) with false; cbn iota]; by rewrite N.eqb_refl, Hm.
Qed.
Lemma nonletter_tail (c : N) (s : text) :
  is_letter c = false -> c <> QUOTE -> c <> DQUOTE ->
  string_token odef (c :: s) =
    match backtick_string (c :: s) with Some x => Some x | None => dollar_string (c :: s) end.
Proof.
  intros Hl H1 H2. rewrite string_token_default. cbn [choice].
  assert (Hr : forall d, raw_string d (c :: s) = None).
  { intros d. unfold raw_string. destruct ((c =? 114) || (c =? 82)) eqn:E; [|done].
    apply orb_true_iff in E as [E|E]; apply N.eqb_eq in E as ->; done. }
  assert (He : forall body a, a <> c -> escape_string body [a] (c :: s) = None).
  { intros body a Hac. unfold escape_string. rewrite Hl. by rewrite just_other. }
  assert (Hu : forall q, unicode_string q (c :: s) = None).
  { intros q. unfold unicode_string. change (str "U&") with [85; 38]. rewrite just_other; [done|].
    by intros <-. }
  rewrite !Hr, !He, !Hu by congruence. destruct (backtick_string (c :: s)); [done|].
  by destruct (dollar_string (c :: s)).
Qed.
Lemma nonletter_none (c : N) (s : text) :
  is_letter c = false -> c <> QUOTE -> c <> DQUOTE -> c <> TICK -> c <> DOLLAR ->
  string_token odef (c :: s) = None.
Proof.
  intros. rewrite nonletter_tail by done. unfold backtick_string, dollar_string.
  destruct (N.eqb_spec c TICK); [done|]. by destruct (N.eqb_spec c DOLLAR).
Qed.
Lemma eval_tick (m y : text) :
  (~ starts_with_char TICK y) -> tick_body (m ++ [TICK]) = Some [] ->
  string_token odef ([TICK] ++ m ++ [TICK] ++ y) = Some (Backtick, y).
Proof.
  intros Hy Hm. apply (tick_body_extend m y Hy) in Hm. cbn [app] in *.
  rewrite nonletter_tail by done. unfold backtick_string. by rewrite N.eqb_refl, Hm.
Qed.


Lemma raw_string_inv (q : N) (s r : text) (st : style) :
  raw_string [q] s = Some (st, r) ->
  exists c bl m, s = c :: bl ++ [q] ++ m ++ [q] ++ r /\ is_raw c = true /\ forallb is_blank bl = true /\
    none_body [q] (m ++ [q]) = Some [] /\ st = Quoted [q] (Some c).
Proof.
  intros H. unfold raw_string in H. destruct s as [|c s]; [done|].
  destruct ((c =? 114) || (c =? 82)) eqn:Ec; [|done].
  destruct (skip_split is_blank s) as (bl & Hs & Hbl & _).
  destruct (just [q] (skip is_blank s)) as [b|] eqn:Ej; [|done]. apply just_some in Ej.
  destruct (none_body [q] b) as [r0|] eqn:En; [|done]. injection H as <- <-.
  apply none_body_split in En as (m & -> & Hm). rewrite Ej in Hs.
  exists c, bl, m. split_and!; [|done..]. by rewrite Hs.
Qed.
Lemma escape_string_inv (q : N) (s r : text) (st : style) :
  raw_string [q] s = None -> escape_string (back_body [q]) [q] s = Some (st, r) ->
  exists p bl m, s = prefix_text p bl ++ [q] ++ m ++ [q] ++ r /\ plain_prefix p /\
    forallb is_blank bl = true /\ back_body [q] (m ++ [q]) = Some [] /\ st = Quoted [q] p.
Proof.
  intros Hraw H. unfold escape_string in H. destruct s as [|c s]; [by rewrite just_nil in H|].
  destruct (is_letter c) eqn:Ec.
  - destruct (skip_split is_blank s) as (bl & Hs & Hbl & _).
    destruct (just [q] (skip is_blank s)) as [b|] eqn:Ej; [|done].
    pose proof Ej as Ej2. apply just_some in Ej.
    destruct (back_body [q] b) as [r0|] eqn:En; [|done]. injection H as <- <-.
    pose proof En as En2. apply back_body_split in En as (m & -> & Hm); [|done]. rewrite Ej in Hs.
    exists (Some c), bl, m. split_and!; [by rewrite Hs| |done..]. split; [done|].
    unfold is_raw. unfold raw_string in Hraw. rewrite Ej2 in Hraw.
    destruct ((c =? 114) || (c =? 82)) eqn:Er; [|done].
    destruct (none_body [q] (m ++ [q] ++ r0)) as [?|] eqn:Enb; [done|].
    apply none_then_back in Enb; [|done]. by rewrite Enb in En2.
  - destruct (just [q] (c :: s)) as [b|] eqn:Ej; [|done]. apply just_some in Ej.
    destruct (back_body [q] b) as [r0|] eqn:En; [|done]. injection H as <- <-.
    apply back_body_split in En as (m & -> & Hm); [|done].
    exists None, [], m. split_and!; [by rewrite Ej|done..].
Qed.
Lemma unicode_string_inv (q : N) (s r : text) (st : style) :
  unicode_string q s = Some (st, r) ->
  exists m, s = 85 :: 38 :: [q] ++ m ++ [q] ++ r /\ none_body [q] (m ++ [q]) = Some [] /\ st = Unicode q None.
Proof.
  intros H. unfold unicode_string in H. change (str "U&") with [85; 38] in H.
  destruct (just [85; 38] s) as [s1|] eqn:E1; [|done]. apply just_some in E1.
  destruct (just [q] s1) as [b|] eqn:E2; [|done]. apply just_some in E2.
  destruct (none_body [q] b) as [r0|] eqn:E3; [|done]. injection H as <- <-.
  apply none_body_split in E3 as (m & -> & Hm). exists m. split_and!; [|done..]. by rewrite E1, E2.
Qed.
Lemma backtick_string_inv (s r : text) (st : style) :
  backtick_string s = Some (st, r) ->
  exists m, s = [TICK] ++ m ++ [TICK] ++ r /\ tick_body (m ++ [TICK]) = Some [] /\ st = Backtick /\
    ~ starts_with_char TICK r.
Proof.
  intros H. unfold backtick_string in H. destruct s as [|c s]; [done|].
  destruct (c =? TICK) eqn:E; [|done]. apply N.eqb_eq in E as ->.
  destruct (tick_body s) as [r0|] eqn:Et; [|done]. injection H as <- <-.
  pose proof (tick_body_after _ _ Et). apply tick_body_split in Et as (m & -> & Hm).
  exists m. by split_and!.
Qed.

Definition wordy_style (st : style) : Prop :=
  match st with Quoted _ (Some _) | Unicode _ _ => True | _ => False end.

(** What the lexer read as a string is read as one whatever follows it. *)
Lemma string_extend (s r : text) (st : style) :
  DOLLAR ∉ s -> string_token odef s = Some (st, r) ->
  exists c x, s = (c :: x) ++ r /\ c <> 45 /\ c <> 47 /\
    (wordy_style st \/ c = QUOTE \/ c = DQUOTE \/ c = TICK) /\
    (st = Backtick -> ~ starts_with_char TICK r) /\
    (forall y, (st = Backtick -> ~ starts_with_char TICK y) -> string_token odef ((c :: x) ++ y) = Some (st, y)).
Proof.
  intros Hd H. rewrite string_token_default in H. cbn [choice] in H.
  assert (Hq : is_quote QUOTE) by (by left). assert (Hdq : is_quote DQUOTE) by (by right).
  assert (Hraw : forall q, is_quote q -> raw_string [q] s = Some (st, r) ->
    exists c x, s = (c :: x) ++ r /\ c <> 45 /\ c <> 47 /\
    (wordy_style st \/ c = QUOTE \/ c = DQUOTE \/ c = TICK) /\
    (st = Backtick -> ~ starts_with_char TICK r) /\
    (forall y, (st = Backtick -> ~ starts_with_char TICK y) -> string_token odef ((c :: x) ++ y) = Some (st, y))).
  { intros q Hq' E. apply raw_string_inv in E as (c & bl & m & -> & Hc & Hb & Hm & ->).
    exists c, (bl ++ [q] ++ m ++ [q]). split_and!.
    - cbn [app]. rewrite <- !app_assoc. cbn [app]. by rewrite <- app_assoc.
    - by intros ->.
    - by intros ->.
    - by left.
    - done.
    - intros y _. replace ((c :: bl ++ [q] ++ m ++ [q]) ++ y) with (c :: bl ++ [q] ++ m ++ [q] ++ y);
        [by apply eval_raw|]. cbn [app]. rewrite <- !app_assoc. cbn [app]. by rewrite <- app_assoc. }
  assert (Hesc : forall q, is_quote q -> raw_string [q] s = None -> escape_string (back_body [q]) [q] s = Some (st, r) ->
    exists c x, s = (c :: x) ++ r /\ c <> 45 /\ c <> 47 /\
    (wordy_style st \/ c = QUOTE \/ c = DQUOTE \/ c = TICK) /\
    (st = Backtick -> ~ starts_with_char TICK r) /\
    (forall y, (st = Backtick -> ~ starts_with_char TICK y) -> string_token odef ((c :: x) ++ y) = Some (st, y))).
  { intros q Hq' En E. apply escape_string_inv in E as (p & bl & m & Hs & Hp & Hb & Hm & ->); [|done].
    destruct (prefix_head p bl (m ++ [q]) q Hp Hq') as (c & x & Hcx & H1 & H2).
    assert (Hy : forall y, (c :: x) ++ y = prefix_text p bl ++ [q] ++ m ++ [q] ++ y).
    { intros y. rewrite <- Hcx. rewrite <- !app_assoc. cbn [app]. by rewrite <- app_assoc. }
    exists c, x. split_and!; [by rewrite Hy|done|done| |done|].
    - destruct p as [a|]; [by left|]. right. cbn [prefix_text app] in Hcx. injection Hcx as -> _.
      destruct Hq'; auto.
    - intros y _. rewrite Hy. by apply eval_esc. }
  destruct (raw_string [QUOTE] s) as [[??]|] eqn:E1; [simplify_eq; by apply (Hraw QUOTE)|].
  destruct (raw_string [DQUOTE] s) as [[??]|] eqn:E2; [simplify_eq; by apply (Hraw DQUOTE)|].
  destruct (escape_string (back_body [QUOTE]) [QUOTE] s) as [[??]|] eqn:E3; [simplify_eq; by apply (Hesc QUOTE)|].
  destruct (escape_string (back_body [DQUOTE]) [DQUOTE] s) as [[??]|] eqn:E4; [simplify_eq; by apply (Hesc DQUOTE)|].
  clear Hraw Hesc.
  assert (Huni : forall q, is_quote q -> unicode_string q s = Some (st, r) ->
    exists c x, s = (c :: x) ++ r /\ c <> 45 /\ c <> 47 /\
    (wordy_style st \/ c = QUOTE \/ c = DQUOTE \/ c = TICK) /\
    (st = Backtick -> ~ starts_with_char TICK r) /\
    (forall y, (st = Backtick -> ~ starts_with_char TICK y) -> string_token odef ((c :: x) ++ y) = Some (st, y))).
  { intros q Hq' E. apply unicode_string_inv in E as (m & -> & Hm & ->).
    exists 85, (38 :: [q] ++ m ++ [q]). split_and!; [|done|done|by left|done|].
    - cbn [app]. by rewrite <- app_assoc.
    - intros y _. pose proof (eval_uni q m y Hq' Hm) as Hev. cbn [app] in *. by rewrite <- app_assoc. }
  destruct (unicode_string QUOTE s) as [[??]|] eqn:E5; [simplify_eq; by apply (Huni QUOTE)|].
  destruct (unicode_string DQUOTE s) as [[??]|] eqn:E6; [simplify_eq; by apply (Huni DQUOTE)|].
  destruct (backtick_string s) as [[??]|] eqn:E7.
  { simplify_eq. apply backtick_string_inv in E7 as (m & -> & Hm & -> & Hr).
    exists TICK, (m ++ [TICK]). split_and!; [|done|done|by right; right; right|done|].
    - cbn [app]. by rewrite <- app_assoc.
    - intros y Hy. pose proof (eval_tick m y (Hy eq_refl) Hm) as Hev. cbn [app] in *.
      by rewrite <- app_assoc. }
  unfold dollar_string in H. destruct s as [|c s]; [done|].
  destruct (N.eqb_spec c DOLLAR) as [-> |]; [|done]. exfalso. apply Hd. constructor.
Qed.

(** Where no string starts at a letter. *)
Lemma letter_none_inv (c : N) (x : text) :
  is_letter c = true -> string_token odef (c :: x) = None ->
  (forall q z, is_quote q -> skip is_blank x = q :: z -> back_body [q] z = None) /\
  (c = 85 -> forall q z, is_quote q -> x = 38 :: q :: z -> back_body [q] z = None).
Proof.
  intros Hl H. rewrite string_token_default in H. cbn [choice] in H.
  destruct (raw_string [QUOTE] (c :: x)) as [?|] eqn:E1; [done|].
  destruct (raw_string [DQUOTE] (c :: x)) as [?|] eqn:E2; [done|].
  destruct (escape_string (back_body [QUOTE]) [QUOTE] (c :: x)) as [?|] eqn:E3; [done|].
  destruct (escape_string (back_body [DQUOTE]) [DQUOTE] (c :: x)) as [?|] eqn:E4; [done|].
  destruct (unicode_string QUOTE (c :: x)) as [?|] eqn:E5; [done|].
  destruct (unicode_string DQUOTE (c :: x)) as [?|] eqn:E6; [done|]. clear H. split.
  - intros q z Hq Hz. unfold escape_string in E3, E4. rewrite Hl, Hz, just_one in E3, E4.
    destruct Hq as [-> | ->].
    + rewrite N.eqb_refl in E3. by destruct (back_body [QUOTE] z).
    + rewrite N.eqb_refl in E4. by destruct (back_body [DQUOTE] z).
  - intros -> q z Hq ->. rewrite unicode_string_U, just_one in E5, E6.
    apply none_then_back; [done|]. destruct Hq as [-> | ->].
    + rewrite N.eqb_refl in E5. by destruct (none_body [QUOTE] z).
    + rewrite N.eqb_refl in E6. by destruct (none_body [DQUOTE] z).
Qed.
Lemma letter_none (c : N) (x : text) :
  is_letter c = true -> (forall q z, is_quote q -> skip is_blank x <> q :: z) ->
  (c = 85 -> forall q z, is_quote q -> x <> 38 :: q :: z) -> string_token odef (c :: x) = None.
Proof.
  intros Hl H1 H2. rewrite string_token_default. cbn [choice].
  assert (Hq : is_quote QUOTE) by (by left). assert (Hdq : is_quote DQUOTE) by (by right).
  assert (Hj : forall q, is_quote q -> just [q] (skip is_blank x) = None).
  { intros q Hq'. apply just_none_intro. intros r. by apply H1. }
  assert (Hr : forall q, is_quote q -> raw_string [q] (c :: x) = None).
  { intros q Hq'. unfold raw_string. rewrite (Hj q Hq'). by destruct ((c =? 114) || (c =? 82)). }
  assert (He : forall q, is_quote q -> escape_string (back_body [q]) [q] (c :: x) = None).
  { intros q Hq'. unfold escape_string. by rewrite Hl, (Hj q Hq'). }
  assert (Hu : forall q, is_quote q -> unicode_string q (c :: x) = None).
  { intros q Hq'. destruct (unicode_string q (c :: x)) as [[st r]|] eqn:E; [|done].
    apply unicode_string_inv in E as (m & Hs & _). injection Hs as -> ->. by destruct (H2 eq_refl q (m ++ q :: r)). }
  rewrite !Hr, !He, !Hu by done. unfold backtick_string, dollar_string.
  destruct (N.eqb_spec c TICK) as [-> |]; [done|]. by destruct (N.eqb_spec c DOLLAR) as [-> |].
Qed.

Section Lex.
Context (alnum : N -> bool) (Ha : ascii_alnum alnum).

Lemma word_char_low (c : N) : c < 128 -> word_char alnum c = is_letter c || is_digit c || (c =? UNDERSCORE).
Proof. by apply word_char_ascii. Qed.
Lemma not_word (c : N) : c < 128 -> (is_letter c || is_digit c || (c =? UNDERSCORE)) = false -> word_char alnum c = false.
Proof. intros H. by rewrite word_char_low. Qed.
Lemma word_neq (c k : N) : word_char alnum c = true -> k < 128 ->
  (is_letter k || is_digit k || (k =? UNDERSCORE)) = false -> c <> k.
Proof. intros H Hk Hf ->. by rewrite not_word in H. Qed.
Lemma letter_word (c : N) : is_letter c = true -> word_char alnum c = true.
Proof. intros H. rewrite word_char_low; [by rewrite H|]. unfold is_letter in H. lia. Qed.

(** A quote that is not closed has no token. *)
Lemma next_unclosed (q : N) (z : text) :
  is_quote q -> back_body [q] z = None -> next alnum odef (q :: z) = None.
Proof.
  intros Hq Hz. assert (Hs : string_token odef (q :: z) = None).
  { rewrite string_token_default. cbn [choice].
    destruct (quote_facts q Hq) as (Hl & _ & Hr & _ & _ & Ht & Hdl & HU).
    assert (Hraw : forall d, raw_string d (q :: z) = None).
    { intros d. unfold raw_string. unfold is_raw in Hr. by rewrite Hr. }
    assert (Huni : forall x, unicode_string x (q :: z) = None).
    { intros x. unfold unicode_string. change (str "U&") with [85; 38]. rewrite just_other; [done|congruence]. }
    rewrite !Hraw, !Huni. unfold escape_string. rewrite Hl, !just_one.
    unfold backtick_string, dollar_string.
    destruct Hq as [-> | ->]; [change (QUOTE =? DQUOTE) with false|change (DQUOTE =? QUOTE) with false];
      rewrite N.eqb_refl, Hz; done. }
  unfold next, line_comment, block_comment.
  change (str "--") with [45; 45]. change (str "/*") with [47; 42].
  rewrite !just_other by (by destruct Hq as [-> | ->]). rewrite Hs, not_word by (by destruct Hq as [-> | ->]).
  by destruct Hq as [-> | ->].
Qed.
Lemma next_blank (b : N) (s : text) :
  is_ws b = true -> exists k, next alnum odef (b :: s) = Some (Blank b k, skip (fun x => x =? b) s).
Proof.
  intros Hb. assert (Hcase : b = 32 \/ b = 10 \/ b = 13 \/ b = 9) by (unfold is_ws in Hb; lia).
  unfold next, line_comment, block_comment.
  change (str "--") with [45; 45]. change (str "/*") with [47; 42].
  rewrite !just_other by lia.
  rewrite nonletter_none by (destruct Hcase as [-> |[-> |[-> | ->]]]; done).
  rewrite not_word by (destruct Hcase as [-> |[-> |[-> | ->]]]; done).
  rewrite Hb. cbn [skip]. rewrite N.eqb_refl. by eexists.
Qed.
Lemma lex_unclosed (q : N) (z : text) (fuel : nat) (bl : text) :
  is_quote q -> back_body [q] z = None -> forallb is_blank bl = true ->
  lex_loop alnum odef fuel (bl ++ q :: z) = None.
Proof.
  intros Hq Hz. revert bl. induction fuel as [|fuel IH]; intros bl Hb.
  - by destruct bl.
  - destruct bl as [|b bl]; cbn [app lex_loop].
    + by rewrite next_unclosed.
    + cbn [forallb] in Hb. apply andb_true_iff in Hb as [Hb1 Hb2].
      destruct (next_blank b (bl ++ q :: z)) as [k ->].
      { unfold is_blank in Hb1. unfold is_ws. lia. }
      assert (Hsk : exists bl', skip (fun x => x =? b) (bl ++ q :: z) = bl' ++ q :: z /\ forallb is_blank bl' = true).
      { clear - Hb1 Hb2 Hq. induction bl as [|b' bl IH]; cbn [app skip].
        - destruct (N.eqb_spec q b) as [-> |].
          + by destruct (quote_facts b Hq) as (_ & Hbl & _); rewrite Hbl in Hb1.
          + by exists [].
        - cbn [forallb] in Hb2. apply andb_true_iff in Hb2 as [H1 H2].
          destruct (b' =? b); [by apply IH|]. exists (b' :: bl). cbn [forallb app]. by rewrite H1, H2. }
      destruct Hsk as (bl' & -> & Hbl'). by rewrite IH.
Qed.

(** The part of the input a token covers. *)
Lemma next_split (s r : text) (t : token) :
  next alnum odef s = Some (t, r) -> exists raw, s = raw ++ r /\ raw <> [] /\ slice s r = raw.
Proof.
  assert (Hsl : (exists raw, s = raw ++ r /\ raw <> []) -> exists raw, s = raw ++ r /\ raw <> [] /\ slice s r = raw).
  { intros (raw & -> & Hr). exists raw. by rewrite slice_app. }
  intros H. apply Hsl. clear Hsl. unfold next in H. destruct s as [|c s]; [done|].
  destruct (line_comment (c :: s)) as [r0|] eqn:E1.
  { injection H as _ ->. unfold line_comment in E1. change (str "--") with [45; 45] in E1.
    destruct (just [45; 45] (c :: s)) as [b|] eqn:Ej; [|done]. apply just_some in Ej.
    injection E1 as <-.
    destruct (skip_split (fun c => negb ((c =? 10) || (c =? 13))) b) as (a & Hb & _).
    exists ([45; 45] ++ a). split; [|done]. rewrite Ej. rewrite <- app_assoc. by rewrite <- Hb. }
  destruct (block_comment (c :: s)) as [r0|] eqn:E2.
  { injection H as _ ->. unfold block_comment in E2. change (str "/*") with [47; 42] in E2.
    destruct (just [47; 42] (c :: s)) as [b|] eqn:Ej; [|done]. apply just_some in Ej.
    apply comment_extend in E2 as (m & -> & _). exists ([47; 42] ++ m). by rewrite Ej, <- app_assoc. }
  destruct (string_token odef (c :: s)) as [[st r0]|] eqn:E3.
  { injection H as _ ->. apply string_token_read in E3 as (raw & Hs & Hr & _). by exists raw. }
  destruct (word_char alnum c) eqn:E4.
  { injection H as _ <-. cbn [skip]. rewrite E4.
    destruct (skip_split (word_char alnum) s) as (a & Hb & _). exists (c :: a). split; [|done].
    cbn [app]. by rewrite <- Hb. }
  destruct (is_ws c).
  { injection H as _ <-. cbn [skip]. rewrite N.eqb_refl.
    destruct (skip_split (fun x => x =? c) s) as (a & Hb & _). exists (c :: a). split; [|done].
    cbn [app]. by rewrite <- Hb. }
  destruct (is_punct c); [|done]. injection H as _ <-. by exists [c].
Qed.

(** A token other than a marker is read the same when markers after it are numbered. *)
Lemma next_marked (s r r' : text) (t : token) (fuel : nat) (l : list (token * text)) :
  DOLLAR ∉ s -> next alnum odef s = Some (t, r) -> t <> Punct QMARK -> marked r r' ->
  lex_loop alnum odef fuel r = Some l ->
  next alnum odef (slice s r ++ r') = Some (t, r').
Proof.
  intros Hd Hn Ht Hm Hlex. unfold next in Hn. destruct s as [|c s]; [done|].
  destruct (line_comment (c :: s)) as [r0|] eqn:E1.
  { injection Hn as <- ->. unfold line_comment in E1. change (str "--") with [45; 45] in E1.
    destruct (just [45; 45] (c :: s)) as [b|] eqn:Ej; [|done]. apply just_some in Ej.
    injection E1 as E1.
    destruct (skip_split (fun c => negb ((c =? 10) || (c =? 13))) b) as (a & Hb & Haa & Hh).
    rewrite E1 in Hb, Hh. subst b.
    replace (c :: s) with (([45; 45] ++ a) ++ r) by (by rewrite Ej, <- app_assoc).
    rewrite slice_app. unfold next, line_comment. change (str "--") with [45; 45]. cbn [app].
    rewrite (just_cons 45 [45] (a ++ r') : just [45; 45] (45 :: 45 :: a ++ r') = _).
    rewrite (skip_run _ a r'); [| exact Haa |].
    - change (45 :: 45 :: a ++ r') with ((45 :: 45 :: a) ++ r'). by rewrite slice_app.
    - by apply (marked_head (fun c => negb ((c =? 10) || (c =? 13)) = false) r r'). }
  destruct (block_comment (c :: s)) as [r0|] eqn:E2.
  { injection Hn as <- ->. unfold block_comment in E2. change (str "/*") with [47; 42] in E2.
    destruct (just [47; 42] (c :: s)) as [b|] eqn:Ej; [|done]. apply just_some in Ej.
    apply comment_extend in E2 as (m & -> & Hm2).
    replace (c :: s) with (([47; 42] ++ m) ++ r) by (by rewrite Ej, <- app_assoc).
    rewrite slice_app. unfold next, line_comment, block_comment.
    change (str "--") with [45; 45]. change (str "/*") with [47; 42]. cbn [app].
    rewrite just_other by done.
    rewrite (just_cons 47 [42] (m ++ r') : just [47; 42] (47 :: 42 :: m ++ r') = _). rewrite Hm2.
    change (47 :: 42 :: m ++ r') with ((47 :: 42 :: m) ++ r'). by rewrite slice_app. }
  destruct (string_token odef (c :: s)) as [[st r0]|] eqn:E3.
  { injection Hn as <- ->.
    destruct (string_extend _ _ _ Hd E3) as (c0 & x & Hs & H45 & H47 & _ & Ht1 & Hext).
    rewrite Hs, slice_app. apply next_string; [done|done| |done].
    apply Hext. intros Hb [y Hy]. apply (Ht1 Hb).
    pose proof (marked_head (fun c => c <> TICK) r r' Hm ltac:(done)) as Hh.
    rewrite Hy in Hh. destruct r as [|c1 r]; [by destruct (Hh I)|].
    destruct (N.eq_dec c1 TICK) as [-> |Hne]; [by eexists|]. by destruct (Hh Hne). }
  assert (Hcd : c <> DOLLAR) by (intros ->; apply Hd; constructor).
  destruct (word_char alnum c) eqn:E4.
  { cbv zeta in Hn. cbn [skip] in Hn. rewrite E4 in Hn. injection Hn as Hw Hr.
    destruct (skip_split (word_char alnum) s) as (a & Hs & Haa & Hh). rewrite Hr in Hs, Hh, Hw.
    rewrite Hs in E3. subst s. rewrite slice_cons in *. subst t. cbn [app].
    assert (Hh' : match r' with x :: _ => word_char alnum x = false | [] => True end).
    { apply (marked_head (fun x => word_char alnum x = false) r r'); [done| |done].
      intros _. by apply not_word. }
    assert (Hstr : string_token odef (c :: a ++ r') = None).
    { destruct (is_letter c) eqn:El.
      - destruct (letter_none_inv c (a ++ r) El E3) as [Hn1 Hn2]. apply letter_none; [done|..].
        + intros q z Hq. destruct (quote_facts q Hq) as (Hlq & Hbq & _).
          destruct a as [|x a]; cbn [app].
          * intros Hz. pose proof (marked_skip_blank r r' Hm) as Hms. rewrite Hz in Hms.
            destruct (skip_split is_blank r) as (bl & Hrb & Hbl & _).
            inversion Hms as [|c1 y y' Hy E5 E6|]; subst.
            -- cbn [app] in Hn1. specialize (Hn1 q y Hq (eq_sym E5)).
               rewrite Hrb, <- E5 in Hlex.
               by rewrite (lex_unclosed q y fuel bl Hq Hn1 Hbl) in Hlex.
            -- by destruct Hq.
          * cbn [forallb] in Haa. apply andb_true_iff in Haa as [Hx _]. cbn [skip].
            assert (is_blank x = false) as ->.
            { destruct (is_blank x) eqn:Eb; [|done]. unfold is_blank in Eb.
              apply orb_true_iff in Eb as [Eb|Eb]; apply N.eqb_eq in Eb as ->; by rewrite not_word in Hx. }
            intros [= -> _]. destruct Hq as [-> | ->]; by rewrite not_word in Hx.
        + intros -> q z Hq. destruct a as [|x a]; cbn [app].
          * intros ->. inversion Hm as [|c1 y y' Hy E5 E6|]; subst.
            inversion Hy as [|c2 z0 z1 Hz E7 E8|]; subst.
            -- specialize (Hn2 eq_refl q z0 Hq eq_refl).
               destruct fuel as [|fuel]; [done|]. cbn [lex_loop] in Hlex.
               assert (Hamp : next alnum odef (38 :: q :: z0) = Some (Punct 38, q :: z0)).
               { unfold next, line_comment, block_comment.
                 change (str "--") with [45; 45]. change (str "/*") with [47; 42].
                 rewrite !just_other by done. rewrite nonletter_none by done. by rewrite not_word. }
               rewrite Hamp in Hlex. by rewrite (lex_unclosed q z0 fuel [] Hq Hn2 eq_refl : lex_loop alnum odef fuel (q :: z0) = None) in Hlex.
            -- by destruct Hq.
          * cbn [forallb] in Haa. apply andb_true_iff in Haa as [Hx _].
            intros [= -> _]. by rewrite not_word in Hx.
      - apply nonletter_none; [done|..]; [by apply word_neq|by apply word_neq|by apply word_neq|done]. }
    unfold next, line_comment, block_comment.
    change (str "--") with [45; 45]. change (str "/*") with [47; 42].
    rewrite !just_other by (intros <-; by rewrite not_word in E4).
    rewrite Hstr, E4. cbn [skip]. rewrite E4, skip_run by done. by rewrite slice_cons. }
  destruct (is_ws c) eqn:E5.
  { cbv zeta in Hn. cbn [skip] in Hn. rewrite N.eqb_refl in Hn. injection Hn as Hw Hr.
    destruct (skip_split (fun x => x =? c) s) as (a & Hs & Haa & Hh). rewrite Hr in Hs, Hh, Hw.
    subst s. rewrite slice_cons. subst t. cbn [app].
    assert (Hcase : c = 32 \/ c = 10 \/ c = 13 \/ c = 9) by (unfold is_ws in E5; lia).
    unfold next, line_comment, block_comment.
    change (str "--") with [45; 45]. change (str "/*") with [47; 42].
    rewrite !just_other by lia.
    rewrite nonletter_none by (destruct Hcase as [-> |[-> |[-> | ->]]]; done).
    rewrite E4, E5. cbn [skip]. rewrite N.eqb_refl, skip_run; [|done|].
    - f_equal. f_equal. f_equal. cbn [length]. rewrite !app_length. lia.
    - apply (marked_head (fun x => (x =? c) = false) r r'); [done| |done].
      intros _. by destruct Hcase as [-> |[-> |[-> | ->]]]. }
  destruct (is_punct c) eqn:E6; [|done]. injection Hn as <- ->.
  rewrite (slice_app [c] r : slice (c :: r) r = [c]). cbn [app].
  unfold next. 
  assert (E1' : line_comment (c :: r') = None).
  { unfold line_comment in *. change (str "--") with [45; 45] in *.
    rewrite just_none_intro; [done|]. intros y [= -> ->].
    destruct r as [|c1 r]; [by inversion Hm|].
    apply marked_cons in Hm as [(y' & [= <- <-] & _)|(_ & n & y' & [=] & _)].
    by rewrite (just_cons 45 [45] r : just [45; 45] (45 :: 45 :: r) = _) in E1. }
  assert (E2' : block_comment (c :: r') = None).
  { unfold block_comment in *. change (str "/*") with [47; 42] in *.
    destruct (just [47; 42] (c :: r')) as [b|] eqn:Ej; [|done]. apply just_some in Ej.
    injection Ej as -> ->. destruct r as [|c1 r]; [by inversion Hm|].
    apply marked_cons in Hm as [(y' & [= <- <-] & Hm)|(_ & n & y' & [=] & _)].
    rewrite (just_cons 47 [42] r : just [47; 42] (47 :: 42 :: r) = _) in E2.
    eapply (marked_comment 0 r); [exact Hm|exact E2]. }
  rewrite E1', E2'.
  assert (El : is_letter c = false).
  { destruct (is_letter c) eqn:El; [|done]. by rewrite letter_word in E4. }
  assert (Hnq : c <> QUOTE /\ c <> DQUOTE /\ c <> TICK).
  { split_and!; intros ->; done. }
  destruct Hnq as (Hn1 & Hn2 & Hn3). rewrite nonletter_none by done. by rewrite E4, E5, E6.
Qed.

(** ** The numbered text *)

(** Every dollar sign is followed by a number above [n] and no further digit. *)
Definition numbers_after (n : N) (s : text) : Prop :=
  forall a z, s = a ++ DOLLAR :: z -> exists k z', n < k /\ z = decimal k ++ z' /\ no_digit_head z'.

Lemma numbers_after_app (n : N) (raw s : text) :
  DOLLAR ∉ raw -> numbers_after n s -> numbers_after n (raw ++ s).
Proof.
  intros Hr H. induction raw as [|c raw IH]; [done|].
  intros a z Hz. apply not_elem_of_cons in Hr as [Hc Hr].
  destruct a as [|c' a]; cbn [app] in Hz.
  - injection Hz as Hz _. congruence.
  - injection Hz as _ Hz. by apply (IH Hr a z).
Qed.
Lemma numbers_after_mark (n : N) (s : text) :
  numbers_after (n + 1) s -> no_digit_head s -> numbers_after n (DOLLAR :: decimal (n + 1) ++ s).
Proof.
  intros H Hh a z Hz. destruct a as [|c a]; cbn [app] in Hz.
  - injection Hz as <-. exists (n + 1), s. split_and!; [lia|done|done].
  - injection Hz as _ Hz.
    assert (Hd : DOLLAR ∉ decimal (n + 1)).
    { intros Hin. apply elem_of_list_In in Hin.
      by pose proof (proj1 (forallb_forall _ _) (decimal_digits (n + 1)) _ Hin). }
    destruct (numbers_after_app (n + 1) (decimal (n + 1)) s Hd H a z Hz) as (k & z' & Hk & Hz' & Hh').
    exists k, z'. split_and!; [lia|done|done].
Qed.

(** A numbered marker is no dollar-quoted string: its tag would need the same number again. *)
Lemma dollar_string_marker (n : N) (s : text) :
  numbers_after n s -> no_digit_head s -> dollar_string (DOLLAR :: decimal n ++ s) = None.
Proof.
  intros H Hh. unfold dollar_string. rewrite N.eqb_refl.
  assert (Hdg : forallb (fun c => negb (c =? DOLLAR)) (decimal n) = true).
  { apply forallb_forall. intros x Hx. pose proof (proj1 (forallb_forall _ _) (decimal_digits n) x Hx) as Hd.
    unfold is_digit in Hd. unfold DOLLAR. lia. }
  destruct (skip_split (fun c => negb (c =? DOLLAR)) s) as (w & Hs & Hw & Hd).
  assert (Hsk : skip (fun c => negb (c =? DOLLAR)) (decimal n ++ s) = skip (fun c => negb (c =? DOLLAR)) s).
  { rewrite Hs at 1. rewrite app_assoc. apply skip_run; [by rewrite forallb_app, Hdg, Hw|done]. }
  rewrite Hsk. destruct (skip (fun c => negb (c =? DOLLAR)) s) as [|c b]; [done|].
  apply negb_false_iff, N.eqb_eq in Hd as ->.
  assert (Hfull : DOLLAR :: decimal n ++ s = (DOLLAR :: decimal n ++ w ++ [DOLLAR]) ++ b).
  { rewrite Hs. cbn [app]. by rewrite <- !app_assoc. }
  rewrite Hfull, slice_app. set (tag := DOLLAR :: decimal n ++ w ++ [DOLLAR]).
  destruct (none_body tag b) as [r|] eqn:E; [|done]. exfalso.
  apply none_body_split in E as (m & -> & _).
  destruct (H (w ++ DOLLAR :: m) (decimal n ++ w ++ [DOLLAR] ++ r)) as (k & z' & Hk & Hz & Hz').
  { rewrite Hs. unfold tag. cbn [app]. repeat (rewrite <- app_assoc; cbn [app]). done. }
  apply digit_run in Hz; [|apply decimal_digits|apply decimal_digits| |done].
  - apply decimal_inj in Hz. lia.
  - destruct w as [|x w]; [done|]. rewrite Hs in Hh. exact Hh.
Qed.

Lemma next_dollar (n : N) (s : text) :
  numbers_after n s -> no_digit_head s ->
  next alnum odef ([DOLLAR] ++ decimal n ++ s) = Some (Punct DOLLAR, decimal n ++ s).
Proof.
  intros H Hh. cbn [app]. unfold next, line_comment, block_comment.
  change (str "--") with [45; 45]. change (str "/*") with [47; 42]. rewrite !just_other by done.
  rewrite nonletter_tail by done. unfold backtick_string. change (DOLLAR =? TICK) with false. cbn iota.
  rewrite dollar_string_marker by done. by rewrite not_word.
Qed.
Lemma next_number (n : N) (s : text) :
  match s with c :: _ => word_char alnum c = false | [] => True end ->
  next alnum odef (decimal n ++ s) = Some (Word (decimal n), s).
Proof.
  intros Hh. pose proof (decimal_digits n) as Hd. pose proof (decimal_nonempty n) as Hne.
  assert (Hw : forallb (word_char alnum) (decimal n) = true).
  { apply forallb_forall. intros x Hx. pose proof (proj1 (forallb_forall _ _) Hd x Hx) as Hxd.
    rewrite word_char_low; [by rewrite Hxd, orb_true_r|]. unfold is_digit in Hxd. lia. }
  assert (Hsk : skip (word_char alnum) (decimal n ++ s) = s) by (by apply skip_run).
  assert (Hsl : slice (decimal n ++ s) s = decimal n) by (by apply slice_app).
  destruct (decimal n) as [|c x]; [done|]. cbn [app] in *.
  cbn [forallb] in Hd, Hw. apply andb_true_iff in Hd as [Hc _], Hw as [Hwc _].
  assert (Hlt : 48 <= c <= 57) by (unfold is_digit in Hc; lia).
  unfold next, line_comment, block_comment.
  change (str "--") with [45; 45]. change (str "/*") with [47; 42]. rewrite !just_other by lia.
  rewrite nonletter_none; unfold QUOTE, DQUOTE, TICK, DOLLAR in *; try lia.
  - by rewrite Hwc, Hsk, Hsl.
  - unfold is_letter. lia.
Qed.

(** What follows a marker that stands apart is not part of a word. *)
Lemma apart_head (fuel : nat) (r : text) (l : list (token * text)) :
  DOLLAR ∉ r -> lex_loop alnum odef fuel r = Some l -> markers_apart (Punct QMARK :: map fst l) ->
  match r with c :: _ => word_char alnum c = false | [] => True end.
Proof.
  intros Hd Hl Ha'. destruct r as [|c r]; [done|]. destruct fuel as [|fuel]; [done|]. cbn [lex_loop] in Hl.
  destruct (next alnum odef (c :: r)) as [[t rest]|] eqn:En; [|done].
  destruct (lex_loop alnum odef fuel rest) as [l0|]; [|done]. injection Hl as <-.
  destruct (word_char alnum c) eqn:Ew; [|done]. exfalso. cbn [map fst] in Ha'.
  unfold next in En. unfold line_comment, block_comment in En.
  change (str "--") with [45; 45] in En. change (str "/*") with [47; 42] in En.
  rewrite !just_other in En by (intros <-; by rewrite not_word in Ew).
  destruct (string_token odef (c :: r)) as [[st r0]|] eqn:Es.
  - injection En as <- <-. apply string_extend in Es as (c0 & x & Hs & _ & _ & Hst & _); [|done].
    injection Hs as -> _. destruct Hst as [Hst|[-> |[-> | ->]]].
    + destruct st as [d [p|]|q e| |]; cbn in Hst; try done; cbn in Ha'; by destruct Ha' as [? _].
    + by rewrite not_word in Ew.
    + by rewrite not_word in Ew.
    + by rewrite not_word in Ew.
  - rewrite Ew in En. injection En as <- _. cbn in Ha'. by destruct Ha' as [? _].
Qed.
Lemma apart_tail (t : token) (l : list token) : markers_apart (t :: l) -> markers_apart l.
Proof.
  destruct t; [done..|]. destruct l as [|t' l]; [done|].
  destruct t' as [| | |raw [d [p|]|q e| |]| |]; cbn [markers_apart]; tauto.
Qed.

Lemma replace_marker (count : N) (raw : text) (l : list (token * text)) :
  replace_markers count ((Punct QMARK, raw) :: l) =
    (DOLLAR :: decimal (count + 1) ++ (replace_markers (count + 1) l).1, (replace_markers (count + 1) l).2).
Proof. cbn [replace_markers]. rewrite N.eqb_refl. by destruct (replace_markers (count + 1) l). Qed.
Lemma replace_other (count : N) (t : token) (raw : text) (l : list (token * text)) :
  t <> Punct QMARK ->
  replace_markers count ((t, raw) :: l) = (raw ++ (replace_markers count l).1, (replace_markers count l).2).
Proof.
  intros Ht. cbn [replace_markers]. destruct (replace_markers count l).
  destruct t as [| | | | |c]; try done. by destruct (N.eqb_spec c QMARK) as [-> |].
Qed.
Lemma numbered_other (count : N) (t : token) (l : list token) :
  t <> Punct QMARK -> numbered count (t :: l) = t :: numbered count l.
Proof.
  intros Ht. destruct t as [| | | | |c]; try done. cbn [numbered].
  by destruct (N.eqb_spec c QMARK) as [-> |].
Qed.

Lemma markers_step (fuel : nat) (s : text) (l : list (token * text)) (count : N) :
  DOLLAR ∉ s -> lex_loop alnum odef fuel s = Some l -> markers_apart (map fst l) ->
  let out := (replace_markers count l).1 in
  (replace_markers count l).2 = count + count_markers (map fst l) /\
  marked s out /\ numbers_after count out /\
  forall fuel', (length out <= fuel')%nat ->
    exists l', lex_loop alnum odef fuel' out = Some l' /\ map fst l' = numbered count (map fst l).
Proof.
  revert s l count. induction fuel as [|fuel IH]; intros s l count Hd Hl Hap.
  - destruct s as [|c s]; [|done]. injection Hl as <-. cbn. split_and!.
    + lia.
    + apply marked_nil.
    + intros a z H. by destruct a.
    + intros fuel' _. exists []. by destruct fuel'.
  - destruct s as [|c s].
    { injection Hl as <-. cbn. split_and!.
      - lia.
      - apply marked_nil.
      - intros a z H. by destruct a.
      - intros fuel' _. exists []. by destruct fuel'. }
    cbn [lex_loop] in Hl. destruct (next alnum odef (c :: s)) as [[t r]|] eqn:En; [|done].
    destruct (lex_loop alnum odef fuel r) as [l0|] eqn:El; [|done]. injection Hl as <-.
    destruct (next_split _ _ _ En) as (raw & Hs & Hraw & Hsl). rewrite Hsl.
    rewrite Hs in Hd. apply not_elem_of_app in Hd as [Hdraw Hdr].
    cbn [map fst] in Hap. pose proof (apart_tail _ _ Hap) as Hap'.
    assert (Hdec : t = Punct QMARK \/ t <> Punct QMARK).
    { destruct t as [| | | | |p]; try (by right). destruct (N.eq_dec p QMARK) as [-> |]; [by left|right; congruence]. }
    destruct Hdec as [-> |Ht].
    + assert (raw = [QMARK]) as ->.
      { unfold next in En. destruct (line_comment (c :: s)); [done|]. destruct (block_comment (c :: s)); [done|].
        destruct (string_token odef (c :: s)) as [[??]|]; [done|].
        destruct (word_char alnum c); [done|]. destruct (is_ws c); [done|].
        destruct (is_punct c); [|done]. injection En as -> ->.
        change (QMARK :: r) with ([QMARK] ++ r) in Hs. by apply app_inv_tail in Hs. }
      rewrite replace_marker. cbn [fst snd].
      destruct (IH r l0 (count + 1) Hdr El Hap') as (Hc & Hm & Hnum & Hlex).
      set (out := (replace_markers (count + 1) l0).1) in *.
      pose proof (apart_head fuel r l0 Hdr El Hap) as Hhead.
      assert (Hhead' : match out with c :: _ => word_char alnum c = false | [] => True end).
      { apply (marked_head (fun x => word_char alnum x = false) r out); [done| |done]. intros _. by apply not_word. }
      assert (Hnd : no_digit_head out).
      { destruct out as [|x out]; [done|]. cbn [no_digit_head]. destruct (is_digit x) eqn:Ex; [|done].
        rewrite word_char_low in Hhead'; [|unfold is_digit in Ex; lia]. rewrite Ex, orb_true_r in Hhead'. done. }
      split_and!.
      * rewrite Hc. unfold count_markers. cbn [map fst List.filter]. rewrite N.eqb_refl. cbn [length]. lia.
      * rewrite Hs. by apply marked_mark.
      * by apply numbers_after_mark.
      * intros fuel' Hf.
        change (DOLLAR :: decimal (count + 1) ++ out) with ([DOLLAR] ++ decimal (count + 1) ++ out) in *.
        destruct (lex_loop_step alnum odef fuel' [DOLLAR] (decimal (count + 1) ++ out) (Punct DOLLAR)
          ltac:(done) Hf (next_dollar _ _ Hnum Hnd)) as (f1 & Hf1 & ->).
        destruct (lex_loop_step alnum odef f1 (decimal (count + 1)) out (Word (decimal (count + 1)))
          (decimal_nonempty _) Hf1 (next_number _ _ Hhead')) as (f2 & Hf2 & ->).
        destruct (Hlex f2 Hf2) as (l' & -> & Hl'). eexists. split; [done|].
        cbn [map fst numbered]. by rewrite N.eqb_refl, Hl'.
    + rewrite replace_other by done. cbn [fst snd].
      destruct (IH r l0 count Hdr El Hap') as (Hc & Hm & Hnum & Hlex).
      set (out := (replace_markers count l0).1) in *.
      split_and!.
      * rewrite Hc. f_equal. unfold count_markers. cbn [map fst List.filter].
        destruct t as [| | | | |p]; try done. by destruct (N.eqb_spec p QMARK) as [-> |].
      * rewrite Hs. by apply marked_app.
      * by apply numbers_after_app.
      * intros fuel' Hf.
        assert (Hn' : next alnum odef (raw ++ out) = Some (t, out)).
        { rewrite <- Hsl. apply (next_marked (c :: s) r out t fuel l0); [|done..].
          rewrite Hs. by apply not_elem_of_app. }
        destruct (lex_loop_step alnum odef fuel' raw out t Hraw Hf Hn') as (f1 & Hf1 & ->).
        destruct (Hlex f1 Hf1) as (l' & -> & Hl'). eexists. split; [done|].
        cbn [map fst]. rewrite numbered_other by done. by rewrite Hl'.
Qed.

Theorem markers_rewritten (s : text) (l : list (token * text)) :
  DOLLAR ∉ s -> lex alnum odef s = Some l -> markers_apart (map fst l) ->
  exists out, rewrite_markers alnum s = Some (out, count_markers (map fst l)) /\
    exists l', lex alnum odef out = Some l' /\ map fst l' = numbered 0 (map fst l).
Proof.
  intros Hd Hl Hap. unfold rewrite_markers. rewrite Hl. unfold lex in Hl.
  destruct (markers_step (length s) s l 0 Hd Hl Hap) as (Hc & _ & _ & Hlex).
  destruct (replace_markers 0 l) as [out n] eqn:E. cbn [fst snd] in *.
  exists out. split; [f_equal; f_equal; lia|]. by apply (Hlex (length out)).
Qed.
End Lex.
