(** Literals with escapes, double-quoted names, and the variables of a statement. *)
From Coq Require Import NArith ZifyN Ascii String Lia ZifyBool.
From stdpp Require Import prelude list.
From Verif.Lib Require Import Text.
From Verif.Catalog Require Import QuoteModel.
From Verif.Sql Require Import LexModel LexSpec LexProofs NameProofs.
Local Open Scope N_scope.

(** ** Finding the end *)
Definition inert (q : N) (a : text) : Prop := Forall (fun c => c <> q /\ c <> BSLASH) a.
Lemma back_body_inert (q : N) (d a s : text) :
  head d = Some q -> inert q a -> back_body d (a ++ s) = back_body d s.
Proof.
  intros Hd Ha. destruct d as [|q' d]; [done|]. injection Hd as ->.
  induction Ha as [|c a [H1 H2] _ IH]; [done|]. cbn [app back_body].
  apply N.eqb_neq in H2. rewrite H2, just_other by congruence. exact IH.
Qed.
Lemma dual_body_inert (q : N) (a s : text) : inert q a -> dual_body q (a ++ s) = dual_body q s.
Proof.
  intros Ha. induction Ha as [|c a [H1 H2] _ IH]; [done|]. cbn [app dual_body].
  apply N.eqb_neq in H1, H2. by rewrite H2, H1.
Qed.
Lemma inert_hex (q : N) (k : nat) (n : N) : is_quote q -> inert q (hex_text k n).
Proof.
  intros Hq. apply list.Forall_forall. intros c Hc. apply elem_of_list_In in Hc.
  pose proof (proj1 (forallb_forall is_hex (hex_text k n)) (hex_text_hex k n) c Hc) as Hx.
  split; intros ->; [by destruct Hq as [-> | ->]|done].
Qed.
Lemma octal_facts (n : N) : n < 512 ->
  forallb is_octal (octal_text n) = true /\
  fold_left (fun a c => a * 8 + hex_digit c) (octal_text n) 0 = n.
Proof.
  intros H. unfold octal_text, is_octal, hex_digit, Text.is_digit. cbn [forallb fold_left].
  pose proof (N.div_mod' n 64). pose proof (N.mod_lt n 64 ltac:(done)).
  pose proof (N.div_mod' n 8). pose proof (N.mod_lt n 8 ltac:(done)).
  pose proof (N.div_mod' (n / 8) 8). pose proof (N.mod_lt (n / 8) 8 ltac:(done)).
  assert (n / 8 / 8 = n / 64) as E by (rewrite N.div_div; done). rewrite E in *.
  assert (n / 64 < 8) by (apply N.div_lt_upper_bound; lia).
  set (x := n / 64) in *. set (y := n / 8 mod 8) in *. set (z := n mod 8) in *. clearbody x y z.
  replace (48 <=? 48 + x) with true by lia. replace (48 + x <=? 57) with true by lia.
  replace (48 <=? 48 + y) with true by lia. replace (48 + y <=? 57) with true by lia.
  replace (48 <=? 48 + z) with true by lia. replace (48 + z <=? 57) with true by lia.
  cbn [andb]. split; [|lia]. rewrite !andb_true_iff. split_and!; lia.
Qed.
Lemma inert_octal (q n : N) : is_quote q -> n < 512 -> inert q (octal_text n).
Proof.
  intros Hq Hn. apply list.Forall_forall. intros c Hc. apply elem_of_list_In in Hc.
  pose proof (proj1 (forallb_forall is_octal (octal_text n)) (proj1 (octal_facts n Hn)) c Hc) as Hx.
  split; intros ->; [by destruct Hq as [-> | ->]|done].
Qed.
Lemma octal_head n : exists c r, octal_text n = c :: r.
Proof. by eexists _, _. Qed.

Lemma piece_back_body (q : N) (d s : text) (x : piece) :
  is_quote q -> head d = Some q -> piece_ok q x -> back_body d (piece_text x ++ s) = back_body d s.
Proof.
  intros Hq Hd Hx. destruct x; cbn [piece_text piece_ok] in *.
  - apply (back_body_inert q); [done|]. by constructor.
  - cbn [app back_body]. by rewrite N.eqb_refl.
  - pose proof (inert_octal q n Hq Hx) as Hi. unfold octal_text in *. cbn [app back_body]. rewrite N.eqb_refl.
    apply Forall_cons_1 in Hi as [_ Hi].
    exact (back_body_inert q d [_; _] s Hd Hi).
  - cbn [app back_body]. rewrite N.eqb_refl. by apply (back_body_inert q), inert_hex.
  - cbn [app back_body]. rewrite N.eqb_refl. by apply (back_body_inert q), inert_hex.
  - cbn [app back_body]. rewrite N.eqb_refl. by apply (back_body_inert q), inert_hex.
Qed.
Lemma piece_dual_body (q : N) (s : text) (x : piece) :
  is_quote q -> piece_ok q x -> dual_body q (piece_text x ++ s) = dual_body q s.
Proof.
  intros Hq Hx. destruct x; cbn [piece_text piece_ok] in *.
  - apply (dual_body_inert q). by constructor.
  - cbn [app dual_body]. by rewrite N.eqb_refl.
  - pose proof (inert_octal q n Hq Hx) as Hi. unfold octal_text in *. cbn [app dual_body]. rewrite N.eqb_refl.
    apply Forall_cons_1 in Hi as [_ Hi].
    exact (dual_body_inert q [_; _] s Hi).
  - cbn [app dual_body]. rewrite N.eqb_refl. by apply (dual_body_inert q), inert_hex.
  - cbn [app dual_body]. rewrite N.eqb_refl. by apply (dual_body_inert q), inert_hex.
  - cbn [app dual_body]. rewrite N.eqb_refl. by apply (dual_body_inert q), inert_hex.
Qed.
Definition body_text (l : list piece) : text := flat_map piece_text l.
Lemma pieces_body (o : options) (q : N) (l : list piece) (rest : text) :
  is_quote q -> Forall (piece_ok q) l -> (~ starts_with_char q rest) ->
  (if o.(dual_quote) then dual_body q else back_body [q]) (body_text l ++ q :: rest) = Some rest.
Proof.
  intros Hq Hl Hr. induction Hl as [|x l Hx _ IH].
  - destruct (dual_quote o); [by apply (dual_body_doubled q [] rest)|].
    by apply (back_body_escaped q [q] [] rest).
  - change (body_text (x :: l)) with (piece_text x ++ body_text l). rewrite <- app_assoc.
    destruct (dual_quote o); [rewrite piece_dual_body|rewrite (piece_back_body q)]; done.
Qed.
Lemma body_head (q : N) (l : list piece) (s' : text) :
  is_quote q -> Forall (piece_ok q) l -> body_text l <> q :: s'.
Proof.
  intros Hq Hl. destruct Hl as [|x l Hx _]; [done|].
  change (body_text (x :: l)) with (piece_text x ++ body_text l). intros E.
  destruct x; cbn [piece_text app piece_ok] in *; injection E as E _.
  - by destruct Hx.
  - by destruct Hq as [-> | ->].
  - by destruct Hq as [-> | ->].
  - by destruct Hq as [-> | ->].
  - by destruct Hq as [-> | ->].
  - by destruct Hq as [-> | ->].
Qed.

(** ** Decoding *)
Definition code_char (n : N) : char := if bool_decide (n <= 0x10FFFF /\ ¬ (0xD800 <= n <= 0xDFFF)) then One n else Bad.
Lemma code_char_scalar n : (if is_scalar n then One n else Bad) = code_char n.
Proof.
  unfold code_char, is_scalar. destruct (bool_decide_reflect (n <= 0x10FFFF /\ ¬ (0xD800 <= n <= 0xDFFF))) as [H|H].
  - replace ((n <? 55296) || ((57344 <=? n) && (n <=? 1114111))) with true by lia. done.
  - replace ((n <? 55296) || ((57344 <=? n) && (n <=? 1114111))) with false by lia. done.
Qed.
Definition piece_char (x : piece) : char :=
  match x with
  | PChar c => One c
  | PEscape e => match escape_value e with [a] => One a | [a; b] => Two a b | _ => Bad end
  | POctal n | PHex2 n | PHex4 n | PHex8 n => code_char n
  end.
Lemma run_hex_full (k : nat) (n : N) (s : text) : run is_hex k (hex_text k n ++ s) = (hex_text k n, s).
Proof. pose proof (run_all is_hex (hex_text k n) s (hex_text_hex k n)) as H. by rewrite hex_text_length in H. Qed.
Lemma from_str_code (k : nat) (n : N) : n < 16 ^ N.of_nat k -> from_str 16 (hex_text k n) = code_char n.
Proof. intros H. unfold from_str. rewrite hex_text_value by done. apply code_char_scalar. Qed.
Lemma from_str_octal (n : N) : n < 512 -> from_str 8 (octal_text n) = code_char n.
Proof. intros H. unfold from_str. rewrite (proj2 (octal_facts n H)). apply code_char_scalar. Qed.

Lemma back_char_escape (d s : text) (e : N) :
  ¬ (48 <= e <= 55) -> e <> 120 -> e <> 117 -> e <> 85 ->
  back_char d (BSLASH :: e :: s) = Some (piece_char (PEscape e), s).
Proof.
  intros H1 H2 H3 H4. unfold back_char. rewrite N.eqb_refl.
  destruct (run is_octal 3 (e :: s)), (run is_hex 2 s), (run is_hex 4 s), (run is_hex 8 s).
  assert (is_octal e = false) as -> by (unfold is_octal; lia).
  apply N.eqb_neq in H2, H3, H4. rewrite H2, H3, H4. cbn [andb].
  unfold piece_char, escape_value. cbn [find fst].
  rewrite !(N.eqb_sym _ e).
  destruct (N.eqb_spec e QUOTE) as [->|]; [done|]. destruct (N.eqb_spec e DQUOTE) as [->|]; [done|].
  destruct (N.eqb_spec e QMARK) as [->|]; [done|]. destruct (N.eqb_spec e BSLASH) as [->|]; [done|].
  destruct (N.eqb_spec e 98) as [->|]; [done|]. destruct (N.eqb_spec e 110) as [->|]; [done|].
  destruct (N.eqb_spec e 114) as [->|]; [done|]. destruct (N.eqb_spec e 116) as [->|]; [done|].
  destruct (N.eqb_spec e 90) as [->|]; [done|]. destruct (N.eqb_spec e 37) as [->|]; [done|].
  by destruct (N.eqb_spec e 95) as [->|].
Qed.
Lemma back_char_piece (q : N) (d s : text) (x : piece) :
  is_quote q -> head d = Some q -> piece_ok q x -> back_char d (piece_text x ++ s) = Some (piece_char x, s).
Proof.
  intros Hq Hd Hx. destruct x; cbn [piece_text piece_ok] in *.
  - destruct Hx as [H1 H2]. cbn [app]. rewrite back_char_plain; [done|done|].
    destruct d as [|q' d]; [done|]. injection Hd as ->. apply just_other. congruence.
  - destruct Hx as (H1 & H2 & H3 & H4). by apply back_char_escape.
  - cbn [app]. change (BSLASH :: octal_text n ++ s) with (BSLASH :: (48 + n / 64) :: [48 + n / 8 mod 8; 48 + n mod 8] ++ s).
    unfold back_char. rewrite N.eqb_refl.
    pose proof (run_all is_octal (octal_text n) s (proj1 (octal_facts n Hx))) as Hr.
    change (length (octal_text n)) with 3%nat in Hr.
    change (octal_text n ++ s) with ((48 + n / 64) :: [48 + n / 8 mod 8; 48 + n mod 8] ++ s) in Hr. rewrite Hr.
    destruct (run is_hex 2 _), (run is_hex 4 _), (run is_hex 8 _).
    assert (n / 64 < 8) by (apply N.div_lt_upper_bound; lia).
    set (e := 48 + n / 64). assert (48 <= e <= 55) as He by (unfold e; lia). clearbody e.
    assert (is_octal e = true) as -> by (unfold is_octal; lia).
    replace (e =? QUOTE) with false by (unfold QUOTE; lia). replace (e =? DQUOTE) with false by (unfold DQUOTE; lia).
    replace (e =? QMARK) with false by (unfold QMARK; lia). replace (e =? BSLASH) with false by (unfold BSLASH; lia).
    replace (e =? 98) with false by lia. replace (e =? 110) with false by lia. replace (e =? 114) with false by lia.
    replace (e =? 116) with false by lia. replace (e =? 90) with false by lia. replace (e =? 37) with false by lia.
    replace (e =? 95) with false by lia. by rewrite from_str_octal.
  - cbn [app]. unfold back_char. rewrite N.eqb_refl.
    rewrite (run_stop is_octal 3 120) by done. rewrite run_hex_full.
    destruct (run is_hex 4 _), (run is_hex 8 _).
    assert (hex_text 2 n <> []) as Hne by (intros E; apply (f_equal length) in E; by rewrite hex_text_length in E).
    rewrite (bool_decide_false (hex_text 2 n = [])) by done. cbn -[hex_text from_str].
    by rewrite from_str_code.
  - cbn [app]. unfold back_char. rewrite N.eqb_refl.
    rewrite (run_stop is_octal 3 117) by done. rewrite run_hex_full.
    destruct (run is_hex 2 _), (run is_hex 8 _).
    rewrite hex_text_length. cbn -[hex_text from_str].
    by rewrite from_str_code.
  - cbn [app]. unfold back_char. rewrite N.eqb_refl.
    rewrite (run_stop is_octal 3 85) by done. rewrite run_hex_full.
    destruct (run is_hex 2 _), (run is_hex 4 _).
    rewrite hex_text_length. cbn -[hex_text from_str].
    by rewrite from_str_code.
Qed.
Lemma piece_cons (q : N) (x : piece) : is_quote q -> piece_ok q x -> exists c s, piece_text x = c :: s /\ c <> q.
Proof.
  intros Hq Hx. destruct x; cbn in Hx; eexists _, _; (split; [done|]).
  - by destruct Hx.
  - by destruct Hq as [-> | ->].
  - by destruct Hq as [-> | ->].
  - by destruct Hq as [-> | ->].
  - by destruct Hq as [-> | ->].
  - by destruct Hq as [-> | ->].
Qed.
Lemma chars_pieces (ch : text -> option (char * text)) (q : N) (l : list piece) (fuel : nat) :
  is_quote q -> ch [q] = None -> (forall x s, piece_ok q x -> ch (piece_text x ++ s) = Some (piece_char x, s)) ->
  Forall (piece_ok q) l -> (length (body_text l ++ [q]) <= fuel)%nat ->
  chars ch fuel (body_text l ++ [q]) = (map piece_char l, [q]).
Proof.
  intros Hq Hend Hch Hl. revert fuel. induction Hl as [|x l Hx _ IH]; intros fuel Hf.
  - cbn [body_text flat_map app map] in *. destruct fuel; cbn [chars]; [done|]. by rewrite Hend.
  - change (body_text (x :: l)) with (piece_text x ++ body_text l) in *. rewrite <- app_assoc in *.
    destruct (piece_cons q x Hq Hx) as (c & s & E & _). rewrite app_length in Hf.
    destruct fuel as [|fuel]; [rewrite E in Hf; cbn [length] in Hf; lia|]. cbn [chars map].
    rewrite Hch by done. rewrite IH; [done|]. rewrite E in Hf. cbn [length] in Hf. lia.
Qed.
Lemma collect_pieces (l : list piece) : collect (map piece_char l) = (fun vs => concat vs) <$> mapM piece_value l.
Proof.
  induction l as [|x l IH]; [done|]. cbn [map collect mapM].
  assert (forall n r, match code_char n with One c => match collect r with Some v => Some (c :: v) | None => None end
            | Two a b => match collect r with Some v => Some (a :: b :: v) | None => None end | Bad => None end =
          v ← code_point n; w ← collect r; Some (v ++ w)) as Hcode.
  { intros n r. unfold code_char, code_point. destruct (bool_decide _); [|done]. cbn. by destruct (collect r). }
  assert (collect (piece_char x :: map piece_char l) = v ← piece_value x; w ← collect (map piece_char l); Some (v ++ w)) as H.
  { destruct x; cbn [piece_char piece_value collect]; [| |apply Hcode..].
    - cbn. by destruct (collect (map piece_char l)).
    - unfold escape_value. cbn [find fst].
      repeat match goal with |- context [?a =? e] => destruct (a =? e); [cbn; by destruct (collect (map piece_char l))|] end.
      cbn. by destruct (collect (map piece_char l)). }
  change (match piece_char x with One c => match collect (map piece_char l) with Some v => Some (c :: v) | None => None end
            | Two a b => match collect (map piece_char l) with Some v => Some (a :: b :: v) | None => None end | Bad => None end)
    with (collect (piece_char x :: map piece_char l)).
  rewrite H, IH. destruct (piece_value x) as [v|]; [|done]. cbn. by destruct (mapM piece_value l).
Qed.

Theorem pieces_read (alnum : N -> bool) (o : options) (p : option N) (blanks : text) (q : N) (l : list piece) (rest : text) :
  is_quote q -> plain_prefix p -> forallb is_blank blanks = true -> (~ starts_with_char q rest) ->
  Forall (piece_ok q) l ->
  let lit := prefix_text p blanks ++ in_quotes [q] (flat_map piece_text l) in
  exists st, next alnum o (lit ++ rest) = Some (Str lit st, rest) /\
    decode o st lit = match mapM piece_value l with Some vs => Valid (concat vs) p | None => InvalidChar end.
Proof.
  intros Hq Hp Hb Hr Hl lit. exists (Quoted [q] p). unfold lit, in_quotes. change (flat_map piece_text l) with (body_text l). split.
  - destruct (prefix_head p blanks (body_text l ++ q :: rest) q Hp Hq) as (c & s' & He & H1 & H2).
    assert (Hsplit : (prefix_text p blanks ++ [q] ++ body_text l ++ [q]) ++ rest =
      prefix_text p blanks ++ q :: body_text l ++ q :: rest).
    { rewrite <- app_assoc. cbn [app]. by rewrite <- app_assoc. }
    rewrite Hsplit, He. apply next_string; [done|done| |by rewrite Hsplit, He].
    rewrite <- He. apply string_token_quoted; [done..| |].
    + intros s''. by apply body_head.
    + by apply pieces_body.
  - rewrite (decode_prefixed o p blanks q [q] (body_text l ++ [q])) by done.
    unfold decode_text. rewrite just_app.
    rewrite (chars_pieces _ q l _ Hq) by
      (try done; first
        [destruct (dual_quote o); cbn [andb];
          [rewrite bool_decide_true by done; by apply dual_char_end|by apply (back_char_delimiter q [] [])]
        |intros x s Hx; destruct (dual_quote o); cbn [andb];
          [rewrite bool_decide_true by done; destruct (piece_cons q x Hq Hx) as (c & r & E & Hc);
           pose proof (back_char_piece q [q] s x Hq eq_refl Hx) as Hbc; rewrite E in *; cbn [app] in *;
           by rewrite dual_char_other
          |by apply (back_char_piece q)]]).
    rewrite just_refl, collect_pieces. by destruct (mapM piece_value l).
Qed.

(** ** Names in double quotes *)
Lemma double_quoted_name (alnum : N -> bool) (o : options) (s : text) :
  parse_object_name alnum o (in_quotes [DQUOTE] (escaped DQUOTE s)) =
  if double_quote_ident o then Some [s] else None.
Proof.
  pose proof (quoted_reads alnum o None [] DQUOTE s [] ltac:(by right) I eq_refl ltac:(by intros [])) as (st & Hn & Hd).
  cbn [prefix_text app] in *. rewrite app_nil_r in Hn.
  assert (st = Quoted [DQUOTE] None) as ->.
  { pose proof (pieces_read alnum o None [] DQUOTE (map (fun c => if (c =? DQUOTE) || (c =? BSLASH) then PEscape c else PChar c) s) []
      ltac:(by right) I eq_refl ltac:(by intros [])) as Hp.
    assert (flat_map piece_text (map (fun c => if (c =? DQUOTE) || (c =? BSLASH) then PEscape c else PChar c) s) = escaped DQUOTE s) as E.
    { clear. induction s as [|c s IH]; [done|]. rewrite escaped_cons, <- IH. cbn [map flat_map].
      by destruct ((c =? DQUOTE) || (c =? BSLASH)). }
    rewrite E in Hp. clear Hp.
    pose proof (string_token_quoted o None [] DQUOTE (escaped DQUOTE s) [] I eq_refl ltac:(by right) ltac:(by intros [])
      ltac:(intros s'; apply escaped_head; by right)) as Ht.
    assert ((if dual_quote o then dual_body DQUOTE else back_body [DQUOTE]) (escaped DQUOTE s ++ [DQUOTE]) = Some []) as Hb.
    { destruct (dual_quote o); [apply dual_body_escaped; [by right|by intros []]|].
      apply (back_body_escaped DQUOTE [DQUOTE] s []); [by right|done]. }
    specialize (Ht Hb). cbn [prefix_text app] in Ht.
    unfold in_quotes in Hn. cbn [app] in Hn.
    rewrite (next_string alnum o DQUOTE (escaped DQUOTE s ++ [DQUOTE]) (Quoted [DQUOTE] None)
      (DQUOTE :: escaped DQUOTE s ++ [DQUOTE]) []) in Hn; [|done|done|done|by rewrite app_nil_r].
    by injection Hn as <-. }
  unfold parse_object_name, lex. destruct (in_quotes [DQUOTE] (escaped DQUOTE s)) as [|c r] eqn:E; [done|].
  cbn [length lex_loop]. rewrite Hn.
  assert (lex_loop alnum o (length r) [] = Some []) as -> by by destruct (length r).
  cbn -[decode]. rewrite Hd. unfold is_identifier_string. destruct (double_quote_ident o); done.
Qed.

(** ** White space and comments in names *)
Lemma string_token_none (o : options) (c : N) (s : text) :
  LexModel.is_letter c = false -> c <> QUOTE -> c <> DQUOTE -> c <> TICK -> c <> DOLLAR ->
  string_token o (c :: s) = None.
Proof.
  intros Hl H1 H2 H3 H4.
  assert ((c =? 114) || (c =? 82) = false) as Hr.
  { destruct (N.eqb_spec c 114) as [->|]; [done|]. by destruct (N.eqb_spec c 82) as [->|]. }
  assert (c <> 85) as Hu by by intros ->.
  assert (forall a d s', a = QUOTE \/ a = DQUOTE -> just (a :: d) (c :: s') = None) as Hj.
  { intros a d s' [->| ->]; apply just_other; congruence. }
  assert (forall a d, a = QUOTE \/ a = DQUOTE -> raw_string (a :: d) (c :: s) = None) as Hraw
    by (intros; unfold raw_string; by rewrite Hr).
  assert (forall b a d, a = QUOTE \/ a = DQUOTE -> escape_string b (a :: d) (c :: s) = None) as Hesc
    by (intros; unfold escape_string; rewrite Hl, Hj; done).
  unfold string_token. rewrite choice_app.
  - cbn [choice]. rewrite !Hraw, !Hesc by auto. unfold unicode_string, backtick_string, dollar_string.
    change (str "U&") with [85; 38]. rewrite !just_other by congruence.
    apply N.eqb_neq in H3, H4. by rewrite H3, H4.
  - destruct (triple_quote o); [|done]. cbn [choice]. unfold T_QUOTE, T_DQUOTE.
    by rewrite !Hraw, !Hesc by auto.
Qed.
Lemma next_spaces (alnum : N -> bool) (o : options) (k : nat) (rest : text) :
  ascii_alnum alnum -> head rest <> Some 32 ->
  exists t, next alnum o (repeat 32%N (S k) ++ rest) = Some (t, rest) /\ is_whitespace t = true.
Proof.
  intros Ha Hr. exists (Blank 32 (length (repeat 32%N (S k) ++ rest) - length rest)). split; [|done].
  cbn [repeat app]. unfold next, line_comment, block_comment.
  change (str "--") with [45; 45]. change (str "/*") with [47; 42]. rewrite !just_other by done.
  rewrite string_token_none by done. rewrite word_char_ascii by done. cbn -[skip length repeat].
  assert (skip (fun x => x =? 32) (32 :: repeat 32%N k ++ rest) = rest) as ->; [|done].
  apply (skip_run _ (32 :: repeat 32%N k)).
  - cbn [forallb]. apply forallb_forall. intros x Hx. apply repeat_spec in Hx as ->. done.
  - destruct rest as [|c r]; [done|]. apply N.eqb_neq. by intros ->.
Qed.
Lemma comment_body_plain (body rest : text) :
  Forall (fun c => c <> 42 /\ c <> 47) body -> comment_body 0 (body ++ 42 :: 47 :: rest) = Some rest.
Proof.
  induction 1 as [|c body [H1 H2] Hb IH]; [done|]. apply N.eqb_neq in H1, H2.
  cbn [app comment_body]. destruct (body ++ 42 :: 47 :: rest) as [|c' r] eqn:E.
  - by destruct body.
  - rewrite H1, H2. exact IH.
Qed.
Lemma next_comment (alnum : N -> bool) (o : options) (body rest : text) :
  Forall (fun c => c <> 42 /\ c <> 47) body ->
  exists t, next alnum o (comment_text body ++ rest) = Some (t, rest) /\ is_whitespace t = true.
Proof.
  intros Hb. eexists (BlockComment _). split; [|done]. unfold comment_text.
  change (str "/*") with [47; 42]. change (str "*/") with [42; 47].
  rewrite <- !app_assoc. cbn [app]. unfold next, line_comment.
  change (str "--") with [45; 45]. rewrite just_other by done.
  unfold block_comment. change (str "/*") with [47; 42].
  change (47 :: 42 :: body ++ 42 :: 47 :: rest) with ([47; 42] ++ body ++ 42 :: 47 :: rest).
  rewrite just_app, comment_body_plain by done. reflexivity.
Qed.
Lemma lex_gap (alnum : N -> bool) (o : options) (g : gap) (rest : text) (fuel : nat) :
  ascii_alnum alnum -> gap_ok g -> head rest <> Some 32 -> (length (gap_text g ++ rest) <= fuel)%nat ->
  exists fuel' l', (length rest <= fuel')%nat /\ significant l' = [] /\
    lex_loop alnum o fuel (gap_text g ++ rest) =
      match lex_loop alnum o fuel' rest with Some l => Some (l' ++ l) | None => None end.
Proof.
  intros Ha Hg Hr. unfold gap_text, gap_ok in *. destruct g as [cs k]. cbn [gap_comments gap_spaces] in *.
  assert (forall (k : nat) (r : text) (f : nat), head r <> Some 32 -> (length (repeat 32%N k ++ r) <= f)%nat ->
    exists f' l', (length r <= f')%nat /\ significant l' = [] /\
      lex_loop alnum o f (repeat 32%N k ++ r) =
      match lex_loop alnum o f' r with Some l => Some (l' ++ l) | None => None end) as Hsp.
  { intros [|k'] r f Hh Hf.
    - exists f, []. cbn [repeat app] in *. split; [done|]. split; [done|]. by destruct (lex_loop _ _ _ _).
    - destruct (next_spaces alnum o k' r Ha Hh) as (t & Hn & Hw).
      destruct (lex_loop_step alnum o f (repeat 32%N (S k')) r t ltac:(done) Hf Hn) as (f' & Hf' & Hl).
      exists f', [(t, repeat 32%N (S k'))]. split; [done|]. split; [|exact Hl].
      unfold significant. cbn [map fst List.filter]. by rewrite Hw. }
  revert fuel. induction Hg as [|[j body] cs Hb _ IH]; intros fuel Hf.
  - cbn [flat_map app] in *. by apply Hsp.
  - cbn [flat_map fst snd] in *. rewrite <- !app_assoc in *.
    destruct (Hsp j (comment_text body ++ flat_map (fun x : nat * text => repeat 32%N x.1 ++ comment_text x.2) cs ++ repeat 32%N k ++ rest) fuel)
      as (f1 & l1 & Hf1 & Hs1 & Hl1); [done|done|]. rewrite Hl1.
    destruct (next_comment alnum o body (flat_map (fun x : nat * text => repeat 32%N x.1 ++ comment_text x.2) cs ++ repeat 32%N k ++ rest) Hb)
      as (t & Hn & Hw).
    destruct (lex_loop_step alnum o f1 (comment_text body) _ t ltac:(done) Hf1 Hn) as (f2 & Hf2 & Hl2). rewrite Hl2.
    destruct (IH f2) as (f3 & l3 & Hf3 & Hs3 & Hl3).
    { done. }
    rewrite Hl3.
    exists f3, (l1 ++ (t, comment_text body) :: l3). split; [done|]. split.
    + unfold significant in *. rewrite map_app, List.filter_app, Hs1. cbn [map fst List.filter app]. by rewrite Hw.
    + destruct (lex_loop alnum o f3 rest); [|done]. by rewrite <- app_assoc.
Qed.
Lemma quote_name_head (s r : text) : head (quote_name s ++ r) <> Some 32.
Proof.
  unfold quote_name. destruct (valid_identifier s) eqn:E; [|done].
  destruct s as [|c s]; [done|]. intros [= ->]. done.
Qed.
Lemma object_name_spaced (alnum : N -> bool) (o : options) (l : list (gap * text)) (fuel : nat) :
  ascii_alnum alnum -> Forall (fun x => gap_ok x.1) l -> l <> [] -> (length (spaced quote_name l) <= fuel)%nat ->
  exists ts, lex_loop alnum o fuel (spaced quote_name l) = Some ts /\ object_name o (significant ts) = Some (map snd l).
Proof.
  intros Ha Hg. revert fuel. induction Hg as [|[g s] l Hg _ IH]; intros fuel Hne Hf; [done|].
  cbn [fst] in Hg. destruct l as [|x l].
  - cbn [spaced] in *.
    destruct (lex_gap alnum o g (quote_name s) fuel Ha Hg) as (f0 & l0 & Hf0 & Hs0 & Hl0);
      [by rewrite <- (app_nil_r (quote_name s)); apply quote_name_head|done|]. rewrite Hl0.
    destruct (next_name alnum o s [] Ha (or_introl eq_refl)) as (t & Hn & Hi & Hw).
    rewrite <- (app_nil_r (quote_name s)) in Hf0 |- *.
    destruct (lex_loop_step alnum o f0 (quote_name s) [] t (quote_name_nonempty s) Hf0 Hn) as (f & _ & Hl).
    rewrite Hl. replace (lex_loop alnum o f []) with (Some ([] : list (token * text))) by (by destruct f).
    eexists. split; [done|]. unfold significant in *. rewrite map_app, List.filter_app, Hs0.
    cbn [map fst List.filter app]. rewrite Hw. cbn [negb object_name]. by rewrite Hi.
  - change (spaced quote_name ((g, s) :: x :: l)) with
      (gap_text g ++ quote_name s ++ PERIOD :: spaced quote_name (x :: l)) in *.
    set (tail := spaced quote_name (x :: l)) in *.
    destruct (lex_gap alnum o g (quote_name s ++ PERIOD :: tail) fuel Ha Hg (quote_name_head _ _) Hf) as (f0 & l0 & Hf0 & Hs0 & Hl0).
    rewrite Hl0.
    destruct (next_name alnum o s (PERIOD :: tail) Ha) as (t & Hn & Hi & Hw); [by right; eexists|].
    destruct (lex_loop_step alnum o f0 (quote_name s) (PERIOD :: tail) t (quote_name_nonempty s) Hf0 Hn)
      as (f & Hf1 & Hl).
    rewrite Hl.
    destruct (lex_loop_step alnum o f [PERIOD] tail (Punct PERIOD)) as (f2 & Hf2 & Hl2);
      [done|done|by apply next_period|].
    cbn [app] in Hl2. rewrite Hl2.
    destruct (IH f2 ltac:(done) Hf2) as (l1 & Hl3 & Ho). rewrite Hl3.
    eexists. split; [done|]. unfold significant in *. rewrite map_app, List.filter_app, Hs0.
    cbn [map fst List.filter is_whitespace negb app]. rewrite Hw.
    cbn [negb object_name]. rewrite Hi, N.eqb_refl, Ho. done.
Qed.
Theorem spaced_name (alnum : N -> bool) (o : options) (l : list (gap * text)) :
  ascii_alnum alnum -> Forall (fun x => gap_ok x.1) l -> l <> [] ->
  parse_object_name alnum o (spaced quote_name l) = Some (map snd l).
Proof.
  intros Ha Hg Hn. unfold parse_object_name, lex.
  destruct (object_name_spaced alnum o l _ Ha Hg Hn (le_n _)) as (ts & Hl & Ho). by rewrite Hl.
Qed.

(** ** Variables *)
Definition named (l : list token) (v : text) : Prop :=
  exists l1 p w l2, l = l1 ++ Punct p :: Word w :: l2 /\ (p = DOLLAR \/ p = COLON) /\ v = p :: w.
Lemma named_cons (t : token) (l : list token) (v : text) :
  named (t :: l) v <->
  (exists p w l2, t = Punct p /\ l = Word w :: l2 /\ (p = DOLLAR \/ p = COLON) /\ v = p :: w) \/ named l v.
Proof.
  split.
  - intros ([|t' l1] & p & w & l2 & E & H).
    + cbn [app] in E. injection E as -> ->. left. by exists p, w, l2.
    + cbn [app] in E. injection E as -> ->. right. by exists l1, p, w, l2.
  - intros [(p & w & l2 & -> & -> & H)|(l1 & p & w & l2 & -> & H)].
    + by exists [], p, w, l2.
    + by exists (t :: l1), p, w, l2.
Qed.
Lemma variables_cons (t : token) (l : list token) (v : text) :
  v ∈ variables (t :: l) <->
  (exists p w l2, t = Punct p /\ l = Word w :: l2 /\ (p = DOLLAR \/ p = COLON) /\ v = p :: w) \/
  (t = Punct QMARK /\ v = [QMARK]) \/ v ∈ variables l.
Proof.
  destruct t as [r|r|r|r s|c k|p];
    try (cbn [variables]; split; [by right; right|intros [(p & w & l2 & [=] & _)|[[[=] _]|H]]; exact H]).
  destruct (match l with Word _ :: _ => true | _ => false end) eqn:Hl.
  - destruct l as [|[w|r|r|r s|c k|p'] l]; try discriminate.
    change (variables (Punct p :: Word w :: l)) with
      (if (p =? DOLLAR) || (p =? COLON) then (p :: w) :: variables (Word w :: l)
       else if p =? QMARK then [QMARK] :: variables (Word w :: l) else variables (Word w :: l)).
    destruct (N.eqb_spec p DOLLAR) as [->|H1]; [|destruct (N.eqb_spec p COLON) as [->|H2]; [|destruct (N.eqb_spec p QMARK) as [->|H3]]];
      cbn [orb]; rewrite ?elem_of_cons.
    + split; [intros [->|H]; [left; by exists DOLLAR, w, l; auto|by right; right]|].
      intros [(p & w' & l2 & [= <-] & [= <- <-] & _ & ->)|[[[=] _]|H]]; [by left|by right].
    + split; [intros [->|H]; [left; by exists COLON, w, l; auto|by right; right]|].
      intros [(p & w' & l2 & [= <-] & [= <- <-] & _ & ->)|[[[=] _]|H]]; [by left|by right].
    + split; [intros [->|H]; [by right; left|by right; right]|].
      intros [(p & w' & l2 & [= <-] & _ & [[=]|[=]] & _)|[[_ ->]|H]]; [by left|by right].
    + split; [by right; right|].
      intros [(p' & w' & l2 & [= <-] & _ & [->| ->] & _)|[[[= ->] _]|H]]; done.
  - assert (variables (Punct p :: l) = if p =? QMARK then [QMARK] :: variables l else variables l) as ->
      by (destruct l as [|[] l]; done).
    assert (forall w l2, l <> Word w :: l2) as Hw by (intros w l2 ->; done).
    destruct (N.eqb_spec p QMARK) as [->|H3]; rewrite ?elem_of_cons.
    + split; [intros [->|H]; [by right; left|by right; right]|].
      intros [(p & w' & l2 & _ & E & _)|[[_ ->]|H]]; [by apply Hw in E|by left|by right].
    + split; [by right; right|].
      intros [(p' & w' & l2 & _ & E & _)|[[[= ->] _]|H]]; [by apply Hw in E|done|done].
Qed.
Lemma variables_spec (l : list token) (v : text) :
  v ∈ variables l <->
  (exists l1 p w l2, l = l1 ++ Punct p :: Word w :: l2 /\ (p = DOLLAR \/ p = COLON) /\ v = p :: w) \/
  (v = [QMARK] /\ Punct QMARK ∈ l).
Proof.
  change (v ∈ variables l <-> named l v \/ (v = [QMARK] /\ Punct QMARK ∈ l)).
  induction l as [|t l IH].
  - cbn [variables]. split; [by intros ?%elem_of_nil|].
    intros [([|? ?] & ? & ? & ? & E & _)|[_ H]]; [done|done|by apply elem_of_nil in H].
  - rewrite variables_cons, named_cons, IH, elem_of_cons. split.
    + intros [H|[[-> ->]|[H|[-> H]]]]; [by left; left|by right; auto|by left; right|by right; auto].
    + intros [[H|H]|[-> [<-|H]]]; [by left|by right; right; left|by right; left|by right; right; right].
Qed.
