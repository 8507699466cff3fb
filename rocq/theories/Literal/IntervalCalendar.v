(** Reading back the intervals that are shown with a unit after each number. *)
From Coq Require Import NArith ZArith ZifyN ZifyBool Ascii String Lia.
From stdpp Require Import prelude list strings.
From Verif Require Import Lib.Text Functions.IntModel Sql.LexModel Sql.LexSpec Sql.LexProofs Literal.NumberModel
  Literal.NumberSpec Literal.NumberProofs Literal.IntervalModel Literal.IntervalSpec Literal.IntervalProofs
  Literal.IntervalLex Literal.IntervalShow Literal.IntervalDisplay Literal.IntervalMulti.
From Verif.Sql Require MarkerProofs.
#[local] Open Scope Z_scope.

(** ** Parts and their texts *)
Record part := Part { p_neg : bool; p_digits : text; p_frac : option text; p_word : text; p_unit : unit }.
Definition part_words : list (text * unit) :=
  [(str "years", UYear); (str "months", UMonth); (str "days", UDay); (str "hours", UHour);
   (str "minutes", UMinute); (str "seconds", USecond)].
Definition part_ok (p : part) : Prop :=
  number (p_digits p) /\ match p_frac p with Some f => number f | None => True end /\
  (p_word p, p_unit p) ∈ part_words /\ (p_frac p <> None -> p_unit p = USecond).
Definition part_num (p : part) : text :=
  p_digits p ++ match p_frac p with Some f => str "." ++ f | None => [] end.
Definition part_text (p : part) : text := minus_if (p_neg p) ++ part_num p ++ str " " ++ p_word p.
Definition part_tokens (p : part) : list token :=
  (if p_neg p then [Punct 45] else []) ++
  Word (p_digits p) :: (match p_frac p with Some f => [Punct 46; Word f] | None => [] end) ++
  [Blank 32 1; Word (p_word p)].
Definition part_value (p : part) : value := if p_neg p then VNeg (VNum (part_num p)) else VNum (part_num p).
Fixpoint join_tokens (l : list part) : list token :=
  match l with
  | [] => []
  | [p] => part_tokens p
  | p :: l' => part_tokens p ++ Blank 32 1 :: join_tokens l'
  end.

Lemma word_facts (p : part) :
  part_ok p -> (2 <= length (p_word p))%nat /\ forallb is_letter (p_word p) = true.
Proof.
  intros (_ & _ & Hw & _). unfold part_words in Hw. rewrite !elem_of_cons, elem_of_nil in Hw.
  destruct Hw as [[= -> _]|[[= -> _]|[[= -> _]|[[= -> _]|[[= -> _]|[[= -> _]|[]]]]]]]; (split; [cbn; lia|done]).
Qed.

Section calendar.
Context (alnum : N -> bool) (Ha : ascii_alnum alnum).

Lemma lexes_part (p : part) (rest : text) (toks : list token) :
  part_ok p -> no_word_head alnum rest -> lexes alnum rest toks ->
  lexes alnum (part_text p ++ rest) (part_tokens p ++ toks).
Proof.
  intros Hok Hrest Hl. destruct (word_facts p Hok) as [Hw1 Hw2]. destruct Hok as (Hd & Hf & _ & _).
  assert (Hnsp : match p_word p ++ rest with c :: _ => c <> 32%N | [] => True end).
  { destruct (p_word p) as [|c w]; [cbn in Hw1; lia|]. cbn [app forallb] in *. apply andb_true_iff in Hw2 as [Hc _].
    intros ->. done. }
  assert (Hsp : forall s : text, no_word_head alnum (str " " ++ s)) by (intros s; by apply low_not_word).
  assert (Hpt : forall s : text, no_word_head alnum (str "." ++ s)) by (intros s; by apply low_not_word).
  assert (H1 : lexes alnum (str " " ++ p_word p ++ rest) ([Blank 32 1; Word (p_word p)] ++ toks)).
  { cbn [app]. apply lexes_step; [done|by apply next_space|]. apply lexes_step; [|by apply next_letters|done].
    by destruct (p_word p); [cbn in Hw1; lia|]. }
  assert (H2 : lexes alnum (part_num p ++ str " " ++ p_word p ++ rest)
    (Word (p_digits p) :: (match p_frac p with Some f => [Punct 46; Word f] | None => [] end) ++ [Blank 32 1; Word (p_word p)] ++ toks)).
  { unfold part_num. rewrite <- app_assoc. destruct (p_frac p) as [f|].
    - rewrite <- app_assoc. apply lexes_step; [apply Hd|apply next_digits; [done|done|apply Hpt]|].
      cbn [app]. apply (lexes_step alnum (str ".") _ (Punct 46)); [done|by apply next_point|].
      apply lexes_step; [apply Hf|apply next_digits; [done|done|apply Hsp]|done].
    - rewrite app_nil_l. apply lexes_step; [apply Hd|apply next_digits; [done|done|apply Hsp]|done]. }
  unfold part_text, part_tokens. rewrite <- !app_assoc. destruct (p_neg p).
  - cbn [app minus_if]. rewrite <- !app_assoc. apply (lexes_step alnum (str "-") _ (Punct 45)); [done| |done].
    apply next_minus; [done|]. unfold part_num. destruct Hd as [Hd Hne]. destruct (p_digits p) as [|c d]; [done|]. cbn [app].
    apply Forall_inv in Hd. apply digit_bounds in Hd. lia.
  - cbn [app minus_if]. rewrite <- !app_assoc. done.
Qed.
Lemma lexes_parts (l : list part) :
  Forall part_ok l -> lexes alnum (join_blank (map part_text l)) (join_tokens l).
Proof.
  induction 1 as [|p l Hp Hl IH]; [apply lexes_nil|]. destruct l as [|q l].
  - cbn [map join_blank join_tokens]. pose proof (lexes_part p [] [] Hp I (lexes_nil alnum)) as H.
    by rewrite !app_nil_r in H.
  - cbn [map join_blank join_tokens]. apply lexes_part; [done|by apply low_not_word|].
    apply lexes_step; [done| |done]. apply next_space; [done|].
    apply Forall_cons_1 in Hl as [(Hd & _) _]. destruct Hd as [Hd Hne].
    assert (Hh : forall r, match part_text q ++ r with c :: _ => c <> 32%N | [] => True end).
    { intros r. unfold part_text, part_num. destruct (p_neg q); [done|]. cbn [minus_if app].
      destruct (p_digits q) as [|c d]; [done|]. cbn [app]. apply Forall_inv, digit_bounds in Hd. lia. }
    cbn [map join_blank]. destruct (map part_text l); [|apply Hh]. specialize (Hh []). by rewrite app_nil_r in Hh.
Qed.

(** ** Reading them *)
Lemma slice_whole (d x : text) :
  all_digits d -> next_slice (WholeNumber x) d = Some (WholeNumber (x ++ d)).
Proof.
  intros Hd. revert x. induction Hd as [|c d Hc _ IH]; intros x; cbn [next_slice]; [by rewrite app_nil_r|].
  unfold NumberModel.next. rewrite Hc. rewrite IH. by rewrite <- app_assoc.
Qed.
Lemma slice_start (d : text) : number d -> next_slice Start d = Some (WholeNumber d).
Proof.
  intros [Hd Hne]. destruct d as [|c d]; [done|]. cbn [next_slice]. unfold NumberModel.next.
  pose proof (Forall_inv Hd) as Hc. cbn beta in Hc. rewrite Hc. apply Forall_inv_tail in Hd. by rewrite slice_whole.
Qed.
Lemma slice_decimal (d x : text) :
  all_digits d -> next_slice (DecimalNumber x) d = Some (DecimalNumber (x ++ d)).
Proof.
  intros Hd. revert x. induction Hd as [|c d Hc _ IH]; intros x; cbn [next_slice]; [by rewrite app_nil_r|].
  unfold NumberModel.next. rewrite Hc. rewrite IH. by rewrite <- app_assoc.
Qed.
Lemma read_number_part (p : part) (T : list token) :
  part_ok p ->
  read_number Start None (Word (p_digits p) :: (match p_frac p with Some f => [Punct 46; Word f] | None => [] end) ++
      [Blank 32 1; Word (p_word p)] ++ T) =
    Some (part_num p, None, Blank 32 1 :: Word (p_word p) :: T).
Proof.
  intros (Hd & Hf & _). cbn [read_number number_raw]. rewrite (slice_start _ Hd). cbn [finalize]. unfold part_num.
  destruct (p_frac p) as [f|]; cbn [app read_number number_raw].
  - rewrite (bool_decide_true (46%N = 46%N \/ _)) by (by left). cbn [next_slice]. unfold NumberModel.next at 1.
    change (is_digit 46) with false. rewrite (bool_decide_true (46%N = 46%N)) by done. cbn [finalize].
    rewrite slice_decimal by apply Hf. cbn [finalize]. by rewrite <- app_assoc.
  - by rewrite app_nil_r.
Qed.
Lemma read_value_part (p : part) (T : list token) :
  part_ok p -> read_value (part_tokens p ++ T) = Some (part_value p, Word (p_word p) :: T).
Proof.
  intros Hok. unfold part_tokens, part_value.
  assert (Hw : read_value ((Word (p_digits p) :: (match p_frac p with Some f => [Punct 46; Word f] | None => [] end) ++
      [Blank 32 1; Word (p_word p)]) ++ T) = Some (VNum (part_num p), Word (p_word p) :: T)).
  { cbn [app read_value]. rewrite <- app_assoc, read_number_part by done. done. }
  destruct (p_neg p); [|exact Hw]. rewrite <- app_assoc.
  change (('(v, r) ← read_value ((Word (p_digits p) :: (match p_frac p with Some f => [Punct 46; Word f] | None => [] end) ++
      [Blank 32 1; Word (p_word p)]) ++ T); Some (VNeg v, r)) = Some (VNeg (VNum (part_num p)), Word (p_word p) :: T)).
  by rewrite Hw.
Qed.
Lemma read_unit_part (p : part) (T : list token) :
  part_ok p -> read_unit (Word (p_word p) :: T) = Some (p_unit p, skip_ws T).
Proof.
  intros (_ & _ & Hw & _). unfold part_words in Hw. rewrite !elem_of_cons, elem_of_nil in Hw.
  destruct Hw as [[= -> ->]|[[= -> ->]|[[= -> ->]|[[= -> ->]|[[= -> ->]|[[= -> ->]|[]]]]]]]; reflexivity.
Qed.
Lemma read_item_part (p : part) (T : list token) :
  part_ok p -> read_item (part_tokens p ++ T) = Some (part_value p, p_unit p, skip_ws T).
Proof.
  intros Hok. unfold read_item. rewrite read_value_part by done. cbn [mbind option_bind].
  rewrite read_unit_part by done. done.
Qed.
Lemma part_tokens_head (p : part) (T : list token) :
  part_ok p -> skip_ws (part_tokens p ++ T) = part_tokens p ++ T /\
  forall w, forallb is_letter w = true -> w <> [] -> keyword w (part_tokens p ++ T) = None.
Proof.
  intros ([Hd Hne] & _). unfold part_tokens. destruct (p_neg p); (split; [done|]); cbn [app keyword]; [done|].
  intros w Hw Hwne. rewrite bool_decide_false; [done|]. intros <-.
  destruct (p_digits p) as [|c d]; [done|]. cbn [map forallb] in Hw. apply andb_true_iff in Hw as [Hw _].
  apply Forall_inv, digit_bounds in Hd. unfold upper_ascii in Hw.
  destruct ((97 <=? c)%N && (c <=? 122)%N) eqn:E; unfold is_letter in Hw; lia.
Qed.
Definition rest_tokens (l : list part) : list token := match l with [] => [] | _ => Blank 32 1 :: join_tokens l end.
Lemma join_tokens_cons (p : part) (l : list part) : join_tokens (p :: l) = part_tokens p ++ rest_tokens l.
Proof. destruct l; cbn [join_tokens rest_tokens]; [by rewrite app_nil_r|done]. Qed.
Lemma rest_skip (l : list part) : Forall part_ok l -> skip_ws (rest_tokens l) = join_tokens l.
Proof.
  intros Hl. destruct l as [|p l]; [done|]. cbn [rest_tokens skip_ws is_whitespace]. rewrite join_tokens_cons.
  apply Forall_cons_1 in Hl as [Hp _]. by apply part_tokens_head.
Qed.
Lemma join_tokens_length (l : list part) : (length l <= length (join_tokens l))%nat.
Proof.
  induction l as [|p l IH]; [done|]. rewrite join_tokens_cons, app_length. cbn [length].
  assert (1 <= length (part_tokens p))%nat by (unfold part_tokens; rewrite app_length; cbn [length]; lia).
  assert (length (join_tokens l) <= length (rest_tokens l))%nat by (destruct l; cbn [rest_tokens length]; [done|lia]).
  lia.
Qed.
Definition part_item (p : part) : value * unit := (part_value p, p_unit p).
Lemma read_items_parts (l : list part) (fuel : nat) :
  Forall part_ok l -> (length l <= fuel)%nat -> read_items fuel (join_tokens l) = (map part_item l, []).
Proof.
  intros Hl. revert fuel. induction Hl as [|p l Hp Hl IH]; intros fuel Hf.
  - by destruct fuel.
  - destruct fuel as [|fuel]; [cbn in Hf; lia|]. cbn [read_items]. rewrite join_tokens_cons.
    rewrite read_item_part by done. rewrite rest_skip by done. rewrite IH by (cbn in Hf; lia). done.
Qed.
Lemma read_interval_parts (p : part) (l : list part) :
  Forall part_ok (p :: l) ->
  read_interval (join_tokens (p :: l)) = Some (MultiUnit (part_item p) (map part_item l)).
Proof.
  intros Hall. pose proof Hall as [Hp Hl]%Forall_cons_1. unfold read_interval. rewrite join_tokens_cons.
  destruct (part_tokens_head p (rest_tokens l) Hp) as [Hs Hk]. rewrite Hs. rewrite Hk by done.
  rewrite read_item_part by done. rewrite rest_skip by done.
  assert (HTO : keyword (str "TO") (join_tokens l) = None).
  { destruct l as [|q l]; [done|]. rewrite join_tokens_cons. apply Forall_cons_1 in Hl as [Hq _].
    by apply part_tokens_head. }
  rewrite HTO. rewrite read_items_parts; [done|done|apply join_tokens_length].
Qed.
Lemma parse_parts (p : part) (l : list part) :
  Forall part_ok (p :: l) ->
  parse_interval alnum (join_blank (map part_text (p :: l))) =
    match l with
    | [] => match unit_kind (p_unit p) with
            | Some k => standard_value k false (part_value p)
            | None => parse_multi false [part_item p]
            end
    | _ => parse_multi false (map part_item (p :: l))
    end.
Proof.
  intros Hall. pose proof (lexes_parts (p :: l) Hall) as Hlex. apply lexes_lex in Hlex as (toks & Hlex & Ht).
  unfold parse_interval. cbn [parse_loop]. rewrite Hlex. cbn [mbind option_bind].
  rewrite Ht, read_interval_parts by done. destruct l; reflexivity.
Qed.

(** ** What they say *)
Definition part_int (p : part) : Z := opposite_if (p_neg p) (Z.of_N (dec_value (p_digits p))).
Definition amount (p : part) : Z * Z :=
  match p_unit p with
  | UYear => (part_int p * 12, 0)
  | UMonth => (part_int p, 0)
  | UDay => (0, part_int p * 86400000000)
  | UHour => (0, part_int p * 3600000000)
  | UMinute => (0, part_int p * 60000000)
  | _ => (0, opposite_if (p_neg p) (Z.of_N (dec_value (p_digits p)) * 1000000 + fraction_micros (p_frac p)))
  end.
Lemma int_value_part (bits : Z) (p : part) :
  (bits = 32 \/ bits = 64) -> number (p_digits p) -> p_frac p = None -> Z.of_N (dec_value (p_digits p)) <= int_max bits ->
  int_value bits (part_value p) (part_int p).
Proof.
  intros Hb Hd Hf Hm. unfold part_value, part_int, part_num. rewrite Hf, app_nil_r.
  assert (Hs : signed [] (dec_value (p_digits p)) = Z.of_N (dec_value (p_digits p))) by done.
  assert (H : int_value bits (VNum (p_digits p)) (Z.of_N (dec_value (p_digits p)))).
  { rewrite <- Hs. apply (iv_num bits [] (p_digits p)); [by left|done|]. rewrite Hs. apply fits_bounds.
    destruct i32_bounds as [E1 E2], i64_bounds as [E3 E4]. destruct Hb as [-> | ->]; lia. }
  destruct (p_neg p); cbn [opposite_if]; [|done]. apply iv_neg; [done|].
  destruct i32_bounds as [E1 E2], i64_bounds as [E3 E4]. destruct Hb as [-> | ->]; lia.
Qed.
Definition kind_of_unit (u : unit) : kind :=
  match u with UYear => Year | UMonth => Month | UDay => Day | UHour => Hour | UMinute => Minute | _ => Second end.
Lemma written_part (p : part) :
  part_ok p ->
  written (kind_of_unit (p_unit p)) (part_num p) [] [(first_field (kind_of_unit (p_unit p)), p_digits p)] (p_frac p).
Proof.
  intros (Hd & Hf & Hw & Hu).
  exists [], (p_digits p), (match p_frac p with Some f => str "." ++ f | None => [] end), [].
  split_and!; [constructor|by left| | | |constructor|].
  - by destruct (p_unit p).
  - pose proof (shows_first (first_field (kind_of_unit (p_unit p))) (p_digits p) [] [] Hd shows_end) as H.
    by rewrite app_nil_r in H.
  - unfold shows_fraction. destruct (p_frac p) as [f|]; [|by left]. rewrite Hu by done. done.
  - cbn [app]. by rewrite app_nil_r.
Qed.
Lemma amount_says (p : part) :
  part_ok p -> Z.of_N (dec_value (p_digits p)) <= int_max 32 + 1 ->
  ((p_unit p = UYear \/ p_unit p = UMonth) -> Z.of_N (dec_value (p_digits p)) <= int_max 32) ->
  item_says (part_item p) (amount p).1 (amount p).2.
Proof.
  intros Hok Hb Hym. pose proof (written_part p Hok) as Hwr. pose proof Hok as (Hd & Hf & Hw & Hu).
  destruct i32_bounds as [E1 E2], i64_bounds as [E3 E4].
  assert (Hfn : p_unit p <> USecond -> p_frac p = None).
  { intros Hne. destruct (p_frac p) as [f|]; [|done]. exfalso. apply Hne, Hu. done. }
  unfold part_words in Hw. rewrite !elem_of_cons, elem_of_nil in Hw. unfold part_item, amount.
  destruct Hw as [[= _ Eu]|[[= _ Eu]|[[= _ Eu]|[[= _ Eu]|[[= _ Eu]|[[= _ Eu]|[]]]]]]]; rewrite Eu in *; cbn [fst snd item_says].
  - exists (part_int p). split; [|done]. apply int_value_part; [by left|done|by apply Hfn|apply Hym; by left].
  - split; [|done]. apply int_value_part; [by left|done|by apply Hfn|apply Hym; by right].
  - exists (part_int p). split; [|done]. apply int_value_part; [by right|done|by apply Hfn|lia].
  - exists (part_int p). split; [|done]. apply int_value_part; [by right|done|by apply Hfn|lia].
  - exists (part_int p). split; [|done]. apply int_value_part; [by right|done|by apply Hfn|lia].
  - split; [|done]. unfold part_value. cbn [kind_of_unit first_field] in Hwr.
    pose proof (sv_num (part_num p) [] _ _ Hwr) as Hv. rewrite total_cons, total_nil, Z.add_0_r in Hv. cbn [micros_in] in Hv.
    change (is_minus []) with false in Hv. cbn [opposite_if] in Hv.
    destruct (p_neg p); cbn [opposite_if]; [|done]. by apply sv_neg.
Qed.

(** A single part is read by the rules for qualified literals. *)
Lemma single_part (p : part) :
  part_ok p -> Z.abs (amount p).1 <= int_max 32 ->
  exists k, unit_kind (p_unit p) = Some k /\
    standard_value k false (part_value p) =
      if is_year_month k then Some (YearMonth (amount p).1)
      else if Z.abs (amount p).2 <=? int_max 64 then Some (Micro (amount p).2) else None.
Proof.
  intros Hok Hb. exists (kind_of_unit (p_unit p)). pose proof (written_part p Hok) as Hwr.
  pose proof Hok as (Hd & Hf & Hw & Hu).
  assert (Hfn : p_unit p <> USecond -> p_frac p = None).
  { intros Hne. destruct (p_frac p) as [f|]; [|done]. exfalso. apply Hne, Hu. done. }
  assert (Hfm : 0 <= fraction_micros (p_frac p)) by (by apply fraction_value_exact).
  assert (Hsv : standard_value (kind_of_unit (p_unit p)) false (part_value p) =
                parse_standard (kind_of_unit (p_unit p)) (p_neg p) (part_num p)).
  { unfold standard_value, part_value. destruct (p_neg p); reflexivity. }
  rewrite Hsv. clear Hsv.
  destruct (standard_case _ (p_neg p) _ _ _ _ Hwr) as [H1 H2]. unfold in_range, says in H1, H2.
  rewrite year_month_rank in H1, H2. change (is_minus []) with false in H1. rewrite xorb_false_r in H1.
  rewrite !total_cons, !total_nil, !Z.add_0_r in H1, H2. unfold amount, part_int in *.
  unfold part_words in Hw. rewrite !elem_of_cons, elem_of_nil in Hw.
  destruct Hw as [[= _ Eu]|[[= _ Eu]|[[= _ Eu]|[[= _ Eu]|[[= _ Eu]|[[= _ Eu]|[]]]]]]]; rewrite Eu in *; cbn [kind_of_unit unit_kind] in *;
    (split; [done|]); cbn [is_year_month first_field months_in micros_in fst snd] in *.
  - rewrite H1 by (destruct (p_neg p); cbn [opposite_if] in Hb; lia). do 2 f_equal. destruct (p_neg p); cbn [opposite_if]; lia.
  - rewrite H1 by (destruct (p_neg p); cbn [opposite_if] in Hb; lia). do 2 f_equal. destruct (p_neg p); cbn [opposite_if]; lia.
  - rewrite Hfn in * by done. cbn [fraction_micros] in *. rewrite Z.add_0_r in *.
    destruct (Z.leb_spec (Z.abs (opposite_if (p_neg p) (Z.of_N (dec_value (p_digits p))) * 86400000000)) (int_max 64)) as [Hle|Hle];
      [rewrite H1|rewrite H2]; try done; destruct (p_neg p); cbn [opposite_if] in *; try lia; do 2 f_equal; lia.
  - rewrite Hfn in * by done. cbn [fraction_micros] in *. rewrite Z.add_0_r in *.
    destruct (Z.leb_spec (Z.abs (opposite_if (p_neg p) (Z.of_N (dec_value (p_digits p))) * 3600000000)) (int_max 64)) as [Hle|Hle];
      [rewrite H1|rewrite H2]; try done; destruct (p_neg p); cbn [opposite_if] in *; try lia; do 2 f_equal; lia.
  - rewrite Hfn in * by done. cbn [fraction_micros] in *. rewrite Z.add_0_r in *.
    destruct (Z.leb_spec (Z.abs (opposite_if (p_neg p) (Z.of_N (dec_value (p_digits p))) * 60000000)) (int_max 64)) as [Hle|Hle];
      [rewrite H1|rewrite H2]; try done; destruct (p_neg p); cbn [opposite_if] in *; try lia; do 2 f_equal; lia.
  - destruct (Z.leb_spec (Z.abs (opposite_if (p_neg p) (Z.of_N (dec_value (p_digits p)) * 1000000 + fraction_micros (p_frac p)))) (int_max 64)) as [Hle|Hle];
      [rewrite H1|rewrite H2]; try done; destruct (p_neg p); cbn [opposite_if] in *; lia.
Qed.
End calendar.
