From Coq Require Import NArith ZArith ZifyN QArith Ascii String Lia.
From stdpp Require Import prelude list strings.
From Verif Require Import Lib.Text Functions.IntModel Literal.NumberModel Literal.NumberSpec Literal.NumberProofs
  Literal.NumberLexProofs.
#[local] Open Scope Z_scope.

Lemma decimal_of_captures_kind (c : captures) (l : literal) :
  decimal_of_captures c = Ok l -> exists b p sc v, l = LDecimal b p sc v /\ (b = 128 \/ b = 256).
Proof.
  unfold decimal_of_captures. intros H.
  repeat case_match; try done; simplify_eq; eauto 10.
Qed.
Lemma parse_decimal_kind (s : text) (l : literal) :
  parse_decimal_string s = Ok l -> exists b p sc v, l = LDecimal b p sc v /\ (b = 128 \/ b = 256).
Proof.
  unfold parse_decimal_string. destruct (decimal_regex s); [apply decimal_of_captures_kind|].
  destruct (decimal_fraction_regex s); [apply decimal_of_captures_kind|done].
Qed.
Lemma both_widths (s : text) :
  or_else (parse_decimal_width 128 s) (parse_decimal_width 256 s) = parse_decimal_string s.
Proof.
  unfold parse_decimal_width. destruct (parse_decimal_string s) as [l| |] eqn:E; [|done|done].
  destruct (parse_decimal_kind s l E) as (b & p & sc & v & -> & [->| ->]); done.
Qed.

(** ** Integers *)
Lemma forallb_app_false (a b : text) : forallb is_digit b = false -> forallb is_digit (a ++ b) = false.
Proof. intros H. rewrite forallb_app, H. apply andb_false_r. Qed.
Lemma parse_int_text (bits : Z) (n : numeral) (z : Z) :
  numeral_ok n -> parse_int bits (numeral_text n) = Some z ->
  n_point n = false /\ n_exponent n = None /\ z = mantissa n /\ fits bits z = true.
Proof.
  intros Hok. pose proof Hok as (Hs & Hw & Hf & Hne & Hp & He). unfold parse_int, numeral_text, mantissa.
  destruct n as [sg wh pt fr ex]. cbn [n_sign n_whole n_point n_fraction n_exponent] in *.
  destruct (decide (wh = [])) as [->|Hn].
  { destruct pt; [|by rewrite Hp in Hne]. rewrite take_sign_sign by done. done. }
  rewrite take_sign_digits by done. rewrite bool_decide_false by (by destruct wh).
  destruct pt.
  { rewrite forallb_app_false by done. done. }
  rewrite Hp by done. cbn [app]. destruct ex as [[[l sg'] ds]|].
  { rewrite forallb_app_false; [done|]. cbn. destruct He as ([->| ->] & _); done. }
  cbn [exponent_text]. rewrite app_nil_r, all_digits_forallb by done. unfold checked.
  destruct (fits bits (with_sign sg (dec_value wh))) eqn:E; [|done]. intros H. by injection H as <-.
Qed.
Lemma parse_int_plain (bits : Z) (n : numeral) :
  numeral_ok n -> n_point n = false -> n_exponent n = None ->
  parse_int bits (numeral_text n) = checked bits (mantissa n).
Proof.
  intros (Hs & Hw & Hf & Hne & Hp & He) Hpt Hex. unfold numeral_text, mantissa.
  rewrite Hpt, Hex, Hp in * by done. cbn [app exponent_text]. rewrite !app_nil_r in *.
  by apply parse_int_numeral.
Qed.

(** ** Exactness *)
Lemma sci_nonneg (m e : Z) : 0 <= e -> sci m e = inject_Z (m * 10 ^ e).
Proof. intros H. unfold sci. by destruct (Z.leb_spec 0 e); [|lia]. Qed.
Lemma decimal_value_exact (m shift : Z) :
  Qeq (sci (m * 10 ^ Z.max 0 (- shift)) (- Z.max 0 shift)) (sci m (- shift)).
Proof.
  destruct (Z.leb_spec 0 shift).
  - rewrite (Z.max_l 0 (- shift)), (Z.max_r 0 shift) by lia. rewrite Z.pow_0_r, Z.mul_1_r. reflexivity.
  - rewrite (Z.max_r 0 (- shift)), (Z.max_l 0 shift) by lia. rewrite !sci_nonneg by lia.
    change (10 ^ (- 0)) with 1. rewrite Z.mul_1_r. reflexivity.
Qed.
Lemma significant_value (s : text) : all_digits s -> (dec_value s < 10 ^ N.of_nat (significant s))%N.
Proof.
  intros H. rewrite <- trim_zeros_value, <- trim_zeros_significant. apply dec_value_bound. by apply trim_zeros_digits.
Qed.
Lemma mantissa_bound (n : numeral) : numeral_ok n -> Z.abs (mantissa n) < 10 ^ (whole_digits n + fraction_digits n).
Proof.
  intros (_ & Hw & Hf & _). unfold mantissa. rewrite signed_abs, dec_value_snoc.
  pose proof (significant_value _ Hw) as H1. pose proof (dec_value_bound _ Hf) as H2.
  assert (H3 : (dec_value (n_whole n) * 10 ^ N.of_nat (length (n_fraction n)) + dec_value (n_fraction n) <
    10 ^ N.of_nat (significant (n_whole n)) * 10 ^ N.of_nat (length (n_fraction n)))%N).
  { set (a := (10 ^ N.of_nat (length (n_fraction n)))%N) in *. nia. }
  rewrite <- N.pow_add_r in H3.
  eapply Z.lt_le_trans; [apply N2Z.inj_lt, H3|].
  rewrite N2Z.inj_pow. change (Z.of_N 10) with 10. apply Z.pow_le_mono_r; [lia|].
  unfold whole_digits, fraction_digits.
  destruct (bool_decide (significant (n_whole n) = O)) eqn:E1; [|cbn [andb]; lia].
  apply bool_decide_eq_true in E1. rewrite E1. destruct (bool_decide _); cbn [andb]; lia.
Qed.
Lemma whole_digits_nonneg (n : numeral) : 0 <= whole_digits n.
Proof. unfold whole_digits. destruct (_ && _); lia. Qed.
Lemma whole_digits_le (n : numeral) : (length (n_whole n) <= 38)%nat -> whole_digits n <= 38.
Proof. unfold whole_digits. pose proof (significant_le (n_whole n)). destruct (_ && _); lia. Qed.
Lemma needed_pos (n : numeral) : numeral_ok n -> 1 <= needed_digits n.
Proof.
  intros (_ & _ & _ & Hne & _). unfold needed_digits, whole_digits, fraction_digits.
  destruct (decide (n_fraction n = [])) as [E|E].
  - rewrite (bool_decide_true (n_fraction n = [])) by done. destruct (bool_decide _) eqn:E1; cbn [andb]; [lia|].
    apply bool_decide_eq_false in E1. lia.
  - assert (1 <= Z.of_nat (length (n_fraction n))) by (destruct (n_fraction n); [done|cbn; lia]).
    destruct (_ && _); lia.
Qed.

Lemma parse_decimal_ok (n : numeral) (l : literal) :
  numeral_ok n -> n_point n = true \/ (length (n_whole n) <= 38)%nat ->
  parse_decimal_string (numeral_text n) = Ok l ->
  literal_ok l /\ (forall q, literal_value l = Some q -> Qeq q (numeral_value n)) /\
  needed_digits n <= 76 /\
  l = LDecimal (if needed_digits n <=? 38 then 128 else 256) (needed_digits n) (needed_scale n)
        (mantissa n * 10 ^ Z.max 0 (exponent_value (n_exponent n) - fraction_digits n)).
Proof.
  intros Hok Hp. rewrite parse_decimal_numeral by done.
  destruct (bool_decide (length (n_whole n) <= 38)%nat) eqn:E1; [|done].
  destruct (bool_decide (length (n_fraction n) <= 38)%nat) eqn:E2; [|done]. cbn [andb].
  apply bool_decide_eq_true in E1, E2. rewrite decimal_of_captures_numeral by done. cbv zeta.
  destruct (negb (fits 8 _)); [done|].
  destruct (negb _) eqn:Hsh; [done|].
  destruct (Z.leb_spec 128 (whole_digits n + Z.max (fraction_digits n) (exponent_value (n_exponent n)))); [done|].
  destruct (Z.ltb_spec 76 (needed_digits n)) as [|Hnd]; [done|]. intros H1. injection H1 as <-.
  set (e := exponent_value (n_exponent n)) in *. set (f := fraction_digits n) in *.
  replace (- (f - e)) with (e - f) by lia.
  pose proof (needed_pos n Hok) as Hpos. split_and!; [|intros q Hq|done|done].
  - cbn [literal_ok]. split_and!.
    + destruct (Z.leb_spec (needed_digits n) 38); [left|right]; lia.
    + unfold needed_scale. lia.
    + unfold needed_digits, needed_scale. fold e f. pose proof (whole_digits_nonneg n). assert (0 <= f) by (unfold f, fraction_digits; lia). lia.
    + rewrite Z.abs_mul, (Z.abs_eq (10 ^ _)) by (apply Z.pow_nonneg; lia).
      pose proof (mantissa_bound n Hok) as Hm. fold f in Hm.
      assert (0 <= f) by (unfold f, fraction_digits; lia). pose proof (whole_digits_nonneg n).
      apply Z.lt_le_trans with (10 ^ (whole_digits n + f) * 10 ^ Z.max 0 (e - f)).
      * apply Z.mul_lt_mono_pos_r; [apply Z.pow_pos_nonneg; lia|done].
      * rewrite <- Z.pow_add_r by lia. apply Z.pow_le_mono_r; [lia|]. unfold needed_digits. fold e f. lia.
  - cbn [literal_value] in Hq. injection Hq as <-. unfold numeral_value. fold e.
    change (Z.of_nat (length (n_fraction n))) with f.
    replace (e - f) with (- (f - e)) by lia. unfold needed_scale. fold e f. apply decimal_value_exact.
Qed.

Lemma parse_decimal_accepts (n : numeral) :
  numeral_ok n -> (length (n_whole n) <= 38)%nat -> (length (n_fraction n) <= 38)%nat ->
  -76 <= fraction_digits n - exponent_value (n_exponent n) -> needed_digits n <= 76 ->
  parse_decimal_string (numeral_text n) =
    Ok (LDecimal (if needed_digits n <=? 38 then 128 else 256) (needed_digits n) (needed_scale n)
        (mantissa n * 10 ^ Z.max 0 (exponent_value (n_exponent n) - fraction_digits n))).
Proof.
  intros Hok Hw Hf H1 H2. rewrite parse_decimal_numeral by (done || by right).
  rewrite !bool_decide_true by done. cbn [andb]. rewrite decimal_of_captures_numeral by done. cbv zeta.
  pose proof (whole_digits_nonneg n). assert (0 <= fraction_digits n <= 38) by (unfold fraction_digits; lia).
  unfold needed_digits in H2.
  set (e := exponent_value (n_exponent n)) in *. set (f := fraction_digits n) in *.
  rewrite (proj2 (fits8 e)) by lia. cbn [negb].
  destruct (Z.leb_spec (-76) (f - e)); [|lia]. destruct (Z.leb_spec (f - e) 76); [|lia]. cbn [andb negb].
  destruct (Z.leb_spec 128 (whole_digits n + Z.max f e)); [lia|].
  destruct (Z.ltb_spec 76 (needed_digits n)) as [H9|H9]; [unfold needed_digits in H9; fold e f in H9; lia|].
  by replace (- (f - e)) with (e - f) by lia.
Qed.

(** ** The point that is not there *)
Definition pointed (n : numeral) : numeral :=
  Numeral (n_sign n) (take 38 (n_whole n)) true (drop 38 (n_whole n)) (n_exponent n).
Lemma pointed_ok (n : numeral) : numeral_ok n -> (38 < length (n_whole n))%nat -> numeral_ok (pointed n).
Proof.
  intros (Hs & Hw & Hf & Hne & Hp & He) Hl. unfold pointed, numeral_ok.
  cbn [n_sign n_whole n_point n_fraction n_exponent]. split_and!; try done.
  - by apply Forall_take.
  - by apply Forall_drop.
  - rewrite take_drop. intros H. rewrite H in Hl. cbn in Hl. lia.
Qed.
Lemma digit_run_all (d r : text) : all_digits d -> no_digit_head r -> digit_run (d ++ r) = d.
Proof. apply digit_run_run. Qed.
Lemma long_integer_pointed (n : numeral) :
  numeral_ok n -> n_point n = false -> (38 < length (n_whole n))%nat ->
  parse_decimal_string (numeral_text n) = parse_decimal_string (numeral_text (pointed n)).
Proof.
  intros Hok Hpt Hl. rewrite (parse_decimal_numeral (pointed n)) by (by apply pointed_ok || by left).
  pose proof Hok as (Hs & Hw & Hf & Hne & Hp & He).
  destruct n as [sg wh pt fr ex]. unfold numeral_captures, pointed.
  cbn [n_sign n_whole n_point n_fraction n_exponent] in *. subst pt. rewrite Hp in * by done.
  unfold parse_decimal_string, numeral_text, decimal_regex, decimal_fraction_regex.
  cbn [n_sign n_whole n_point n_fraction n_exponent]. cbn [app].
  assert (Hn : wh <> []) by (intros ->; cbn in Hl; lia).
  rewrite take_sign_digits by done.
  assert (Hex : exponent_ok ex) by done. pose proof (exponent_text_head ex Hex) as Hh.
  rewrite digit_run_run by done.
  assert (Htl : length (take 38 wh) = 38%nat) by (rewrite take_length; lia).
  rewrite (bool_decide_false (take 38 wh = [])) by (intros H; rewrite H in Htl; done). rewrite Htl.
  rewrite drop_app_le by lia. rewrite (bool_decide_true (38 <= 38)%nat) by lia. cbn [andb].
  assert (Hd : all_digits (drop 38 wh)) by (apply Forall_drop; done).
  assert (Hdl : length (drop 38 wh) = (length wh - 38)%nat) by (rewrite drop_length; lia).
  destruct (drop 38 wh) as [|c r] eqn:Ed; [cbn in Hdl; lia|].
  pose proof (Forall_inv Hd) as Hc. cbn in Hc.
  assert (skip_point ((c :: r) ++ exponent_text ex) = (c :: r) ++ exponent_text ex) as ->.
  { cbn [app skip_point]. by rewrite digit_no_point. }
  rewrite digit_run_run by done.
  destruct (decide (length (c :: r) <= 38)%nat) as [Hle|Hgt].
  - rewrite take_ge by done. rewrite drop_length_app. rewrite match_exponent_text by done.
    by rewrite (bool_decide_true (length (c :: r) <= 38)%nat).
  - rewrite (bool_decide_false (length (c :: r) <= 38)%nat) by done.
    assert (Ht2 : length (take 38 (c :: r)) = 38%nat) by (rewrite take_length; lia). rewrite Ht2.
    rewrite drop_app_le by lia.
    assert (Hd2 : all_digits (drop 38 (c :: r))) by (apply Forall_drop; done).
    assert (Hd2l : (0 < length (drop 38 (c :: r)))%nat) by (rewrite drop_length; lia).
    destruct (drop 38 (c :: r)) as [|c2 r2]; [cbn in Hd2l; lia|].
    change ((c2 :: r2) ++ ?x) with (c2 :: r2 ++ x). rewrite match_exponent_digit; [|exact (Forall_inv Hd2)].
    destruct wh as [|c0 wh]; [done|]. cbn [app]. rewrite digit_no_point; [done|]. exact (Forall_inv Hw).
Qed.

(** ** The literal in a query *)
Lemma sql_number_text (finite : Z -> text -> bool) (n : numeral) (suf : option suffix) (s : text) :
  literal_text n suf s -> sql_number finite s = from_ast_number_literal finite (numeral_text n) suf.
Proof. intros H. unfold sql_number. by rewrite (number_literal_of_text n suf s H). Qed.

Lemma or_else_ok (a b : outcome literal) (l : literal) : or_else a b = Ok l -> a = Ok l \/ b = Ok l.
Proof. destruct a; cbn; intros H; [by left|by right|done]. Qed.
Lemma parse_integer_exact (bits : Z) (n : numeral) (l : literal) :
  numeral_ok n -> parse_integer bits (numeral_text n) = Ok l ->
  literal_ok l /\ forall q, literal_value l = Some q -> Qeq q (numeral_value n).
Proof.
  unfold parse_integer. intros Hok. destruct (parse_int bits (numeral_text n)) as [z|] eqn:E; [|done].
  intros H. injection H as <-. destruct (parse_int_text bits n z Hok E) as (Hpt & Hex & -> & Hfit).
  split; [done|]. intros q Hq. injection Hq as <-. unfold numeral_value. rewrite Hex.
  destruct Hok as (_ & _ & _ & _ & Hp & _). rewrite Hp by done. cbn [exponent_value length].
  change (0 - Z.of_nat 0) with 0. rewrite sci_nonneg by lia. change (10 ^ 0) with 1. by rewrite Z.mul_1_r.
Qed.
Lemma from_ast_exact (finite : Z -> text -> bool) (n : numeral) (suf : option suffix) (l : literal) :
  numeral_ok n -> n_point n = true \/ (length (n_whole n) <= 38)%nat ->
  from_ast_number_literal finite (numeral_text n) suf = Ok l ->
  literal_ok l /\ forall q, literal_value l = Some q -> Qeq q (numeral_value n).
Proof.
  intros Hok Hp.
  assert (Hfl : forall bits, parse_float finite bits (numeral_text n) = Ok l ->
    literal_ok l /\ forall q, literal_value l = Some q -> Qeq q (numeral_value n)).
  { unfold parse_float. intros bits. destruct (finite bits _); [|done]. intros H. injection H as <-. done. }
  assert (Hdec : parse_decimal_string (numeral_text n) = Ok l ->
    literal_ok l /\ forall q, literal_value l = Some q -> Qeq q (numeral_value n)).
  { intros H. destruct (parse_decimal_ok n l Hok Hp H) as (? & ? & _). done. }
  unfold from_ast_number_literal. rewrite !both_widths.
  destruct suf as [[]|]; try apply parse_integer_exact; try apply Hfl; try apply Hdec; try done.
  destruct (_ || _).
  - intros [H|H]%or_else_ok; [by apply (Hfl 64)|by apply Hdec].
  - intros [H|[H|H]%or_else_ok]%or_else_ok; [by eapply parse_integer_exact|by eapply parse_integer_exact|by apply Hdec].
Qed.
