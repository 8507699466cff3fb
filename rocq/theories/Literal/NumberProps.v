(** C82: number literals. *)
From Coq Require Import NArith ZArith ZifyN QArith Ascii String Lia.
From stdpp Require Import prelude list strings.
From Verif Require Import Lib.Text Functions.IntModel Literal.NumberModel Literal.NumberSpec Literal.NumberProofs
  Literal.NumberLexProofs Literal.NumberValueProofs.
#[local] Open Scope Z_scope.

(** The parser takes exactly the unsigned numerals with their suffixes for number literals, and splits
    the suffix off. *)
Theorem C82_lexer (s v : text) (suf : option suffix) :
  number_literal s = Some (v, suf) <-> exists n, literal_text n suf s /\ v = numeral_text n.
Proof.
  split; [apply number_literal_text|]. intros (n & H & ->). by apply number_literal_of_text.
Qed.
Print Assumptions C82_lexer.
Example C82_lexer_ex :
  number_literal (str "12.50e-3bD") = Some (str "12.50e-3", Some SufBd) /\
  number_literal (str ".5") = Some (str ".5", None) /\ number_literal (str "7y") = Some (str "7", Some SufY) /\
  number_literal (str "1.5L") = None /\ number_literal (str "1e") = None /\ number_literal (str ".") = None.
Proof. done. Qed.

(** If a literal of a query is accepted as an integer or a decimal, then its type can hold it, and it is
    the number that is written: unless more than 38 digits are written without a point. *)
Theorem C82_exact (finite : Z -> text -> bool) (n : numeral) (suf : option suffix) (s : text) (l : literal) :
  literal_text n suf s -> n_point n = true \/ (length (n_whole n) <= 38)%nat ->
  sql_number finite s = Ok l ->
  literal_ok l /\ forall q, literal_value l = Some q -> Qeq q (numeral_value n).
Proof.
  intros Ht Hp. rewrite (sql_number_text finite n suf s Ht). apply from_ast_exact; [|done]. by destruct Ht.
Qed.
Print Assumptions C82_exact.
Example C82_exact_ex : forall finite,
  sql_number finite (str "0012.50e1BD") = Ok (LDecimal 128 4 1 1250) /\
  literal_text (Numeral [] (str "0012") true (str "50") (Some (101%N, [], str "1"))) (Some SufBd) (str "0012.50e1BD").
Proof.
  intros finite. split; [done|]. split_and!.
  - split_and!; [by left|by repeat constructor|by repeat constructor|done|done|].
    split_and!; [by left|by left|by repeat constructor|done].
  - done.
  - intros [?|[?|?]]; done.
  - exists (str "BD"). done.
Qed.

(** The decimal literals that are accepted (those of a query with the suffix BD, those of a client, and
    the defaults of Iceberg columns): with at most 38 digits on either side of the point, all that can
    be written with 76 digits and without an exponent, and nothing else.  The type has the digits that it
    takes. *)
Theorem C82_accepted (n : numeral) :
  numeral_ok n -> (length (n_whole n) <= 38)%nat -> (length (n_fraction n) <= 38)%nat ->
  (exists l, parse_decimal_string (numeral_text n) = Ok l) <->
  needed_digits n <= 76 /\ -76 <= fraction_digits n - exponent_value (n_exponent n).
Proof.
  intros Hok Hw Hf. split.
  - intros [l Hl]. destruct (parse_decimal_ok n l Hok (or_intror Hw) Hl) as (_ & _ & Hn & _). split; [done|].
    rewrite parse_decimal_numeral in Hl by (done || by right). rewrite !bool_decide_true in Hl by done.
    cbn [andb] in Hl. rewrite decimal_of_captures_numeral in Hl by done. cbv zeta in Hl.
    destruct (negb (fits 8 _)); [done|].
    destruct (Z.leb_spec (-76) (fraction_digits n - exponent_value (n_exponent n))); [lia|done].
  - intros [H1 H2]. eexists. by apply parse_decimal_accepts.
Qed.
Theorem C82_type (n : numeral) (bits p sc v : Z) :
  numeral_ok n -> n_point n = true \/ (length (n_whole n) <= 38)%nat ->
  parse_decimal_string (numeral_text n) = Ok (LDecimal bits p sc v) ->
  p = needed_digits n /\ sc = needed_scale n /\ (bits = 128 <-> p <= 38) /\
  literal_ok (LDecimal bits p sc v) /\ Qeq (sci v (- sc)) (numeral_value n).
Proof.
  intros Hok Hp H. destruct (parse_decimal_ok n _ Hok Hp H) as (H1 & H2 & H3 & H4).
  injection H4 as Hb Hpn Hsc Hv. split_and!; [done|done| |done|by apply H2].
  subst. destruct (Z.leb_spec (needed_digits n) 38); lia.
Qed.
Print Assumptions C82_accepted.
Print Assumptions C82_type.
Example C82_type_ex :
  parse_decimal_string (str "-1.23E-10") = Ok (LDecimal 128 12 12 (-123)) /\
  parse_decimal_string (str "1.5e40") = Ok (LDecimal 256 41 0 (15 * 10 ^ 39)) /\
  parse_decimal_string (str "1e76") = Err.
Proof. split_and!; vm_compute; done. Qed.

(** An integer without a suffix gets the smallest of int, bigint and decimal that holds it. *)
Theorem C82_integer (finite : Z -> text -> bool) (n : numeral) :
  numeral_ok n -> plain n -> (length (n_whole n) <= 38)%nat ->
  let v := Z.of_N (dec_value (n_whole n)) in
  sql_number finite (n_whole n) =
    Ok (if v <? 2 ^ 31 then LInt 32 v else if v <? 2 ^ 63 then LInt 64 v
        else LDecimal 128 (Z.of_nat (significant (n_whole n))) 0 v).
Proof.
  intros Hok (Hs & Hpt & Hex) Hl v. pose proof Hok as (_ & Hw & _ & Hne & Hp & _).
  specialize (Hp Hpt). rewrite Hp, app_nil_r in Hne.
  assert (Ht : numeral_text n = n_whole n).
  { unfold numeral_text. rewrite Hs, Hpt, Hex, Hp. cbn [app exponent_text]. by rewrite app_nil_r. }
  assert (Hm : mantissa n = v).
  { unfold mantissa. rewrite Hs, Hp, app_nil_r. done. }
  rewrite (sql_number_text finite n None (n_whole n)).
  2: { split_and!; [done|done|intros [?|[?|?]]; done|]. exists []. split; [done|]. by rewrite app_nil_r. }
  unfold from_ast_number_literal. rewrite both_widths.
  assert (Hnc : forall c : N, is_digit c = false -> contains (numeral_text n) [c] = false).
  { intros c Hc. rewrite Ht. clear -Hw Hc. induction Hw as [|d s Hd _ IH]; [done|].
    cbn [contains]. rewrite IH, orb_false_r. unfold starts_with. apply bool_decide_false.
    cbn [length take]. intros H. injection H as ->. congruence. }
  rewrite !Hnc by done. cbn [orb]. unfold parse_integer. rewrite !parse_int_plain by done. rewrite Hm.
  assert (Hv0 : 0 <= v) by (unfold v; lia). unfold checked, fits.
  change (int_min 32) with (- 2 ^ 31). change (int_max 32) with (2 ^ 31 - 1).
  change (int_min 64) with (- 2 ^ 63). change (int_max 64) with (2 ^ 63 - 1).
  destruct (Z.leb_spec (- 2 ^ 31) v); [|lia]. destruct (Z.leb_spec (- 2 ^ 63) v); [|lia]. cbn [andb].
  destruct (Z.leb_spec v (2 ^ 31 - 1)), (Z.ltb_spec v (2 ^ 31)); try lia; [done|].
  destruct (Z.leb_spec v (2 ^ 63 - 1)), (Z.ltb_spec v (2 ^ 63)); try lia; [done|]. cbn [or_else].
  assert (Hsig : (0 < significant (n_whole n) <= 38)%nat).
  { pose proof (significant_le (n_whole n)). split; [|lia].
    destruct (significant (n_whole n)) eqn:E; [|lia]. pose proof (significant_value _ Hw) as Hb. rewrite E in Hb.
    change (10 ^ N.of_nat 0)%N with 1%N in Hb. exfalso. unfold v in *. lia. }
  assert (Hwd : whole_digits n = Z.of_nat (significant (n_whole n))).
  { unfold whole_digits. rewrite (bool_decide_false (significant _ = O)) by lia. done. }
  assert (Hnd : needed_digits n = Z.of_nat (significant (n_whole n))).
  { unfold needed_digits, fraction_digits. rewrite Hwd, Hex, Hp. cbn [exponent_value length]. lia. }
  assert (Hsc : needed_scale n = 0) by (unfold needed_scale, fraction_digits; rewrite Hex, Hp; done).
  rewrite parse_decimal_accepts; [|done|done|rewrite Hp; cbn; lia| |lia].
  2: { unfold fraction_digits. rewrite Hex, Hp. cbn. lia. }
  rewrite Hnd, Hsc, Hm. destruct (Z.leb_spec (Z.of_nat (significant (n_whole n))) 38); [|lia].
  unfold fraction_digits. rewrite Hex, Hp. cbn [exponent_value length].
  change (10 ^ Z.max 0 (0 - Z.of_nat 0)) with 1. by rewrite Z.mul_1_r.
Qed.
Print Assumptions C82_integer.
Example C82_integer_ex : forall finite,
  sql_number finite (str "2147483647") = Ok (LInt 32 2147483647) /\
  sql_number finite (str "2147483648") = Ok (LInt 64 2147483648) /\
  sql_number finite (str "0009223372036854775808") = Ok (LDecimal 128 19 0 9223372036854775808).
Proof. done. Qed.

(** An integer with a suffix is of that type, or an error. *)
Theorem C82_integer_suffix (finite : Z -> text -> bool) (n : numeral) (s : text) (suf : suffix) (bits : Z) :
  literal_text n (Some suf) s -> (suf, bits) ∈ [(SufY, 8); (SufS, 16); (SufL, 64)] ->
  sql_number finite s =
    if Z.of_N (dec_value (n_whole n)) <? 2 ^ (bits - 1) then Ok (LInt bits (Z.of_N (dec_value (n_whole n)))) else Err.
Proof.
  intros Ht Hin. pose proof Ht as (Hok & Hs & Hi & _).
  assert (Hpl : plain n /\ from_ast_number_literal finite (numeral_text n) (Some suf) = parse_integer bits (numeral_text n) /\ 1 <= bits).
  { rewrite !elem_of_cons, elem_of_nil in Hin.
    destruct Hin as [H|[H|[H|[]]]]; injection H as -> ->; (split; [apply Hi; unfold integer_suffix; naive_solver|split; [done|lia]]). }
  destruct Hpl as ((_ & Hpt & Hex) & Hf & Hb). rewrite (sql_number_text finite n _ s Ht), Hf.
  unfold parse_integer. rewrite parse_int_plain by done. unfold mantissa, signed. rewrite Hs.
  destruct Hok as (_ & _ & _ & _ & Hp & _). rewrite Hp, app_nil_r by done. rewrite bool_decide_false by done.
  unfold checked, fits, int_min, int_max.
  assert (0 < 2 ^ (bits - 1)) by (apply Z.pow_pos_nonneg; lia).
  destruct (Z.leb_spec (- 2 ^ (bits - 1)) (Z.of_N (dec_value (n_whole n)))); [|lia]. cbn [andb].
  destruct (Z.leb_spec (Z.of_N (dec_value (n_whole n))) (2 ^ (bits - 1) - 1)),
    (Z.ltb_spec (Z.of_N (dec_value (n_whole n))) (2 ^ (bits - 1))); try lia; done.
Qed.
Print Assumptions C82_integer_suffix.
Example C82_integer_suffix_ex : forall finite,
  sql_number finite (str "127Y") = Ok (LInt 8 127) /\ sql_number finite (str "128y") = Err.
Proof. done. Qed.

(** More than 38 digits without a point: a point is put after the 38th digit. *)
Theorem C82_point_inserted (n : numeral) :
  numeral_ok n -> n_point n = false -> (38 < length (n_whole n))%nat ->
  parse_decimal_string (numeral_text n) =
  parse_decimal_string (numeral_text
    (Numeral (n_sign n) (take 38 (n_whole n)) true (drop 38 (n_whole n)) (n_exponent n))).
Proof. apply long_integer_pointed. Qed.
Print Assumptions C82_point_inserted.

(** Whatever text a client sends as a decimal: one that is not refused is a numeral. *)
Theorem C82_only_numerals (s : text) (precision scale : option Z) :
  connect_decimal s precision scale <> Err -> exists n, numeral_ok n /\ s = numeral_text n.
Proof.
  intros H. apply parse_decimal_only. intros E. apply H. unfold connect_decimal. by rewrite E.
Qed.
Print Assumptions C82_only_numerals.
Example C82_only_numerals_ex :
  connect_decimal (str "-1.5e1") None None = Ok (LDecimal 128 2 0 (-15)) /\
  connect_decimal (str "1e") None None = Err /\ connect_decimal (str "1.2.3") None None = Err /\
  connect_decimal (str "1 ") None None = Err.
Proof. done. Qed.

(** So an integer literal of 39 digits is accepted with another value: a tenth of what is written. *)
Definition long_digits : text := str "123456789012345678901234567890123456789".
Theorem C82_exact_refuted :
  exists n s l q, literal_text n None s /\ plain n /\
    (forall finite, sql_number finite s = Ok l) /\ literal_value l = Some q /\
    ~ Qeq q (numeral_value n) /\ Qeq (q * inject_Z 10) (numeral_value n).
Proof.
  exists (Numeral [] long_digits false [] None), long_digits,
    (LDecimal 256 39 1 123456789012345678901234567890123456789),
    (sci 123456789012345678901234567890123456789 (-1)).
  split; [|split; [done|split; [|split; [done|split]]]].
  - split_and!; [|done|done|].
    + split_and!; [by left| |constructor|done|done|done]. apply forallb_all_digits. by vm_compute.
    + exists []. split; [done|]. cbn. done.
  - intros finite. vm_compute. done.
  - vm_compute. done.
  - vm_compute. done.
Qed.
Print Assumptions C82_exact_refuted.

(** A literal that makes the analyzer panic: 38 digits, 14 more after the point, and the exponent 90. *)
Theorem C82_error_refuted :
  exists n s, literal_text n (Some SufBd) s /\ forall finite, sql_number finite s = Panic.
Proof.
  exists (Numeral [] (str "12345678901234567890123456789012345678") true (str "12345678901234") (Some (101%N, [], str "90"))).
  exists (str "12345678901234567890123456789012345678.12345678901234e90BD"). split.
  - split_and!; [|done|intros [?|[?|?]]; done|].
    + split_and!; [by left|by repeat constructor|by repeat constructor|done|done|].
      split_and!; [by left|by left|by repeat constructor|done].
    + exists (str "BD"). done.
  - intros finite. vm_compute. done.
Qed.
Print Assumptions C82_error_refuted.
(** It panics for just the literals with at most 38 digits on either side of the point whose exponent
    moves the point by at most 76 places and that need 128 digits or more. *)
Theorem C82_panics (n : numeral) :
  numeral_ok n -> (length (n_whole n) <= 38)%nat -> (length (n_fraction n) <= 38)%nat ->
  parse_decimal_string (numeral_text n) = Panic <->
  128 <= needed_digits n /\ -76 <= fraction_digits n - exponent_value (n_exponent n) <= 76.
Proof.
  intros Hok Hw Hf. rewrite parse_decimal_numeral by (done || by right). rewrite !bool_decide_true by done.
  cbn [andb]. rewrite decimal_of_captures_numeral by done. cbv zeta.
  pose proof (whole_digits_nonneg n). pose proof (whole_digits_le n Hw).
  assert (0 <= fraction_digits n <= 38) by (unfold fraction_digits; lia).
  unfold needed_digits. set (e := exponent_value (n_exponent n)). set (f := fraction_digits n) in *.
  destruct (fits 8 e) eqn:Hfit; cbn [negb].
  2: { split; [done|]. intros [_ Hs]. rewrite (proj2 (fits8 e)) in Hfit by lia. done. }
  destruct (Z.leb_spec (-76) (f - e)), (Z.leb_spec (f - e) 76); cbn [andb negb]; try (split; [done|lia]).
  destruct (Z.leb_spec 128 (whole_digits n + Z.max f e)).
  - split; [|done]. intros _. lia.
  - split; [|lia]. destruct (76 <? _); done.
Qed.
Print Assumptions C82_panics.

(** A decimal of a client that names no scale, or one that is no larger than that of the text: the
    number is kept. *)
Theorem C82_client (n : numeral) (precision scale : option Z) (bits p sc v : Z) :
  numeral_ok n -> n_point n = true \/ (length (n_whole n) <= 38)%nat ->
  match scale with Some x => 0 <= x <= 127 /\ x <= needed_scale n | None => True end ->
  connect_decimal (numeral_text n) precision scale = Ok (LDecimal bits p sc v) ->
  Qeq (sci v (- sc)) (numeral_value n) /\ needed_digits n <= p /\
  match precision with Some x => 0 <= x <= 255 -> x <= p | None => True end.
Proof.
  intros Hok Hp Hsc. unfold connect_decimal.
  destruct (parse_decimal_string (numeral_text n)) as [l| |] eqn:E; [|done|done].
  destruct (parse_decimal_ok n l Hok Hp E) as (H1 & H2 & H3 & H4). rewrite H4 in *.
  set (b0 := if needed_digits n <=? 38 then 128 else 256) in *.
  set (v0 := mantissa n * _) in *. specialize (H2 (sci v0 (- needed_scale n)) eq_refl).
  assert (Hsc' : match scale with Some x => Z.max (needed_scale n) (wrap 8 x) | None => needed_scale n end = needed_scale n).
  { destruct scale as [x|]; [|done]. rewrite wrap8_small by lia. lia. }
  destruct precision as [x|].
  - intros H. rewrite Hsc' in H. injection H as <- <- <- <-. split_and!; [done|lia|].
    intros Hx. rewrite Z.mod_small by lia. lia.
  - destruct scale as [y|].
    + intros H. rewrite Hsc' in H. injection H as <- <- <- <-. split_and!; [done|lia|done].
    + intros H. injection H as <- <- <- <-. split_and!; [done|lia|done].
Qed.
Print Assumptions C82_client.
Example C82_client_ex : connect_decimal (str "1.50") (Some 10) (Some 0) = Ok (LDecimal 128 10 2 150).
Proof. done. Qed.

(** A larger scale is taken for the type, but the number is not brought to that scale. *)
Theorem C82_client_refuted :
  exists n precision scale bits p sc v, numeral_ok n /\ 0 <= scale <= precision /\ precision <= 38 /\
    connect_decimal (numeral_text n) (Some precision) (Some scale) = Ok (LDecimal bits p sc v) /\
    ~ Qeq (sci v (- sc)) (numeral_value n).
Proof.
  exists (Numeral [] (str "1") true (str "5") None), 10, 4, 128, 10, 4, 15. split_and!; try done.
  split_and!; [by left|by repeat constructor|by repeat constructor|done|done|done].
Qed.
Print Assumptions C82_client_refuted.
