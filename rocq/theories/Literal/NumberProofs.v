From Coq Require Import NArith ZArith ZifyN QArith Ascii String Lia.
From stdpp Require Import prelude list strings.
From Verif Require Import Lib.Text Functions.IntModel Literal.NumberModel Literal.NumberSpec.
#[local] Open Scope Z_scope.

(** ** Runs of digits *)
Lemma digit_run_app (d r : text) : all_digits d -> digit_run (d ++ r) = d ++ digit_run r.
Proof. induction 1 as [|c d Hc _ IH]; [done|]. cbn [app digit_run]. by rewrite Hc, IH. Qed.
Definition no_digit_head (s : text) : Prop := match s with c :: _ => is_digit c = false | [] => True end.
Lemma digit_run_nil (s : text) : no_digit_head s -> digit_run s = [].
Proof. destruct s as [|c s]; cbn; [done|]. by intros ->. Qed.
Lemma digit_run_run (d r : text) : all_digits d -> no_digit_head r -> digit_run (d ++ r) = d.
Proof. intros Hd Hr. by rewrite digit_run_app, digit_run_nil, app_nil_r. Qed.
Lemma all_digits_forallb (d : text) : all_digits d -> forallb is_digit d = true.
Proof. induction 1 as [|c d Hc _ IH]; [done|]. cbn. by rewrite Hc, IH. Qed.
Lemma forallb_all_digits (d : text) : forallb is_digit d = true -> all_digits d.
Proof. induction d as [|c d IH]; [constructor|]. cbn. intros [H1 H2]%andb_true_iff. constructor; [done|]. by apply IH. Qed.
Lemma digit_bounds (c : N) : is_digit c = true -> (48 <= c <= 57)%N.
Proof. unfold is_digit. intros [H1%N.leb_le H2%N.leb_le]%andb_true_iff. lia. Qed.
Lemma digit_no_sign (c : N) : is_digit c = true -> bool_decide (c = 43%N) || bool_decide (c = 45%N) = false.
Proof. intros H%digit_bounds. rewrite !bool_decide_false by lia. done. Qed.
Lemma digit_no_point (c : N) : is_digit c = true -> bool_decide (c = 46%N) = false.
Proof. intros H%digit_bounds. rewrite bool_decide_false by lia. done. Qed.
Lemma letter_cases (l c : N) : letter l c = true <-> c = l \/ c = (l - 32)%N.
Proof. unfold letter. rewrite orb_true_iff, !bool_decide_eq_true. done. Qed.
Lemma digit_no_letter (l c : N) : (90 <= l)%N -> is_digit c = true -> letter l c = false.
Proof.
  intros Hl Hc%digit_bounds. destruct (letter l c) eqn:E; [|done].
  apply letter_cases in E. lia.
Qed.

Lemma take_sign_sign (sg r : text) :
  is_sign sg -> (sg = [] -> match r with c :: _ => c <> 43%N /\ c <> 45%N | [] => True end) ->
  take_sign (sg ++ r) = (sg, r).
Proof.
  intros [->|[->| ->]] Hr; cbn; [|done|done]. specialize (Hr eq_refl).
  destruct r as [|c r]; [done|]. cbn. destruct Hr. by rewrite !bool_decide_false.
Qed.
Lemma digits_no_sign (d r : text) :
  all_digits d -> d <> [] -> match d ++ r with c :: _ => c <> 43%N /\ c <> 45%N | [] => True end.
Proof. intros Hd Hn. destruct d as [|c d]; [done|]. cbn. apply Forall_inv in Hd. apply digit_bounds in Hd. lia. Qed.
Lemma take_sign_digits (sg d r : text) : is_sign sg -> all_digits d -> d <> [] -> take_sign (sg ++ d ++ r) = (sg, d ++ r).
Proof. intros Hs Hd Hn. apply take_sign_sign; [done|]. intros _. by apply digits_no_sign. Qed.

Lemma digit_run_split (s : text) : all_digits (digit_run s) /\ s = digit_run s ++ drop (length (digit_run s)) s.
Proof.
  induction s as [|c s [IH1 IH2]]; [by split; [constructor|]|]. cbn [digit_run].
  destruct (is_digit c) eqn:E; [|by split; [constructor|]].
  split; [by constructor|]. cbn [length drop app]. by rewrite <- IH2.
Qed.
Lemma take_sign_split (s sign r : text) : take_sign s = (sign, r) -> is_sign sign /\ s = sign ++ r.
Proof.
  destruct s as [|c s]; cbn [take_sign].
  - intros [= <- <-]. split; [by left|done].
  - destruct (bool_decide (c = 43%N) || bool_decide (c = 45%N)) eqn:E; intros [= <- <-].
    + apply orb_true_iff in E as [E|E]; apply bool_decide_eq_true in E as ->; split; try done.
      * by right; left.
      * by right; right.
    + split; [by left|done].
Qed.

Lemma with_sign_signed (sg : text) (n : N) : with_sign sg n = signed sg n.
Proof. done. Qed.

Lemma parse_int_numeral (bits : Z) (sg d : text) :
  is_sign sg -> all_digits d -> d <> [] -> parse_int bits (sg ++ d) = checked bits (signed sg (dec_value d)).
Proof.
  intros Hs Hd Hn. unfold parse_int.
  rewrite <- (app_nil_r d) at 1. rewrite take_sign_digits by done. rewrite app_nil_r.
  rewrite bool_decide_false by done. by rewrite all_digits_forallb.
Qed.

Definition exponent_group (e : option (N * text * text)) : option text :=
  match e with None => None | Some (_, sg, ds) => Some (sg ++ ds) end.
Definition exponent_ok (e : option (N * text * text)) : Prop :=
  match e with
  | None => True
  | Some (l, sg, ds) => (l = 101 \/ l = 69)%N /\ is_sign sg /\ all_digits ds /\ ds <> []
  end.
Lemma match_exponent_text e : exponent_ok e -> match_exponent (exponent_text e) = Some (exponent_group e).
Proof.
  destruct e as [[[l sg] ds]|]; cbn [exponent_ok exponent_text exponent_group]; [|done].
  intros (Hl & Hs & Hd & Hn). cbn [match_exponent].
  rewrite (proj2 (letter_cases 101 l)) by (destruct Hl; [by left|by right]).
  rewrite <- (app_nil_r ds) at 1. rewrite take_sign_digits by done. rewrite app_nil_r.
  rewrite bool_decide_false by done. by rewrite all_digits_forallb.
Qed.
Lemma exponent_text_head e : exponent_ok e -> no_digit_head (exponent_text e).
Proof. destruct e as [[[l sg] ds]|]; cbn; [|done]. intros ([->| ->] & _); done. Qed.
Lemma match_exponent_digit c s : is_digit c = true -> match_exponent (c :: s) = None.
Proof. intros H. cbn. by rewrite digit_no_letter by (done || lia). Qed.
Lemma match_exponent_point s : match_exponent (46%N :: s) = None.
Proof. done. Qed.
Lemma skip_point_text e : exponent_ok e -> skip_point (exponent_text e) = exponent_text e.
Proof. destruct e as [[[l sg] ds]|]; cbn; [|done]. by intros ([->| ->] & _). Qed.

Lemma drop_length_app {A} (a b : list A) : drop (length a) (a ++ b) = b.
Proof. apply drop_app. Qed.

(** What the first expression finds in a numeral. *)
Lemma decimal_regex_numeral (n : numeral) :
  numeral_ok n -> n_whole n <> [] -> (length (n_whole n) <= 38)%nat ->
  (length (n_fraction n) <= 38)%nat ->
  decimal_regex (numeral_text n) =
    Some (Captures (n_sign n) (n_whole n) (n_fraction n) (exponent_group (n_exponent n))).
Proof.
  destruct n as [sg wh pt fr ex]. cbn [n_sign n_whole n_point n_fraction n_exponent].
  intros (Hs & Hw & Hf & _ & Hp & He) Hn Hlw Hlf. cbn [n_sign n_whole n_point n_fraction n_exponent] in *.
  unfold numeral_text, decimal_regex. cbn [n_sign n_whole n_point n_fraction n_exponent].
  rewrite take_sign_digits by done.
  assert (Hex : exponent_ok ex) by done. pose proof (exponent_text_head ex Hex) as Hh.
  assert (Hrun : digit_run (wh ++ (if pt then str "." else []) ++ fr ++ exponent_text ex) = wh).
  { apply digit_run_run; [done|]. destruct pt; [done|]. rewrite Hp by done. done. }
  rewrite Hrun, take_ge by done. rewrite bool_decide_false by done. rewrite drop_length_app.
  assert (Hsk : skip_point ((if pt then str "." else []) ++ fr ++ exponent_text ex) = fr ++ exponent_text ex).
  { destruct pt; [done|]. rewrite Hp by done. cbn [app]. by apply skip_point_text. }
  rewrite Hsk. rewrite digit_run_run by done. rewrite take_ge by done. rewrite drop_length_app.
  by rewrite match_exponent_text.
Qed.

(** A numeral with a long whole part and a point is not matched. *)
Lemma decimal_regex_long (n : numeral) :
  numeral_ok n -> n_point n = true -> (38 < length (n_whole n))%nat -> decimal_regex (numeral_text n) = None.
Proof.
  destruct n as [sg wh pt fr ex]. cbn [n_sign n_whole n_point n_fraction n_exponent].
  intros (Hs & Hw & Hf & _ & Hp & He) -> Hl. cbn [n_sign n_whole n_point n_fraction n_exponent] in *.
  unfold numeral_text, decimal_regex. cbn [n_sign n_whole n_point n_fraction n_exponent].
  assert (Hn : wh <> []) by (intros ->; cbn in Hl; lia).
  rewrite take_sign_digits by done. rewrite digit_run_run by done.
  assert (Htl : length (take 38 wh) = 38%nat) by (rewrite take_length; lia).
  rewrite bool_decide_false by (intros H; rewrite H in Htl; done). rewrite Htl.
  rewrite drop_app_le by lia.
  assert (Hd : all_digits (drop 38 wh)) by (apply Forall_drop; done).
  assert (Hdl : (0 < length (drop 38 wh))%nat) by (rewrite drop_length; lia).
  destruct (drop 38 wh) as [|c r] eqn:Ed; [cbn in Hdl; lia|].
  pose proof (Forall_inv Hd) as Hc. cbn in Hc.
  assert (skip_point ((c :: r) ++ str "." ++ fr ++ exponent_text ex) = (c :: r) ++ str "." ++ fr ++ exponent_text ex) as ->.
  { cbn [app skip_point]. by rewrite digit_no_point. }
  rewrite digit_run_run by done.
  destruct (decide (length (c :: r) <= 38)%nat) as [Hle|Hgt].
  - rewrite take_ge by done. rewrite drop_length_app. done.
  - assert (Ht2 : length (take 38 (c :: r)) = 38%nat) by (rewrite take_length; lia). rewrite Ht2.
    rewrite drop_app_le by lia.
    assert (Hd2 : all_digits (drop 38 (c :: r))) by (apply Forall_drop; done).
    assert (Hd2l : (0 < length (drop 38 (c :: r)))%nat) by (rewrite drop_length; lia).
    destruct (drop 38 (c :: r)) as [|c2 r2]; [cbn in Hd2l; lia|].
    change ((c2 :: r2) ++ ?x) with (c2 :: r2 ++ x). rewrite match_exponent_digit; [done|].
    exact (Forall_inv Hd2).
Qed.

(** A numeral with a long fraction is not matched. *)
Lemma decimal_regex_long_fraction (n : numeral) :
  numeral_ok n -> (length (n_whole n) <= 38)%nat -> (38 < length (n_fraction n))%nat ->
  decimal_regex (numeral_text n) = None.
Proof.
  destruct n as [sg wh pt fr ex]. cbn [n_sign n_whole n_point n_fraction n_exponent].
  intros (Hs & Hw & Hf & _ & Hp & He) Hlw Hl. cbn [n_sign n_whole n_point n_fraction n_exponent] in *.
  destruct pt; [|rewrite Hp in Hl by done; cbn in Hl; lia].
  unfold numeral_text, decimal_regex. cbn [n_sign n_whole n_point n_fraction n_exponent].
  destruct (decide (wh = [])) as [->|Hn].
  { rewrite take_sign_sign; [|done|done]. done. }
  rewrite take_sign_digits by done. rewrite digit_run_run by done. rewrite take_ge by done.
  rewrite bool_decide_false by done. rewrite drop_length_app.
  change (skip_point (str "." ++ fr ++ exponent_text ex)) with (fr ++ exponent_text ex).
  assert (Hex : exponent_ok ex) by done. pose proof (exponent_text_head ex Hex) as Hh.
  rewrite digit_run_run by done.
  assert (Ht2 : length (take 38 fr) = 38%nat) by (rewrite take_length; lia). rewrite Ht2.
  rewrite drop_app_le by lia.
  assert (Hd2 : all_digits (drop 38 fr)) by (apply Forall_drop; done).
  assert (Hd2l : (0 < length (drop 38 fr))%nat) by (rewrite drop_length; lia).
  destruct (drop 38 fr) as [|c2 r2]; [cbn in Hd2l; lia|].
  change ((c2 :: r2) ++ ?x) with (c2 :: r2 ++ x). rewrite match_exponent_digit; [done|].
  exact (Forall_inv Hd2).
Qed.

(** The second expression: only numerals that start with the point. *)
Lemma decimal_fraction_regex_whole (n : numeral) :
  numeral_ok n -> n_whole n <> [] -> decimal_fraction_regex (numeral_text n) = None.
Proof.
  destruct n as [sg wh pt fr ex]. cbn [n_sign n_whole n_point n_fraction n_exponent].
  intros (Hs & Hw & Hf & _ & Hp & He) Hn. cbn [n_sign n_whole n_point n_fraction n_exponent] in *.
  unfold numeral_text, decimal_fraction_regex. cbn [n_sign n_whole n_point n_fraction n_exponent].
  rewrite take_sign_digits by done. destruct wh as [|c wh]; [done|]. cbn [app].
  rewrite digit_no_point; [done|]. exact (Forall_inv Hw).
Qed.
Lemma decimal_regex_no_whole (n : numeral) :
  numeral_ok n -> n_whole n = [] -> decimal_regex (numeral_text n) = None.
Proof.
  destruct n as [sg wh pt fr ex]. cbn [n_sign n_whole n_point n_fraction n_exponent].
  intros (Hs & Hw & Hf & Hne & Hp & He) ->. cbn [n_sign n_whole n_point n_fraction n_exponent] in *.
  unfold numeral_text, decimal_regex. cbn [n_sign n_whole n_point n_fraction n_exponent].
  destruct pt; [|by rewrite Hp in Hne]. rewrite take_sign_sign; done.
Qed.
Lemma decimal_fraction_regex_numeral (n : numeral) :
  numeral_ok n -> n_whole n = [] ->
  decimal_fraction_regex (numeral_text n) =
    if bool_decide (length (n_fraction n) <= 38)%nat then
      Some (Captures (n_sign n) [] (n_fraction n) (exponent_group (n_exponent n)))
    else None.
Proof.
  destruct n as [sg wh pt fr ex]. cbn [n_sign n_whole n_point n_fraction n_exponent].
  intros (Hs & Hw & Hf & Hne & Hp & He) ->. cbn [n_sign n_whole n_point n_fraction n_exponent] in *.
  unfold numeral_text, decimal_fraction_regex. cbn [n_sign n_whole n_point n_fraction n_exponent].
  destruct pt; [|by rewrite Hp in Hne]. rewrite take_sign_sign; [|done|done].
  change (([] ++ str "." ++ fr ++ exponent_text ex)) with (46%N :: fr ++ exponent_text ex).
  cbv beta iota. rewrite (bool_decide_true (46%N = 46%N)) by done.
  assert (Hex : exponent_ok ex) by done. pose proof (exponent_text_head ex Hex) as Hh.
  rewrite digit_run_run by done.
  destruct (decide (length fr <= 38)%nat) as [Hl|Hl];
    [rewrite (bool_decide_true (length fr <= 38)%nat) by done|rewrite (bool_decide_false (length fr <= 38)%nat) by done].
  - rewrite take_ge by done. rewrite bool_decide_false by done. rewrite drop_length_app.
    by rewrite match_exponent_text.
  - assert (Ht2 : length (take 38 fr) = 38%nat) by (rewrite take_length; lia).
    rewrite bool_decide_false by (intros H; rewrite H in Ht2; done). rewrite Ht2.
    rewrite drop_app_le by lia.
    assert (Hd2 : all_digits (drop 38 fr)) by (apply Forall_drop; done).
    assert (Hd2l : (0 < length (drop 38 fr))%nat) by (rewrite drop_length; lia).
    destruct (drop 38 fr) as [|c2 r2]; [cbn in Hd2l; lia|].
    change ((c2 :: r2) ++ ?x) with (c2 :: r2 ++ x). rewrite match_exponent_digit; [done|].
    exact (Forall_inv Hd2).
Qed.

(** All together. *)
Definition numeral_captures (n : numeral) : captures :=
  Captures (n_sign n) (n_whole n) (n_fraction n) (exponent_group (n_exponent n)).
Lemma parse_decimal_numeral (n : numeral) :
  numeral_ok n -> n_point n = true \/ (length (n_whole n) <= 38)%nat ->
  parse_decimal_string (numeral_text n) =
    if bool_decide (length (n_whole n) <= 38)%nat && bool_decide (length (n_fraction n) <= 38)%nat
    then decimal_of_captures (numeral_captures n) else Err.
Proof.
  intros Hok Hp. unfold parse_decimal_string. destruct (decide (n_whole n = [])) as [Hw|Hw].
  - rewrite decimal_regex_no_whole, decimal_fraction_regex_numeral by done.
    rewrite (bool_decide_true (length (n_whole n) <= 38)%nat) by (rewrite Hw; cbn; lia).
    cbn [andb]. case_bool_decide; [|done]. by rewrite <- Hw.
  - case_bool_decide as Hl.
    + case_bool_decide as Hf; cbn [andb].
      * by rewrite decimal_regex_numeral.
      * rewrite decimal_regex_long_fraction by (done || lia).
        by rewrite decimal_fraction_regex_whole.
    + cbn [andb]. destruct Hp as [Hp|Hp]; [|done].
      rewrite decimal_regex_long by (done || lia). by rewrite decimal_fraction_regex_whole.
Qed.

(** ** Values *)
Lemma dec_value_snoc (a b : text) :
  dec_value (a ++ b) = (dec_value a * 10 ^ N.of_nat (length b) + dec_value b)%N.
Proof.
  induction b as [|c b IH] using rev_ind; [rewrite app_nil_r; cbn; lia|].
  rewrite app_assoc, !dec_value_app, IH, app_length, Nat.add_1_r, pow_succ_nat. lia.
Qed.
Lemma dec_value_zeros (k : nat) : dec_value (replicate k 48%N) = 0%N.
Proof.
  induction k as [|k IH]; [done|]. change (replicate (S k) 48%N) with ([48%N] ++ replicate k 48%N).
  rewrite dec_value_snoc, IH. cbn. done.
Qed.
Lemma trim_zeros_value (s : text) : dec_value (trim_zeros s) = dec_value s.
Proof.
  induction s as [|c s IH]; [done|]. cbn [trim_zeros]. case_bool_decide as H; [|done]. subst.
  rewrite IH. change (48%N :: s) with ([48%N] ++ s). rewrite dec_value_snoc. cbn. done.
Qed.
Lemma trim_zeros_significant (s : text) : length (trim_zeros s) = significant s.
Proof. induction s as [|c s IH]; [done|]. cbn [trim_zeros significant]. by case_bool_decide. Qed.
Lemma trim_zeros_digits (s : text) : all_digits s -> all_digits (trim_zeros s).
Proof. induction 1 as [|c s Hc Hs IH]; [constructor|]. cbn [trim_zeros]. case_bool_decide; [done|]. by constructor. Qed.
Lemma significant_le (s : text) : (significant s <= length s)%nat.
Proof. induction s as [|c s IH]; [done|]. cbn [significant]. case_bool_decide; cbn; lia. Qed.

Lemma signed_scale (sg : text) (n k : N) : signed sg (n * k) = signed sg n * Z.of_N k.
Proof. unfold signed. case_bool_decide; lia. Qed.
Lemma signed_abs (sg : text) (n : N) : Z.abs (signed sg n) = Z.of_N n.
Proof. unfold signed. case_bool_decide; lia. Qed.

Lemma checked_some (bits z : Z) : fits bits z = true -> checked bits z = Some z.
Proof. unfold checked. by intros ->. Qed.
Lemma fits8 (z : Z) : fits 8 z = true <-> -128 <= z <= 127.
Proof. unfold fits. change (int_min 8) with (-128). change (int_max 8) with 127. rewrite andb_true_iff, !Z.leb_le. done. Qed.
Lemma wrap8_small (z : Z) : -128 <= z <= 127 -> wrap 8 z = z.
Proof.
  intros H. unfold wrap. change (2 ^ (8 - 1)) with 128. change (2 ^ 8) with 256.
  rewrite Z.mod_small; lia.
Qed.
Lemma wrap8_big (z : Z) : 128 <= z <= 383 -> wrap 8 z = z - 256.
Proof.
  intros H. unfold wrap. change (2 ^ (8 - 1)) with 128. change (2 ^ 8) with 256.
  replace (z + 128) with (z - 128 + 1 * 256) by lia. rewrite Z_mod_plus_full, Z.mod_small; lia.
Qed.

(** What the rest of [parse_decimal_string] makes of it. *)
Lemma decimal_of_captures_numeral (n : numeral) :
  numeral_ok n -> (length (n_whole n) <= 38)%nat -> (length (n_fraction n) <= 38)%nat ->
  decimal_of_captures (numeral_captures n) =
    (let e := exponent_value (n_exponent n) in
     let shift := fraction_digits n - e in
     if negb (fits 8 e) then Err
     else if negb ((-76 <=? shift) && (shift <=? 76)) then Err
     else if 128 <=? whole_digits n + Z.max (fraction_digits n) e then Panic
     else if 76 <? needed_digits n then Err
     else Ok (LDecimal (if needed_digits n <=? 38 then 128 else 256) (needed_digits n) (needed_scale n)
                (mantissa n * 10 ^ Z.max 0 (- shift)))).
Proof.
  destruct n as [sg wh pt fr ex]. unfold numeral_captures.
  unfold needed_digits, needed_scale, mantissa, whole_digits, fraction_digits.
  cbn [n_sign n_whole n_point n_fraction n_exponent].
  intros (Hs & Hw & Hf & Hne & Hp & He) Hlw Hlf. cbn in Hs, Hw, Hf, Hne, Hp, He.
  unfold decimal_of_captures. cbn [c_sign c_whole c_fraction c_exponent].
  assert (Hpe : match exponent_group ex with Some t => parse_int 8 t | None => Some 0 end =
    checked 8 (exponent_value ex)).
  { destruct ex as [[[l sg'] ds]|]; cbn [exponent_group exponent_value]; [|done].
    destruct He as (_ & Hsg & Hds & Hdn). by rewrite parse_int_numeral. }
  rewrite Hpe. unfold checked at 1. set (e := exponent_value ex).
  destruct (fits 8 e) eqn:Hfit; cbn [negb]; [|done]. apply fits8 in Hfit.
  assert (Hm : exists whole w,
    match trim_zeros wh, fr with
    | [], [] => ([48%N], 1, 0)
    | _, _ => (trim_zeros wh, Z.of_nat (length (trim_zeros wh)), Z.of_nat (length fr))
    end = (whole, w, Z.of_nat (length fr)) /\
    w = (if bool_decide (significant wh = O) && bool_decide (fr = []) then 1 else Z.of_nat (significant wh)) /\
    dec_value (whole ++ fr) = dec_value (wh ++ fr) /\ 0 <= w <= 38 /\ (fr = [] -> 0 < w)).
  { pose proof (trim_zeros_significant wh) as Hlen. pose proof (significant_le wh) as Hle.
    destruct (trim_zeros wh) as [|c tz] eqn:Et.
    - cbn in Hlen. rewrite <- Hlen. destruct fr as [|c fr].
      + exists [48%N], 1. rewrite !bool_decide_true by done. repeat split; try lia.
        rewrite !app_nil_r. rewrite <- (trim_zeros_value wh), Et. done.
      + exists [], 0. rewrite (bool_decide_false (c :: fr = [])) by done. rewrite andb_false_r.
        repeat split; try lia; [|done]. rewrite !dec_value_snoc. rewrite <- (trim_zeros_value wh), Et. done.
    - exists (c :: tz), (Z.of_nat (significant wh)). cbn in Hlen.
      rewrite (bool_decide_false (significant wh = O)) by lia. cbn [andb].
      repeat split; [by rewrite <- Hlen| |lia|lia|lia].
      rewrite !dec_value_snoc. rewrite <- (trim_zeros_value wh), Et. done. }
  destruct Hm as (whole & w & -> & Hweq & Hval & Hwb & Hw0). rewrite <- Hweq. clear Hweq.
  set (f := Z.of_nat (length fr)) in *. assert (Hfb : 0 <= f <= 38) by lia.
  destruct (fits 8 (f - e)) eqn:Hfe.
  2: { unfold checked. rewrite Hfe.
       assert (~ (-128 <= f - e <= 127)) by (rewrite <- fits8; by rewrite Hfe).
       destruct (Z.leb_spec (-76) (f - e)), (Z.leb_spec (f - e) 76); cbn [andb negb]; try done; lia. }
  rewrite checked_some by done. apply fits8 in Hfe.
  destruct (negb ((-76 <=? f - e) && (f - e <=? 76))) eqn:Hsh; [done|].
  apply negb_false_iff, andb_true_iff in Hsh as [Hs1%Z.leb_le Hs2%Z.leb_le].
  destruct (Z.ltb_spec (f - e) 0) as [Hneg|Hpos].
  - replace (w + f + - (f - e)) with (w + Z.max f e) by lia.
    destruct (Z.leb_spec 128 (w + Z.max f e)) as [Hb|Hb].
    { rewrite wrap8_big by lia. destruct (Z.ltb_spec (w + Z.max f e - 256) 0); [done|lia]. }
    rewrite wrap8_small by lia. destruct (Z.ltb_spec (w + Z.max f e) 0); [lia|].
    rewrite (Z.max_l (w + Z.max f e) 0) by lia. rewrite Z.mod_small by lia.
    replace (Z.max (w + Z.max f e) (f - e)) with (w + Z.max f e) by lia.
    rewrite bool_decide_false by lia. cbn [orb].
    destruct (Z.ltb_spec 76 (w + Z.max f e)); cbn [orb]; [done|].
    destruct (Z.ltb_spec (w + Z.max f e) (Z.abs 0)); [lia|].
    rewrite (Z.max_l 0 (f - e)) by lia. rewrite (Z.max_r 0 (- (f - e))) by lia.
    assert (Hv : with_sign sg (dec_value (whole ++ fr ++ replicate (Z.to_nat (- (f - e))) 48%N)) =
      signed sg (dec_value (wh ++ fr)) * 10 ^ (- (f - e))).
    { rewrite with_sign_signed, app_assoc, dec_value_snoc, dec_value_zeros, replicate_length, Hval.
      rewrite N.add_0_r, signed_scale. f_equal. rewrite N2Z.inj_pow, nat_N_Z, Z2Nat.id by lia. done. }
    rewrite Hv.
    destruct (Z.ltb_spec 38 (w + Z.max f e)), (Z.leb_spec (w + Z.max f e) 38); try lia; done.
  - replace (w + f + 0) with (w + Z.max f e) by lia.
    destruct (Z.leb_spec 128 (w + Z.max f e)) as [Hb|Hb]; [lia|].
    rewrite wrap8_small by lia. destruct (Z.ltb_spec (w + Z.max f e) 0); [lia|].
    rewrite Z.mod_small by lia.
    assert (Hpos1 : 0 < Z.max (w + Z.max f e) (f - e)).
    { destruct (decide (fr = [])) as [Hfr|Hfr]; [specialize (Hw0 Hfr); lia|].
      assert (0 < f); [|lia]. unfold f. destruct fr; [done|cbn; lia]. }
    rewrite bool_decide_false by lia. cbn [orb].
    destruct (Z.ltb_spec 76 (Z.max (w + Z.max f e) (f - e))); cbn [orb]; [done|].
    destruct (Z.ltb_spec (Z.max (w + Z.max f e) (f - e)) (Z.abs (f - e))); [lia|].
    rewrite (Z.max_r 0 (f - e)) by lia. rewrite (Z.max_l 0 (- (f - e))) by lia.
    change (replicate (Z.to_nat 0) 48%N) with ([] : text). rewrite app_nil_r, Hval, with_sign_signed.
    rewrite Z.pow_0_r, Z.mul_1_r.
    destruct (Z.ltb_spec 38 (Z.max (w + Z.max f e) (f - e))), (Z.leb_spec (Z.max (w + Z.max f e) (f - e)) 38);
      try lia; done.
Qed.

(** ** Only numerals are read *)
Lemma match_exponent_some (r : text) g :
  match_exponent r = Some g -> exists e, exponent_ok e /\ r = exponent_text e.
Proof.
  destruct r as [|c r]; cbn [match_exponent]; [by exists None|].
  destruct (letter 101 c) eqn:El; [|done]. destruct (take_sign r) as [sg d] eqn:E.
  apply take_sign_split in E as [Hsg ->]. case_bool_decide as Hd; [done|].
  destruct (forallb is_digit d) eqn:Ed; [|done]. intros _. exists (Some (c, sg, d)).
  apply letter_cases in El. split; [|done]. split_and!; [|done|by apply forallb_all_digits|done].
  destruct El as [->| ->]; [by left|by right].
Qed.
Lemma run_prefix (s : text) :
  let d := take 38 (digit_run s) in all_digits d /\ s = d ++ drop (length d) s.
Proof.
  cbv zeta. destruct (digit_run_split s) as [H1 H2]. split; [by apply Forall_take|].
  assert (H3 : s = take 38 (digit_run s) ++ (drop 38 (digit_run s) ++ drop (length (digit_run s)) s)).
  { rewrite app_assoc, take_drop. exact H2. }
  transitivity (take 38 (digit_run s) ++ (drop 38 (digit_run s) ++ drop (length (digit_run s)) s)); [exact H3|].
  f_equal. transitivity (drop (length (take 38 (digit_run s)))
    (take 38 (digit_run s) ++ (drop 38 (digit_run s) ++ drop (length (digit_run s)) s))).
  - by rewrite drop_length_app.
  - by rewrite <- H3.
Qed.
Theorem parse_decimal_only (s : text) :
  parse_decimal_string s <> Err -> exists n, numeral_ok n /\ s = numeral_text n.
Proof.
  intros H. unfold parse_decimal_string in H.
  destruct (decimal_regex s) as [c|] eqn:E1.
  - clear H. unfold decimal_regex in E1. destruct (take_sign s) as [sg s1] eqn:Es.
    apply take_sign_split in Es as [Hsg ->].
    destruct (run_prefix s1) as [Hw Hs1]. remember (take 38 (digit_run s1)) as whole eqn:Ew. clear Ew.
    case_bool_decide as Hne; [done|]. remember (drop (length whole) s1) as s1' eqn:Es'. clear Es'.
    destruct (run_prefix (skip_point s1')) as [Hf Hs2]. remember (take 38 (digit_run (skip_point s1'))) as fr eqn:Ef. clear Ef.
    destruct (match_exponent _) as [g|] eqn:Em; [|done]. apply match_exponent_some in Em as (e & He & Hr).
    rewrite Hr in Hs2.
    assert (Hsp : s1' = skip_point s1' \/ s1' = 46%N :: skip_point s1').
    { destruct s1' as [|x t]; [by left|]. cbn [skip_point]. case_bool_decide; [subst; by right|by left]. }
    destruct Hsp as [Hsp|Hsp].
    + exists (Numeral sg (whole ++ fr) false [] e). split.
      * split_and!; cbn; [done|by apply Forall_app|constructor| |done|done].
        rewrite app_nil_r. intros [? _]%app_eq_nil. done.
      * unfold numeral_text. cbn. rewrite Hs1. f_equal. rewrite <- app_assoc. f_equal. by rewrite Hsp.
    + exists (Numeral sg whole true fr e). split.
      * split_and!; cbn; [done|done|done| |done|done]. intros [? _]%app_eq_nil. done.
      * unfold numeral_text. cbn. rewrite Hs1. f_equal. f_equal. rewrite Hsp. by rewrite Hs2 at 1.
  - destruct (decimal_fraction_regex s) as [c|] eqn:E2; [|done]. clear H E1. unfold decimal_fraction_regex in E2.
    destruct (take_sign s) as [sg s1] eqn:Es. apply take_sign_split in Es as [Hsg ->].
    destruct s1 as [|x s2]; [done|]. case_bool_decide as Hx; [|done]. subst x.
    destruct (run_prefix s2) as [Hf Hs2]. remember (take 38 (digit_run s2)) as fr eqn:Ef. clear Ef.
    case_bool_decide as Hne; [done|]. destruct (match_exponent _) as [g|] eqn:Em; [|done].
    apply match_exponent_some in Em as (e & He & Hr). rewrite Hr in Hs2.
    exists (Numeral sg [] true fr e). split.
    + split_and!; cbn; [done|constructor|done|done|done|done].
    + unfold numeral_text. cbn. f_equal. f_equal. by rewrite Hs2 at 1.
Qed.
