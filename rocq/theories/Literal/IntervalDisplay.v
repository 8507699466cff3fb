(** Reading back the intervals that are shown with a qualifier. *)
From Coq Require Import NArith ZArith ZifyN ZifyBool Ascii String Lia.
From stdpp Require Import prelude list strings.
From Verif Require Import Lib.Text Functions.IntModel Sql.LexModel Sql.LexSpec Sql.LexProofs Literal.NumberModel
  Literal.NumberSpec Literal.NumberProofs Literal.IntervalModel Literal.IntervalSpec Literal.IntervalProofs
  Literal.IntervalLex Literal.IntervalShow.
From Verif.Sql Require MarkerProofs.
#[local] Open Scope Z_scope.

(** ** Numbers *)
Lemma number_decimal (n : N) : number (decimal n).
Proof. split; [apply forallb_all_digits, MarkerProofs.decimal_digits|apply MarkerProofs.decimal_nonempty]. Qed.
Definition minus_if (b : bool) : text := if b then str "-" else [].
Lemma print_int_split (n : Z) : print_int n = minus_if (n <? 0) ++ decimal (Z.to_N (Z.abs n)).
Proof. by destruct n. Qed.
Lemma print_int_nonneg (n : Z) : 0 <= n -> print_int n = decimal (Z.to_N n).
Proof. by destruct n. Qed.
Lemma decimal_z (n : Z) : 0 <= n -> Z.of_N (dec_value (decimal (Z.to_N n))) = n.
Proof. intros H. rewrite MarkerProofs.decimal_value. lia. Qed.
Lemma pad2_number (n : Z) : 0 <= n -> number (pad2 n) /\ Z.of_N (dec_value (pad2 n)) = n.
Proof.
  intros Hn. unfold pad2. rewrite print_int_nonneg by done. pose proof (number_decimal (Z.to_N n)) as [H1 H2].
  destruct (n <? 10); split.
  - split; [|done]. by constructor.
  - change (48%N :: decimal (Z.to_N n)) with ([48%N] ++ decimal (Z.to_N n)). rewrite dec_value_snoc.
    change (dec_value [48%N]) with 0%N. rewrite N.mul_0_l, N.add_0_l. by apply decimal_z.
  - done.
  - by apply decimal_z.
Qed.
Lemma quot_abs (n a : Z) : 0 < a -> Z.abs (Z.quot n a) = Z.abs n / a.
Proof. intros H. rewrite <- Z.quot_abs by lia. rewrite (Z.abs_eq a) by lia. apply Z.quot_div_nonneg; lia. Qed.
Lemma rem_abs (n a : Z) : 0 < a -> Z.abs (Z.rem n a) = Z.abs n mod a.
Proof. intros H. rewrite <- Z.rem_abs by lia. rewrite (Z.abs_eq a) by lia. apply Z.rem_mod_nonneg; lia. Qed.
Lemma quot_neg (n a : Z) : 0 < a -> (Z.quot n a <? 0) || (Z.quot n a =? 0) && (n <? 0) = (n <? 0).
Proof.
  intros Ha. destruct (Z.ltb_spec n 0).
  - pose proof (Z.quot_opp_l n a ltac:(lia)) as Ho. rewrite Z.quot_div_nonneg in Ho by lia.
    assert (0 <= - n / a) by (apply Z.div_pos; lia). lia.
  - pose proof (Z.quot_pos n a ltac:(lia) Ha). lia.
Qed.

(** ** Fractions *)
Lemma decimal_loop_length (fuel digits : nat) (n : N) :
  (0 < digits)%nat -> (n < 10 ^ N.of_nat digits)%N -> (length (decimal_loop fuel n) <= digits)%nat.
Proof.
  revert digits n. induction fuel as [|fuel IH]; intros digits n Hd Hn; cbn [decimal_loop]; [cbn; lia|].
  destruct (N.ltb_spec n 10); [cbn; lia|]. rewrite app_length. cbn [length].
  destruct digits as [|[|digits]]; [lia|change (10 ^ N.of_nat 1)%N with 10%N in Hn; lia|].
  specialize (IH (S digits) (n / 10)%N ltac:(lia)).
  assert (n / 10 < 10 ^ N.of_nat (S digits))%N.
  { apply N.div_lt_upper_bound; [lia|]. rewrite (Nat2N.inj_succ (S digits)), N.pow_succ_r' in Hn. lia. }
  specialize (IH H0). lia.
Qed.
Lemma decimal_length (digits : nat) (n : N) :
  (0 < digits)%nat -> (n < 10 ^ N.of_nat digits)%N -> (length (decimal n) <= digits)%nat.
Proof. apply decimal_loop_length. Qed.
Lemma trim_zeros_split (s : text) : exists k, s = replicate k 48%N ++ trim_zeros s.
Proof.
  induction s as [|c s [k IH]]; [by exists O|]. cbn [trim_zeros].
  destruct (bool_decide (c = 48%N)) eqn:E; [|by exists O].
  apply bool_decide_eq_true in E as ->. exists (S k). cbn. by rewrite <- IH.
Qed.
Lemma trim_end_split (s : text) : exists k, s = trim_end_zeros s ++ replicate k 48%N.
Proof.
  destruct (trim_zeros_split (rev s)) as [k Hk]. exists k. unfold trim_end_zeros.
  apply (f_equal (@rev N)) in Hk. rewrite rev_involutive, rev_app_distr in Hk. rewrite Hk at 1. f_equal.
  clear. induction k as [|k IH]; [done|]. cbn [replicate rev]. rewrite IH.
  symmetry. apply (replicate_cons_app k 48%N).
Qed.
(** What a fraction of [digits] digits shows. *)
Lemma show_fraction_shows (digits : nat) (n : Z) :
  0 <= n < 10 ^ Z.of_nat digits ->
  exists fraction : option text,
    show_fraction digits n = match fraction with Some d => str "." ++ d | None => [] end /\
    match fraction with Some d => number d | None => True end /\
    fraction_micros fraction = n * 1000000 / 10 ^ Z.of_nat digits.
Proof.
  intros Hn. unfold show_fraction. destruct (Z.ltb_spec 0 n).
  2: { exists None. split_and!; [done|done|]. replace n with 0 by lia. by rewrite Z.mul_0_l, Z.div_0_l by lia. }
  assert (Hdg : (0 < digits)%nat) by (destruct digits; [cbn in Hn; lia|lia]).
  set (v := print_int n). destruct (trim_end_split v) as [k Hk]. remember (trim_end_zeros v) as t eqn:Et.
  assert (Hv : v = decimal (Z.to_N n)) by (by apply print_int_nonneg; lia).
  assert (Hval : Z.of_N (dec_value v) = n) by (rewrite Hv; apply decimal_z; lia).
  assert (Hlen : (length v <= digits)%nat).
  { rewrite Hv. apply decimal_length; [done|]. apply N2Z.inj_lt. rewrite Z2N.id, N2Z.inj_pow, nat_N_Z; lia. }
  assert (Hvd : all_digits v) by (rewrite Hv; apply number_decimal).
  assert (Htd : all_digits t) by (rewrite Hk in Hvd; by apply Forall_app in Hvd as [? _]).
  assert (Hdec : n = Z.of_N (dec_value t) * 10 ^ Z.of_nat k).
  { rewrite <- Hval, Hk at 1. rewrite dec_value_snoc, dec_value_zeros, replicate_length, N.add_0_r.
    rewrite N2Z.inj_mul, N2Z.inj_pow, nat_N_Z. done. }
  assert (Htne : t <> []). { intros ->. cbn in Hdec. lia. }
  assert (Hvl : length v = (length t + k)%nat) by (rewrite Hk at 1; by rewrite app_length, replicate_length).
  set (d := replicate (digits - length v) 48%N ++ t). exists (Some d). split_and!; [done| |].
  - split; [|unfold d; by intros [_ Hx]%app_eq_nil]. apply Forall_app. split; [|done]. apply Forall_replicate. done.
  - cbn [fraction_micros]. unfold d. rewrite dec_value_snoc, dec_value_zeros, N.mul_0_l, N.add_0_l, app_length, replicate_length.
    replace (digits - length v + length t)%nat with (digits - k)%nat by lia.
    rewrite Hdec. replace (Z.of_nat digits) with (Z.of_nat (digits - k) + Z.of_nat k) by lia.
    rewrite Z.pow_add_r by lia.
    replace (Z.of_N (dec_value t) * 10 ^ Z.of_nat k * 1000000) with (Z.of_N (dec_value t) * 1000000 * 10 ^ Z.of_nat k) by lia.
    by rewrite div_scale by lia.
Qed.

(** ** Years and months *)
Lemma plain_digits (d : text) : all_digits d -> Forall plain_char d.
Proof. intros H. eapply list.Forall_impl; [exact H|]. intros c Hc%digit_bounds. unfold plain_char, QUOTE, BSLASH. lia. Qed.
Lemma plain_decimal (n : N) : Forall plain_char (decimal n).
Proof. apply plain_digits, number_decimal. Qed.
Lemma plain_minus (b : bool) : Forall plain_char (minus_if b).
Proof. destruct b; repeat constructor; done. Qed.
Lemma is_minus_if (b : bool) : is_minus (minus_if b) = b.
Proof. by destruct b. Qed.
Lemma sign_if (b : bool) : is_sign (minus_if b).
Proof. destruct b; [by right; right|by left]. Qed.

Section show.
Context (alnum : N -> bool) (Ha : ascii_alnum alnum).

Lemma year_month_back (n : Z) :
  to_year_month alnum (show_year_month n) = if Z.abs n <=? int_max 32 then Some n else None.
Proof.
  set (years := decimal (Z.to_N (Z.abs n / 12))). set (months := decimal (Z.to_N (Z.abs n mod 12))).
  set (body := minus_if (n <? 0) ++ years ++ str "-" ++ months).
  assert (Hshow : show_year_month n = str "INTERVAL '" ++ body ++ str "' YEAR TO MONTH").
  { unfold show_year_month, body. rewrite (print_int_nonneg (Z.abs _)) by lia. rewrite print_int_split, quot_abs, rem_abs by lia.
    fold years months. f_equal. rewrite !app_assoc. f_equal. f_equal. f_equal. f_equal.
    pose proof (quot_neg n 12 ltac:(lia)) as Hq.
    destruct (Z.quot n 12 =? 0) eqn:E, (n <? 0) eqn:E2, (Z.quot n 12 <? 0) eqn:E3; try done; lia. }
  assert (Hw : written YearToMonth body (minus_if (n <? 0)) [(FYear, years); (FMonth, months)] None).
  { exists [], (years ++ str "-" ++ months), [], []. split_and!; [constructor|apply sign_if|done| |by left|constructor|].
    - constructor; [apply number_decimal|]. pose proof (shows_next FMonth months [] (str "-") [] (number_decimal _) eq_refl shows_end) as H.
      by rewrite app_nil_r in H.
    - unfold body. cbn [app]. by rewrite app_nil_r. }
  assert (Htot : total months_in [(FYear, years); (FMonth, months)] = Z.abs n).
  { rewrite !total_cons, total_nil. cbn [months_in]. unfold years, months. rewrite !decimal_z.
    - pose proof (Z.div_mod (Z.abs n) 12). lia.
    - apply Z.mod_pos_bound. lia.
    - apply Z.div_pos; lia. }
  unfold to_year_month. rewrite Hshow, (parse_qualified_ym alnum Ha).
  2: { unfold body, years, months. repeat apply Forall_app_2; try apply plain_decimal; try apply plain_minus. by constructor. }
  destruct (standard_case YearToMonth false body _ _ _ Hw) as [H1 H2].
  unfold in_range, says in H1, H2. cbn [last_field rank Nat.leb] in H1, H2. rewrite Htot, is_minus_if in H1. rewrite Htot in H2.
  destruct (Z.leb_spec (Z.abs n) (int_max 32)).
  - rewrite H1 by done. f_equal. unfold opposite_if, xorb. destruct (Z.ltb_spec n 0); lia.
  - rewrite H2 by lia. done.
Qed.

(** ** Days, hours, minutes and seconds *)
Definition day_time_total (days hours minutes seconds : Z) (fraction : option text) : Z :=
  Z.abs days * 86400000000 + hours * 3600000000 + minutes * 60000000 + seconds * 1000000 + fraction_micros fraction.
Lemma day_time_back (negative : bool) (days hours minutes seconds : Z) (frac : text) (fraction : option text) :
  (negative = true -> days = 0) -> 0 <= hours -> 0 <= minutes -> 0 <= seconds ->
  frac = match fraction with Some d => str "." ++ d | None => [] end ->
  match fraction with Some d => number d | None => True end ->
  to_day_time alnum (day_time_text negative days hours minutes seconds frac) =
    if day_time_total days hours minutes seconds fraction <=? int_max 64 then
      Some (opposite_if (negative || (days <? 0)) (day_time_total days hours minutes seconds fraction))
    else None.
Proof.
  intros Hneg Hh Hm Hs Hfrac Hnum. set (t := day_time_total days hours minutes seconds fraction).
  set (sign := minus_if (negative || (days <? 0))).
  set (body := sign ++ decimal (Z.to_N (Z.abs days)) ++ str " " ++ pad2 hours ++ str ":" ++ pad2 minutes ++
               str ":" ++ pad2 seconds ++ frac).
  set (caps := [(FDay, decimal (Z.to_N (Z.abs days))); (FHour, pad2 hours); (FMinute, pad2 minutes); (FSecond, pad2 seconds)]).
  assert (Hshow : day_time_text negative days hours minutes seconds frac = str "INTERVAL '" ++ body ++ str "' DAY TO SECOND").
  { unfold day_time_text, body, sign. rewrite print_int_split, <- !app_assoc. do 1 f_equal.
    destruct negative; [rewrite Hneg by done|]; done. }
  destruct (pad2_number hours Hh) as [Nh Vh]. destruct (pad2_number minutes Hm) as [Nm Vm].
  destruct (pad2_number seconds Hs) as [Ns Vs].
  assert (Hsf : shows_fraction DayToSecond fraction frac).
  { destruct fraction as [d|]; cbn; [done|]. by left. }
  assert (Hw : written DayToSecond body sign caps fraction).
  { exists [], (decimal (Z.to_N (Z.abs days)) ++ str " " ++ pad2 hours ++ str ":" ++ pad2 minutes ++ str ":" ++ pad2 seconds ++ []), frac, [].
    split_and!; [constructor|apply sign_if|done| |done|constructor|].
    - apply shows_first; [apply number_decimal|]. apply shows_next; [done|split; [by repeat constructor|done]|].
      apply shows_next; [done|done|]. apply shows_next; [done|done|apply shows_end].
    - unfold body. by rewrite !app_nil_r, <- !app_assoc. }
  assert (Htot : total micros_in caps + fraction_micros fraction = t).
  { unfold caps, t, day_time_total. rewrite !total_cons, total_nil. cbn [micros_in]. rewrite decimal_z by lia. lia. }
  unfold to_day_time. rewrite Hshow, (parse_qualified_ds alnum Ha).
  2: { unfold body, sign. repeat apply Forall_app_2; try apply plain_decimal; try apply plain_minus;
       try (apply plain_digits; first [apply Nh|apply Nm|apply Ns]); try (by constructor).
       subst frac. destruct fraction as [d|]; [|constructor]. apply Forall_app_2; [by constructor|]. by apply plain_digits, Hnum. }
  destruct (standard_case DayToSecond false body _ _ _ Hw) as [H1 H2].
  unfold in_range, says in H1, H2. cbn [last_field rank Nat.leb] in H1, H2. rewrite Htot in H1, H2.
  unfold sign in H1. rewrite is_minus_if in H1. rewrite xorb_false_l in H1.
  destruct (Z.leb_spec t (int_max 64)); [by rewrite H1|]. rewrite H2 by lia. done.
Qed.

Lemma duration_back (u : Z) (digits : nat) (n : Z) :
  (u, digits) ∈ [(1, 0%nat); (1000, 3%nat); (1000000, 6%nat); (1000000000, 9%nat)] ->
  to_day_time alnum (show_duration u digits n) =
    if Z.abs (Z.quot (n * 1000000) u) <=? int_max 64 then Some (Z.quot (n * 1000000) u) else None.
Proof.
  intros Hu.
  assert (Hu' : 0 < u /\ u = 10 ^ Z.of_nat digits /\ (u = 1 \/ u = 1000 \/ u = 1000000 \/ u = 1000000000)).
  { rewrite !elem_of_cons in Hu. destruct Hu as [[= -> ->]|[[= -> ->]|[[= -> ->]|[[= -> ->]|Hu]]]]; [..|by apply elem_of_nil in Hu];
      (split; [lia|]; split; [done|lia]). }
  destruct Hu' as (Hpos & Hpow & Hcases).
  destruct (show_fraction_shows digits (Z.abs (Z.rem n u))) as (fraction & Hfrac & Hnum & Hmicros).
  { rewrite rem_abs, <- Hpow by done. apply Z.mod_pos_bound. done. }
  unfold show_duration.
  erewrite day_time_back; [|by intros [Hx%Z.eqb_eq _]%andb_true_iff|apply Z.abs_nonneg..|exact Hfrac|exact Hnum].
  assert (Ht : day_time_total (Z.quot n (86400 * u)) (Z.abs (Z.quot (Z.rem n (86400 * u)) (3600 * u)))
    (Z.abs (Z.quot (Z.rem n (3600 * u)) (60 * u))) (Z.abs (Z.quot (Z.rem n (60 * u)) u)) fraction =
    Z.abs (Z.quot (n * 1000000) u)).
  { unfold day_time_total. rewrite Hmicros, <- Hpow, !quot_abs, !rem_abs by lia.
    rewrite Z.abs_mul, (Z.abs_eq 1000000) by lia.
    pose proof (Z.abs_nonneg n) as Hn. generalize (Z.abs n) as a, Hn. clear -Hcases. intros a Ha.
    destruct Hcases as [->|[->|[->| ->]]]; Z.to_euclidean_division_equations; lia. }
  rewrite Ht. destruct (Z.leb_spec (Z.abs (Z.quot (n * 1000000) u)) (int_max 64)); [|done]. f_equal.
  assert (Hs : ((Z.quot n (86400 * u) =? 0) && (n <? 0)) || (Z.quot n (86400 * u) <? 0) = (n <? 0)).
  { rewrite orb_comm. apply quot_neg. clear -Hpos. lia. }
  rewrite Hs. unfold opposite_if. pose proof (quot_neg (n * 1000000) u Hpos) as Hq. revert Hq.
  generalize (Z.quot (n * 1000000) u) as q. clear. intros q Hq. destruct (Z.ltb_spec n 0); lia.
Qed.

Lemma day_interval_back (days ms : Z) :
  same_sign [days; ms] -> fits 32 days = true -> fits 32 (days + Z.quot ms 86400000) = true ->
  to_day_time alnum (show_day_time days ms) =
    if Z.abs (days * 86400000000 + ms * 1000) <=? int_max 64 then Some (days * 86400000000 + ms * 1000) else None.
Proof.
  intros Hsame Hd Hfit. unfold show_day_time.
  destruct (show_fraction_shows 3 (Z.abs (Z.rem (Z.rem ms 86400000) 1000))) as (fraction & Hfrac & Hnum & Hmicros).
  { rewrite rem_abs by lia. change (10 ^ Z.of_nat 3) with 1000. apply Z.mod_pos_bound. lia. }
  assert (Hwr : wrap 32 (days + Z.quot ms 86400000) = days + Z.quot ms 86400000).
  { unfold fits in Hfit. apply andb_true_iff in Hfit as [H1%Z.leb_le H2%Z.leb_le].
    destruct i32_bounds as [E1 E2]. rewrite E1 in H1. rewrite E2 in H2. unfold wrap.
    change (2 ^ (32 - 1)) with 2147483648 in *. change (2 ^ 32) with 4294967296 in *.
    rewrite Z.mod_small by lia. lia. }
  rewrite Hwr. clear Hwr.
  assert (Hb : -2147483648 <= days + Z.quot ms 86400000 <= 2147483647).
  { unfold fits in Hfit. apply andb_true_iff in Hfit as [H1%Z.leb_le H2%Z.leb_le].
    destruct i32_bounds as [E1 E2]. lia. }
  erewrite day_time_back; [|by intros [Hx%Z.eqb_eq _]%andb_true_iff|apply Z.abs_nonneg..|exact Hfrac|exact Hnum].
  assert (Ht : day_time_total (days + Z.quot ms 86400000) (Z.abs (Z.quot (Z.rem (Z.rem ms 86400000) 86400000) 3600000))
    (Z.abs (Z.quot (Z.rem (Z.rem ms 86400000) 3600000) 60000)) (Z.abs (Z.quot (Z.rem (Z.rem ms 86400000) 60000) 1000)) fraction =
    Z.abs (days * 86400000000 + ms * 1000)).
  { unfold day_time_total. rewrite Hmicros, !quot_abs, !rem_abs by lia. change (10 ^ Z.of_nat 3) with 1000.
    assert (Hab : Z.abs (days + Z.quot ms 86400000) = Z.abs days + Z.abs ms / 86400000 /\
                  Z.abs (days * 86400000000 + ms * 1000) = Z.abs days * 86400000000 + Z.abs ms * 1000).
    { pose proof (quot_abs ms 86400000 ltac:(lia)) as Hq.
      destruct Hsame as [Hs|Hs]; apply Forall_cons_1 in Hs as [Hs1 Hs]; apply Forall_cons_1 in Hs as [Hs2 _].
      - pose proof (Z.quot_pos ms 86400000). lia.
      - pose proof (quot_neg ms 86400000 ltac:(lia)). lia. }
    destruct Hab as [-> ->]. generalize (Z.abs_nonneg ms). generalize (Z.abs ms) as a. clear. intros a Ha.
    Z.to_euclidean_division_equations. lia. }
  rewrite Ht.
  assert (Hms : Z.abs (Z.rem ms 86400000) < 86400000) by (rewrite rem_abs by lia; apply Z.mod_pos_bound; lia).
  pose proof (Z.quot_rem' ms 86400000) as Hqr.
  destruct (Z.abs (days * 86400000000 + ms * 1000) <=? int_max 64); [|done]. f_equal. unfold opposite_if.
  destruct Hsame as [Hs|Hs]; apply Forall_cons_1 in Hs as [Hs1 Hs]; apply Forall_cons_1 in Hs as [Hs2 _].
  - pose proof (Z.quot_pos ms 86400000 ltac:(lia) ltac:(lia)) as Hq. pose proof (Z.rem_nonneg ms 86400000 ltac:(lia) ltac:(lia)) as Hr.
    rewrite (proj2 (Z.ltb_ge (Z.rem ms 86400000) 0) Hr), andb_false_r. rewrite (proj2 (Z.ltb_ge (days + _) 0)) by lia. cbn [orb]. lia.
  - assert (Hr : Z.rem ms 86400000 <= 0) by (pose proof (Z.rem_opp_l ms 86400000 ltac:(lia)); pose proof (Z.rem_nonneg (- ms) 86400000 ltac:(lia) ltac:(lia)); lia).
    pose proof (quot_neg ms 86400000 ltac:(lia)) as Hq. revert Hq Hr Hms Hqr Hs1 Hs2. clear.
    generalize (Z.quot ms 86400000) as q, (Z.rem ms 86400000) as r. intros q r Hq Hr Hms Hqr Hs1 Hs2.
    destruct ((days + q =? 0) && (r <? 0) || (days + q <? 0)) eqn:E; lia.
Qed.
End show.
