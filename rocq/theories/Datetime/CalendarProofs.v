(** Day numbers and dates. *)
From Coq Require Import ZArith Lia ZifyBool.
From stdpp Require Import prelude.
From Verif.Datetime Require Import CalendarModel CalendarSpec.
Local Open Scope Z_scope.

Lemma is_leap_spec y : is_leap y = bool_decide (leap y).
Proof.
  unfold is_leap, leap.
  assert (forall k, k <> 0 -> ((y mod k =? 0) = true <-> (k | y))) as Hk.
  { intros k Hk. rewrite Z.eqb_eq. by apply Z.mod_divide. }
  pose proof (Hk 4 ltac:(done)) as H4. pose proof (Hk 100 ltac:(done)) as H100. pose proof (Hk 400 ltac:(done)) as H400.
  apply eq_bool_prop_intro. rewrite !Is_true_true, bool_decide_eq_true.
  destruct (y mod 4 =? 0), (y mod 100 =? 0), (y mod 400 =? 0); cbn; intuition congruence.
Qed.
Lemma month_length_spec y m : month_length y m = length_of_month y m.
Proof.
  unfold month_length, length_of_month. rewrite is_leap_spec.
  destruct (Z.eqb_spec m 2) as [->|]; [rewrite decide_True by done; by case_decide; [rewrite bool_decide_true|rewrite bool_decide_false]|].
  rewrite decide_False by done.
  case_decide as H; [replace ((m =? 4) || (m =? 6) || (m =? 9) || (m =? 11)) with true by lia|
    replace ((m =? 4) || (m =? 6) || (m =? 9) || (m =? 11)) with false by lia]; done.
Qed.
Lemma year_days y : days_before_year (y + 1) = days_before_year y + (if is_leap y then 366 else 365).
Proof.
  unfold days_before_year, is_leap. replace (y + 1 - 1) with y by lia.
  destruct (Z.eqb_spec (y mod 4) 0), (Z.eqb_spec (y mod 100) 0), (Z.eqb_spec (y mod 400) 0); cbn [andb orb negb];
    Z.to_euclidean_division_equations; lia.
Qed.
Lemma year_of_spec n : days_before_year (year_of n) <= n < days_before_year (year_of n + 1).
Proof.
  unfold year_of. set (y := n * 400 / 146097 + 1).
  assert (days_before_year (y - 1) <= n) as H1.
  { unfold days_before_year, y. Z.to_euclidean_division_equations; lia. }
  assert (n < days_before_year (y + 2)) as H2.
  { unfold days_before_year, y. Z.to_euclidean_division_equations; lia. }
  clearbody y.
  destruct (Z.ltb_spec n (days_before_year y)).
  - replace (y - 1 + 1) with y by lia. lia.
  - destruct (Z.leb_spec (days_before_year (y + 1)) n); [|lia].
    replace (y + 1 + 1) with (y + 2) by lia. lia.
Qed.
Lemma days_before_year_mono y y' : y <= y' -> days_before_year y <= days_before_year y'.
Proof.
  intros H. replace y' with (y + Z.of_nat (Z.to_nat (y' - y))) by lia. generalize (Z.to_nat (y' - y)) as k. clear.
  induction k as [|k IH]; [replace (y + Z.of_nat 0) with y by lia; lia|].
  replace (y + Z.of_nat (S k)) with (y + Z.of_nat k + 1) by lia. rewrite year_days.
  destruct (is_leap _); lia.
Qed.
Lemma year_of_unique n y : days_before_year y <= n < days_before_year (y + 1) -> year_of n = y.
Proof.
  intros H. pose proof (year_of_spec n) as H'. set (y' := year_of n) in *. clearbody y'.
  destruct (Z.lt_trichotomy y y') as [L|[->|L]]; [|done|].
  - pose proof (days_before_year_mono (y + 1) y' ltac:(lia)). lia.
  - pose proof (days_before_year_mono (y' + 1) y ltac:(lia)). lia.
Qed.

Lemma month_cases m (P : Z -> Prop) : 1 <= m <= 12 ->
  P 1 -> P 2 -> P 3 -> P 4 -> P 5 -> P 6 -> P 7 -> P 8 -> P 9 -> P 10 -> P 11 -> P 12 -> P m.
Proof.
  intros H. intros. assert (m = 1 \/ m = 2 \/ m = 3 \/ m = 4 \/ m = 5 \/ m = 6 \/ m = 7 \/ m = 8 \/ m = 9 \/ m = 10 \/ m = 11 \/ m = 12) as Hm by lia.
  destruct Hm as [->|[->|[->|[->|[->|[->|[->|[->|[->|[->|[->| ->]]]]]]]]]]]; done.
Qed.
Lemma month_starts y : let l := if is_leap y then 1 else 0 in
  days_in_months 0 y = 0 /\ days_in_months 1 y = 31 /\ days_in_months 2 y = 59 + l /\ days_in_months 3 y = 90 + l /\
  days_in_months 4 y = 120 + l /\ days_in_months 5 y = 151 + l /\ days_in_months 6 y = 181 + l /\
  days_in_months 7 y = 212 + l /\ days_in_months 8 y = 243 + l /\ days_in_months 9 y = 273 + l /\
  days_in_months 10 y = 304 + l /\ days_in_months 11 y = 334 + l /\ days_in_months 12 y = 365 + l.
Proof. cbn -[Z.add]. unfold month_length. destruct (is_leap y); cbn; repeat split; reflexivity. Qed.
Lemma month_of_spec y n : 0 <= n < (if is_leap y then 366 else 365) ->
  let '(m, d) := month_of 11 y n in
  1 <= m <= 12 /\ 0 <= d < month_length y m /\ days_in_months (Z.to_nat (m - 1)) y + d = n.
Proof.
  intros H. destruct (month_starts y) as (S0 & S1 & S2 & S3 & S4 & S5 & S6 & S7 & S8 & S9 & S10 & S11 & S12).
  cbn [month_of]. rewrite S1, S2, S3, S4, S5, S6, S7, S8, S9, S10, S11.
  assert (forall m d k, 1 <= m <= 12 -> Z.to_nat (m - 1) = k -> 0 <= d < month_length y m -> days_in_months k y + d = n ->
    1 <= m <= 12 /\ 0 <= d < month_length y m /\ days_in_months (Z.to_nat (m - 1)) y + d = n) as Hfin
    by (intros m d k ? <- ? ?; done).
  destruct (Z.leb_spec (334 + (if is_leap y then 1 else 0)) n);
    [apply (Hfin 12 _ 11%nat); [lia|done|unfold month_length; cbn [Z.eqb Pos.eqb orb]; destruct (is_leap y); lia|rewrite S11; destruct (is_leap y); lia]|].
  destruct (Z.leb_spec (304 + (if is_leap y then 1 else 0)) n);
    [apply (Hfin 11 _ 10%nat); [lia|done|unfold month_length; cbn [Z.eqb Pos.eqb orb]; destruct (is_leap y); lia|rewrite S10; destruct (is_leap y); lia]|].
  destruct (Z.leb_spec (273 + (if is_leap y then 1 else 0)) n);
    [apply (Hfin 10 _ 9%nat); [lia|done|unfold month_length; cbn [Z.eqb Pos.eqb orb]; destruct (is_leap y); lia|rewrite S9; destruct (is_leap y); lia]|].
  destruct (Z.leb_spec (243 + (if is_leap y then 1 else 0)) n);
    [apply (Hfin 9 _ 8%nat); [lia|done|unfold month_length; cbn [Z.eqb Pos.eqb orb]; destruct (is_leap y); lia|rewrite S8; destruct (is_leap y); lia]|].
  destruct (Z.leb_spec (212 + (if is_leap y then 1 else 0)) n);
    [apply (Hfin 8 _ 7%nat); [lia|done|unfold month_length; cbn [Z.eqb Pos.eqb orb]; destruct (is_leap y); lia|rewrite S7; destruct (is_leap y); lia]|].
  destruct (Z.leb_spec (181 + (if is_leap y then 1 else 0)) n);
    [apply (Hfin 7 _ 6%nat); [lia|done|unfold month_length; cbn [Z.eqb Pos.eqb orb]; destruct (is_leap y); lia|rewrite S6; destruct (is_leap y); lia]|].
  destruct (Z.leb_spec (151 + (if is_leap y then 1 else 0)) n);
    [apply (Hfin 6 _ 5%nat); [lia|done|unfold month_length; cbn [Z.eqb Pos.eqb orb]; destruct (is_leap y); lia|rewrite S5; destruct (is_leap y); lia]|].
  destruct (Z.leb_spec (120 + (if is_leap y then 1 else 0)) n);
    [apply (Hfin 5 _ 4%nat); [lia|done|unfold month_length; cbn [Z.eqb Pos.eqb orb]; destruct (is_leap y); lia|rewrite S4; destruct (is_leap y); lia]|].
  destruct (Z.leb_spec (90 + (if is_leap y then 1 else 0)) n);
    [apply (Hfin 4 _ 3%nat); [lia|done|unfold month_length; cbn [Z.eqb Pos.eqb orb]; destruct (is_leap y); lia|rewrite S3; destruct (is_leap y); lia]|].
  destruct (Z.leb_spec (59 + (if is_leap y then 1 else 0)) n);
    [apply (Hfin 3 _ 2%nat); [lia|done|unfold month_length; cbn [Z.eqb Pos.eqb orb]; destruct (is_leap y); lia|rewrite S2; destruct (is_leap y); lia]|].
  destruct (Z.leb_spec 31 n);
    [apply (Hfin 2 _ 1%nat); [lia|done|unfold month_length; cbn [Z.eqb Pos.eqb orb]; destruct (is_leap y); lia|rewrite S1; destruct (is_leap y); lia]|].
  apply (Hfin 1 _ 0%nat); [lia|done|unfold month_length; cbn [Z.eqb Pos.eqb orb]; lia|lia].
Qed.
Lemma month_of_unique y m d n : 1 <= m <= 12 -> 0 <= d < month_length y m ->
  days_in_months (Z.to_nat (m - 1)) y + d = n -> month_of 11 y n = (m, d).
Proof.
  intros Hm. revert d n.
  destruct (month_starts y) as (S0 & S1 & S2 & S3 & S4 & S5 & S6 & S7 & S8 & S9 & S10 & S11 & S12).
  apply (month_cases m (fun m => forall d n, 0 <= d < month_length y m -> days_in_months (Z.to_nat (m - 1)) y + d = n -> month_of 11 y n = (m, d)) Hm);
    intros d n Hd Hn;
    (match type of Hn with context [Z.to_nat ?a] => let v := eval vm_compute in (Z.to_nat a) in change (Z.to_nat a) with v in Hn end);
    unfold month_length in Hd; cbn [Z.eqb Pos.eqb orb] in Hd;
    cbn [month_of]; rewrite ?S0, ?S1, ?S2, ?S3, ?S4, ?S5, ?S6, ?S7, ?S8, ?S9, ?S10, ?S11 in *;
    destruct (is_leap y);
    repeat match goal with |- context [if ?a <=? n then _ else _] => first
      [replace (a <=? n) with true by lia; cbn iota; f_equal; lia
      |replace (a <=? n) with false by lia; cbn iota] end; f_equal; lia.
Qed.

Lemma in_year x : is_date x ->
  let n := to_days x + 719162 in
  days_before_year (year x) <= n < days_before_year (year x + 1) /\
  month_of 11 (year x) (n - days_before_year (year x)) = (month x, day x - 1).
Proof.
  destruct x as [y m d]. unfold is_date, to_days. cbn [year month day]. intros [Hm Hd]. rewrite <- month_length_spec in Hd.
  replace (days_before_year y + days_in_months (Z.to_nat (m - 1)) y + (d - 1) - 719162 + 719162 - days_before_year y)
    with (days_in_months (Z.to_nat (m - 1)) y + (d - 1)) by lia.
  split; [|apply month_of_unique; [done|lia|done]].
  assert (0 <= days_in_months (Z.to_nat (m - 1)) y /\
    days_in_months (Z.to_nat (m - 1)) y + month_length y m <= if is_leap y then 366 else 365) as Hb.
  { destruct (month_starts y) as (S0 & S1 & S2 & S3 & S4 & S5 & S6 & S7 & S8 & S9 & S10 & S11 & S12).
    apply (month_cases m (fun m => 0 <= days_in_months (Z.to_nat (m - 1)) y /\
      days_in_months (Z.to_nat (m - 1)) y + month_length y m <= if is_leap y then 366 else 365) Hm);
      (match goal with |- context [Z.to_nat ?a] => let v := eval vm_compute in (Z.to_nat a) in change (Z.to_nat a) with v end);
      rewrite ?S0, ?S1, ?S2, ?S3, ?S4, ?S5, ?S6, ?S7, ?S8, ?S9, ?S10, ?S11; unfold month_length; cbn [Z.eqb Pos.eqb orb];
      destruct (is_leap y); lia. }
  rewrite year_days. destruct (is_leap y); lia.
Qed.

Theorem of_days_to_days x : in_range x -> of_days (to_days x) = Some x.
Proof.
  intros [Hx Hy]. destruct (in_year x Hx) as [H1 H2]. unfold of_days.
  rewrite (year_of_unique _ _ H1), H2. unfold MIN_YEAR, MAX_YEAR.
  replace ((-262143 <=? year x) && (year x <=? 262142)) with true by lia.
  replace (day x - 1 + 1) with (day x) by lia. by destruct x.
Qed.
Theorem to_days_of_days n x : of_days n = Some x -> in_range x /\ to_days x = n.
Proof.
  unfold of_days. set (n' := n + 719162). pose proof (year_of_spec n') as Hy. set (y := year_of n') in *. clearbody y.
  rewrite year_days in Hy.
  pose proof (month_of_spec y (n' - days_before_year y)) as Hm.
  destruct (month_of 11 y (n' - days_before_year y)) as [m d].
  destruct Hm as (Hm & Hd & E); [destruct (is_leap y); lia|].
  unfold MIN_YEAR, MAX_YEAR. destruct ((-262143 <=? y) && (y <=? 262142)) eqn:Hr; [|done]. intros [= <-].
  unfold in_range, is_date, to_days. cbn [year month day]. rewrite <- month_length_spec.
  split; [lia|]. unfold n' in *. lia.
Qed.
Lemma to_days_inj x y : is_date x -> is_date y -> to_days x = to_days y -> x = y.
Proof.
  intros Hx Hy E. destruct (in_year x Hx) as [X1 X2], (in_year y Hy) as [Y1 Y2]. rewrite <- E in Y1, Y2.
  assert (year x = year y) as Ey by by rewrite <- (year_of_unique _ _ X1), <- (year_of_unique _ _ Y1).
  rewrite Ey in *. rewrite X2 in Y2. injection Y2 as H1 H2. destruct x, y; cbn in *; subst. f_equal; lia.
Qed.
Theorem tomorrow_spec x : is_date x -> is_date (tomorrow x) /\ to_days (tomorrow x) = to_days x + 1.
Proof.
  destruct x as [y m d]. unfold is_date, tomorrow, to_days. cbn [year month day]. intros [Hm Hd].
  rewrite <- !month_length_spec in *.
  destruct (month_starts y) as (S0 & S1 & S2 & S3 & S4 & S5 & S6 & S7 & S8 & S9 & S10 & S11 & S12).
  case_decide as H1; [|case_decide as H2].
  - cbn [year month day]. rewrite <- ?month_length_spec. lia.
  - cbn [year month day]. rewrite <- ?month_length_spec.
    split; [split; [lia|]; unfold month_length; destruct (is_leap y); repeat case_match; lia|].
    replace (Z.to_nat (m + 1 - 1)) with (S (Z.to_nat (m - 1))) by lia. cbn [days_in_months].
    replace (Z.of_nat (S (Z.to_nat (m - 1)))) with m by lia. lia.
  - cbn [year month day]. rewrite <- ?month_length_spec. assert (m = 12) as -> by lia.
    split; [split; [lia|]; unfold month_length; cbn; lia|].
    change (Z.to_nat (1 - 1)) with 0%nat. change (Z.to_nat (12 - 1)) with 11%nat. rewrite year_days.
    change (month_length y 12) with 31 in *.
    rewrite S11. change (days_in_months 0 (y + 1)) with 0. destruct (is_leap y); lia.
Qed.
Lemma to_days_epoch : to_days epoch = 0.
Proof. reflexivity. Qed.
Lemma from_ymd_spec y m d : from_ymd y m d = if bool_decide (1 <= m <= 12 /\ 1 <= d <= length_of_month y m /\ -262143 <= y <= 262142) then Some (Date y m d) else None.
Proof.
  unfold from_ymd, MIN_YEAR, MAX_YEAR. rewrite month_length_spec. set (l := length_of_month y m). clearbody l.
  case_bool_decide as H; [replace (_ && _) with true by lia|replace (_ && _) with false by lia]; done.
Qed.
