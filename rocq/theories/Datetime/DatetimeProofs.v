(** Proofs about dates, times and timestamps as text. *)
From Coq Require Import NArith ZArith ZifyN ZifyBool Ascii String Lia.
From stdpp Require Import prelude list strings.
From Verif Require Import Lib.Text Functions.IntModel Sql.LexModel Sql.LexSpec Sql.LexProofs Literal.NumberModel
  Literal.NumberSpec Literal.NumberProofs Literal.IntervalModel Literal.IntervalSpec Literal.IntervalProofs
  Literal.IntervalLex Literal.IntervalShow Literal.IntervalDisplay.
From Verif.Datetime Require Import CalendarModel CalendarSpec CalendarProofs DatetimeModel DatetimeSpec.
#[local] Open Scope Z_scope.

(** ** Days *)
Lemma day_number_to_days x n : day_number x n -> is_date x /\ to_days x = n.
Proof.
  induction 1 as [|x n Hx _ [_ IH]|x n Hx _ [_ IH]].
  - split; [|apply to_days_epoch]. unfold is_date, epoch. cbn. by vm_compute.
  - destruct (tomorrow_spec x Hx) as [H1 H2]. split; [done|]. lia.
  - destruct (tomorrow_spec x Hx) as [H1 H2]. split; [done|]. lia.
Qed.
Lemma of_days_defined n :
  days_before_year (-262143) <= n + 719162 < days_before_year 262143 <-> exists x, of_days n = Some x.
Proof.
  unfold of_days. pose proof (year_of_spec (n + 719162)) as Hy. set (y := year_of (n + 719162)) in *. clearbody y.
  destruct (month_of 11 y (n + 719162 - days_before_year y)) as [m d]. unfold MIN_YEAR, MAX_YEAR. split.
  - intros [H1 H2]. rewrite (proj2 (andb_true_iff _ _)); [eauto|]. split; apply Z.leb_le.
    + destruct (Z.le_gt_cases (-262143) y) as [|Hlt]; [done|].
      pose proof (days_before_year_mono (y + 1) (-262143) ltac:(lia)). lia.
    + destruct (Z.le_gt_cases y 262142) as [|Hlt]; [done|].
      pose proof (days_before_year_mono 262143 y ltac:(lia)). lia.
  - intros [x Hx]. destruct (_ && _) eqn:E; [|done]. apply andb_true_iff in E as [E1%Z.leb_le E2%Z.leb_le].
    pose proof (days_before_year_mono (-262143) y ltac:(lia)).
    pose proof (days_before_year_mono (y + 1) 262143 ltac:(lia)). lia.
Qed.
Definition FIRST_DAY : Z := -96465292.
Definition LAST_DAY : Z := 95026236.
Lemma of_days_bounds n : FIRST_DAY <= n <= LAST_DAY <-> exists x, of_days n = Some x.
Proof.
  rewrite <- of_days_defined. replace (days_before_year (-262143)) with (FIRST_DAY + 719162) by (by vm_compute).
  replace (days_before_year 262143) with (LAST_DAY + 719163) by (by vm_compute). lia.
Qed.
Lemma last_second : LAST_SECOND = LAST_DAY * 86400 + 86399.
Proof. by vm_compute. Qed.
Lemma of_days_step n x : of_days n = Some x -> n + 1 <= LAST_DAY -> of_days (n + 1) = Some (tomorrow x).
Proof.
  intros H Hl. destruct (to_days_of_days _ _ H) as [Hr Hn].
  assert (exists y, of_days (n + 1) = Some y) as [y Hy].
  { apply of_days_bounds. assert (exists x, of_days n = Some x) as ?%of_days_bounds by eauto. lia. }
  destruct (to_days_of_days _ _ Hy) as [[Hyd _] Hyn]. destruct (tomorrow_spec x) as [H1 H2]; [apply Hr|].
  rewrite Hy. f_equal. apply to_days_inj; [done|done|lia].
Qed.
Lemma of_days_day_number n x : of_days n = Some x -> day_number x n.
Proof.
  destruct (Z.le_gt_cases 0 n) as [Hn|Hn].
  - revert x. replace n with (Z.of_nat (Z.to_nat n)) by lia. generalize (Z.to_nat n) as k. clear.
    induction k as [|k IH]; intros x Hx.
    + vm_compute in Hx. injection Hx as <-. apply day_epoch.
    + replace (Z.of_nat (S k)) with (Z.of_nat k + 1) in * by lia.
      assert (exists x, of_days (Z.of_nat k + 1) = Some x) as Hb%of_days_bounds by eauto.
      assert (exists y, of_days (Z.of_nat k) = Some y) as [y Hy].
      { apply of_days_bounds. unfold FIRST_DAY, LAST_DAY in *. lia. }
      rewrite (of_days_step _ y) in Hx by (done || lia). injection Hx as <-.
      apply day_next; [|by apply IH]. apply to_days_of_days in Hy as [[? _] _]. done.
  - revert x. replace n with (- Z.of_nat (Z.to_nat (- n))) by lia. generalize (Z.to_nat (- n)) as k. clear.
    induction k as [|k IH]; intros x Hx.
    + vm_compute in Hx. injection Hx as <-. apply day_epoch.
    + assert (exists x, of_days (- Z.of_nat (S k)) = Some x) as Hb%of_days_bounds by eauto.
      apply day_before; [apply to_days_of_days in Hx as [[? _] _]; done|].
      replace (- Z.of_nat (S k) + 1) with (- Z.of_nat k) by lia. apply IH.
      replace (- Z.of_nat k) with (- Z.of_nat (S k) + 1) by lia. apply of_days_step; [done|].
      unfold LAST_DAY. lia.
Qed.
Lemma day_number_spec x n : in_range x -> day_number x n <-> to_days x = n.
Proof.
  intros Hr. split; [by intros [_ ?]%day_number_to_days|]. intros <-. by apply of_days_day_number, of_days_to_days.
Qed.
Lemma day_number_of_days x n : in_range x -> day_number x n <-> of_days n = Some x.
Proof.
  intros Hr. rewrite day_number_spec by done. split; [intros <-; by apply of_days_to_days|].
  by intros [_ ?]%to_days_of_days.
Qed.

(** ** Numbers *)
Definition stops (s : text) : Prop := match s with c :: _ => is_digit c = false | [] => True end.
Lemma run_digits (n : nat) (a r : text) : all_digits a -> (length a <= n)%nat -> stops r ->
  run is_digit n (a ++ r) = (a, r).
Proof.
  revert n. induction a as [|c a IH]; intros n Ha Hn Hr; cbn [app].
  - destruct r as [|c r]; [by destruct n|]. by apply run_stop.
  - destruct n as [|n]; [cbn in Hn; lia|]. apply Forall_cons in Ha as [Hc Ha]. cbn [run]. rewrite Hc.
    rewrite IH; [done|done|cbn in Hn; lia|done].
Qed.
Lemma run_digits_inv (n : nat) (s a r : text) : run is_digit n s = (a, r) -> s = a ++ r /\ all_digits a /\ (length a <= n)%nat.
Proof.
  revert n a. induction s as [|c s IH]; intros n a H.
  - destruct n; cbn in H; injection H as <- <-; split_and!; try done; try constructor; cbn; lia.
  - destruct n as [|n]; cbn [run] in H; [injection H as <- <-; split_and!; [done|constructor|cbn; lia]|].
    destruct (is_digit c) eqn:Hc; [|injection H as <- <-; split_and!; [done|constructor|cbn; lia]].
    destruct (run is_digit n s) as [a' r'] eqn:E. injection H as <- <-. apply IH in E as (-> & Ha & Hl).
    split_and!; [done|by constructor|cbn; lia].
Qed.
Lemma unsigned_numeral (lo hi : nat) (d r : text) n : numeral lo hi d n -> stops r -> unsigned lo hi (d ++ r) = Some (n, r).
Proof.
  intros (Hd & Hl & ->) Hr. unfold unsigned, digits_between. rewrite run_digits by (done || lia).
  by rewrite (proj2 (Nat.leb_le _ _)) by lia.
Qed.
Lemma unsigned_inv (lo hi : nat) (s r : text) n : unsigned lo hi s = Some (n, r) -> exists d, s = d ++ r /\ numeral lo hi d n.
Proof.
  unfold unsigned, digits_between. destruct (run is_digit hi s) as [d r'] eqn:E.
  apply run_digits_inv in E as (-> & Hd & Hl). destruct (Nat.leb_spec lo (length d)); [|done].
  intros [= <- <-]. exists d. split; [done|]. by split_and!.
Qed.
Lemma stops_cons (c : N) s : is_digit c = false -> stops (c :: s).
Proof. done. Qed.

(** A part after a separator that is no digit, before a text that does not start with the separator or
    a digit. *)
Lemma after_part (c : N) missing s n r : part c missing s n -> stops r -> (s = [] -> head r <> Some c) ->
  default missing (after c (unsigned 1 2) (s ++ r)).1 = n /\ (after c (unsigned 1 2) (s ++ r)).2 = r.
Proof.
  intros [[-> ->]|(d & -> & Hd)] Hr Hh.
  - cbn [app]. specialize (Hh eq_refl). destruct r as [|x r]; [done|]. cbn [after].
    destruct (N.eqb_spec x c) as [->|]; [done|done].
  - cbn [app after]. rewrite N.eqb_refl. erewrite unsigned_numeral by done. done.
Qed.
Lemma after_inv (c : N) missing s : exists a n,
  s = a ++ (after c (unsigned 1 2) s).2 /\ part c missing a n /\ default missing (after c (unsigned 1 2) s).1 = n /\
  (a = [] -> after c (unsigned 1 2) s = (None, s)).
Proof.
  destruct s as [|x s]; [exists [], missing; split_and!; try done; by left|]. cbn [after].
  destruct (N.eqb_spec x c) as [->|]; [|exists [], missing; split_and!; try done; by left].
  destruct (unsigned 1 2 s) as [[n r]|] eqn:E; [|exists [], missing; split_and!; try done; by left].
  apply unsigned_inv in E as (d & -> & Hd). exists (c :: d), n. split_and!; try done. right. eauto.
Qed.

(** ** Dates *)
Lemma signed_numeral (sign y r : text) n v : numeral 4 7 y n ->
  (sign = [] \/ sign = str "+") /\ v = n \/ sign = str "-" /\ v = - n ->
  stops r -> signed 4 7 (sign ++ y ++ r) = Some (v, r).
Proof.
  intros (Hd & Hl & ->) Hs Hr. unfold signed.
  assert (digits_between 4 7 (y ++ r) = Some (y, r)) as HD.
  { unfold digits_between. rewrite run_digits by (done || lia). by rewrite (proj2 (Nat.leb_le _ _)) by lia. }
  destruct Hs as [[[->| ->] ->]|[-> ->]].
  - cbn [app]. destruct y as [|c y]; [cbn in Hl; lia|]. pose proof Hd as [Hc%digit_bounds _]%Forall_cons.
    change ((c :: y) ++ r) with (c :: (y ++ r)) in *. lazy beta iota zeta. rewrite (proj2 (N.eqb_neq c 45)), (proj2 (N.eqb_neq c 43)) by lia.
    by rewrite HD.
  - change (str "+") with [43%N]. cbn [app]. change (43 =? 45)%N with false. change (43 =? 43)%N with true. cbn [app].
    by rewrite HD.
  - change (str "-") with [45%N]. cbn [app]. change (45 =? 45)%N with true. lazy beta iota zeta. by rewrite HD.
Qed.
Lemma signed_inv s v r : signed 4 7 s = Some (v, r) -> exists sign y n,
  s = sign ++ y ++ r /\ numeral 4 7 y n /\ ((sign = [] \/ sign = str "+") /\ v = n \/ sign = str "-" /\ v = - n).
Proof.
  unfold signed.
  assert (forall s d r, digits_between 4 7 s = Some (d, r) -> s = d ++ r /\ numeral 4 7 d (Z.of_N (dec_value d))) as HD.
  { clear. intros s d r. unfold digits_between. destruct (run is_digit 7 s) as [d' r'] eqn:E.
    apply run_digits_inv in E as (-> & Hd & Hl). destruct (Nat.leb_spec 4 (length d')); [|done].
    intros [= <- <-]. split; [done|]. by split_and!. }
  destruct s as [|c s].
  { done. }
  destruct (N.eqb_spec c 45) as [->|]; [|destruct (N.eqb_spec c 43) as [->|]].
  - destruct (digits_between 4 7 s) as [[d r']|] eqn:E; [|done]. intros [= <- <-].
    apply HD in E as [-> Hn]. exists (str "-"), d, (Z.of_N (dec_value d)). split_and!; try done. right. auto.
  - destruct (digits_between 4 7 s) as [[d r']|] eqn:E; [|done]. intros [= <- <-].
    apply HD in E as [-> Hn]. exists (str "+"), d, (Z.of_N (dec_value d)). split_and!; try done. left. auto.
  - destruct (digits_between 4 7 (c :: s)) as [[d r']|] eqn:E; [|done]. intros [= <- <-].
    apply HD in E as [HE Hn]. exists [], d, (Z.of_N (dec_value d)). split_and!; try done. left. auto.
Qed.
Definition value_of (x : date) : date_value := DateValue (year x) (month x) (day x).
Lemma date_part_text s x r : date_text s x -> stops r -> head r <> Some 45%N ->
  parse_date_part (s ++ r) = Some (value_of x, r).
Proof.
  intros (sign & y & m & d & n & -> & Hy & Hs & Hm & Hd & Hmd) Hr Hh. unfold parse_date_part.
  replace ((sign ++ y ++ m ++ d) ++ r) with (sign ++ y ++ (m ++ (d ++ r))) by (by rewrite <- !app_assoc).
  assert (stops (d ++ r)) as Hdr. { destruct Hd as [[-> _]|(t & -> & _)]; done. }
  erewrite signed_numeral; [|done|done|destruct Hm as [[-> _]|(t & -> & _)]; done].
  destruct (after_part 45 1 m (month x) (d ++ r)) as [A1 A2]; [done|done|intros ->; by rewrite Hmd by done|].
  destruct (after 45 (unsigned 1 2) (m ++ d ++ r)) as [om s2]. cbn [fst snd] in A1, A2. subst s2.
  destruct (after_part 45 1 d (day x) r) as [B1 B2]; [done|done|done|].
  destruct (after 45 (unsigned 1 2) (d ++ r)) as [od s3]. cbn [fst snd] in B1, B2. subst s3.
  by rewrite A1, B1.
Qed.
Lemma date_part_inv s v r : parse_date_part s = Some (v, r) -> exists t x, s = t ++ r /\ date_text t x /\ v = value_of x.
Proof.
  unfold parse_date_part. destruct (signed 4 7 s) as [[y s1]|] eqn:E; [|done].
  apply signed_inv in E as (sign & yt & n & -> & Hy & Hs).
  destruct (after_inv 45 1 s1) as (m & mn & A1 & A2 & A3 & A4).
  destruct (after 45 (unsigned 1 2) s1) as [om s2] eqn:E1. cbn [fst snd] in *.
  destruct (after_inv 45 1 s2) as (d & dn & B1 & B2 & B3 & B4).
  destruct (after 45 (unsigned 1 2) s2) as [od s3] eqn:E2. cbn [fst snd] in *.
  intros [= <- <-]. exists (sign ++ yt ++ m ++ d), (Date y mn dn). split_and!.
  - rewrite A1, B1. by rewrite <- !app_assoc.
  - exists sign, yt, m, d, n. split_and!; try done. intros ->. cbn [app] in A1. specialize (A4 eq_refl).
    injection A4 as -> ->. rewrite E1 in E2. injection E2 as <- <-.
    apply (f_equal length) in B1. rewrite app_length in B1. destruct d; [done|cbn in B1; lia].
  - unfold value_of. cbn. by rewrite A3, B3.
Qed.
Lemma ws_no_digit c : is_ascii_ws c = true -> is_digit c = false /\ c <> 45%N.
Proof. unfold is_ascii_ws, is_digit. intros H. split; lia. Qed.
Lemma naive_date_spec x y : naive_date (value_of x) = Some y <-> y = x /\ in_range x.
Proof.
  unfold naive_date, value_of. cbn [dv_year dv_month dv_day]. rewrite from_ymd_spec. unfold in_range, is_date.
  destruct x as [a b c]. cbn [year month day]. case_bool_decide; [|naive_solver]. naive_solver.
Qed.
Definition then_blank (r : text) : Prop := match r with c :: _ => is_ascii_ws c = true | [] => True end.
Lemma read_date_iff s n : read_date s = Some n <->
  exists t r x, s = t ++ r /\ date_text t x /\ in_range x /\ day_number x n /\ then_blank r.
Proof.
  unfold read_date. split.
  - intros (v & Hv & (y & Hy & [= <-])%bind_Some)%bind_Some. unfold parse_date in Hv.
    destruct (parse_date_part s) as [[v' r]|] eqn:E; [|done]. apply date_part_inv in E as (t & x & -> & Ht & ->).
    assert (v = value_of x /\ then_blank r) as [-> Hr].
    { destruct r as [|c r]; [by injection Hv|]. cbn. destruct (is_ascii_ws c); [by injection Hv|done]. }
    apply naive_date_spec in Hy as [-> Hx]. exists t, r, x. split_and!; try done. by apply day_number_spec.
  - intros (t & r & x & -> & Ht & Hx & Hn & Hr).
    assert (parse_date (t ++ r) = Some (value_of x)) as ->.
    { unfold parse_date. rewrite (date_part_text t x); [|done| |].
      - destruct r as [|c r]; [done|]. cbn in Hr. by rewrite Hr.
      - destruct r as [|c r]; [done|]. by apply ws_no_digit in Hr as [? _].
      - destruct r as [|c r]; [done|]. cbn. apply ws_no_digit in Hr as [_ ?]. congruence. }
    cbn [mbind option_bind]. rewrite (proj2 (naive_date_spec x x)) by done. cbn [mbind option_bind]. f_equal.
    by apply day_number_spec.
Qed.

(** ** Showing dates *)
Lemma pad2_numeral n : 0 <= n < 100 -> numeral 1 2 (pad2 n) n.
Proof.
  intros Hn. destruct (pad2_number n) as [[H1 H2] H3]; [lia|]. split_and!; [done| | |done].
  - destruct (pad2 n); [done|cbn; lia].
  - unfold pad2. rewrite print_int_nonneg by lia. destruct (Z.ltb_spec n 10).
    + pose proof (decimal_length 1 (Z.to_N n) ltac:(lia) ltac:(cbn; lia)). cbn [length]. lia.
    + apply decimal_length; [lia|]. cbn. lia.
Qed.
Lemma pad4_numeral n : 0 <= n < 1000000 -> numeral 4 7 (pad4 n) n.
Proof.
  intros Hn. unfold pad4. pose proof (number_decimal (Z.to_N n)) as [H1 H2].
  pose proof (decimal_length 6 (Z.to_N n) ltac:(lia) ltac:(cbn; lia)) as H3. split_and!.
  - apply Forall_app. split; [|done]. by apply Forall_replicate.
  - rewrite app_length, replicate_length. lia.
  - rewrite app_length, replicate_length. lia.
  - rewrite dec_value_snoc, dec_value_zeros, N.mul_0_l, N.add_0_l. by rewrite decimal_z by lia.
Qed.
Lemma show_ymd_text x : in_range x -> date_text (show_ymd x) x.
Proof.
  intros [[Hm Hd] Hy]. assert (1 <= day x <= 31) as Hd' by (unfold length_of_month in Hd; repeat case_decide; lia).
  assert (part 45 1 (str "-" ++ pad2 (month x)) (month x)) as Pm by (right; eexists; split; [done|]; apply pad2_numeral; lia).
  assert (part 45 1 (str "-" ++ pad2 (day x)) (day x)) as Pd by (right; eexists; split; [done|]; apply pad2_numeral; lia).
  unfold show_ymd, show_year. destruct (Z.leb_spec 0 (year x)); cbn [andb].
  - destruct (Z.leb_spec (year x) 9999).
    + exists [], (pad4 (year x)), (str "-" ++ pad2 (month x)), (str "-" ++ pad2 (day x)), (year x).
      split_and!; [by rewrite <- !app_assoc|apply pad4_numeral; lia|auto|done|done|done].
    + rewrite (proj2 (Z.ltb_ge _ _)) by lia.
      exists (str "+"), (pad4 (Z.abs (year x))), (str "-" ++ pad2 (month x)), (str "-" ++ pad2 (day x)), (year x).
      split_and!; [by rewrite <- !app_assoc|rewrite Z.abs_eq by lia; apply pad4_numeral; lia|auto|done|done|done].
  - rewrite (proj2 (Z.ltb_lt _ _)) by lia.
    exists (str "-"), (pad4 (Z.abs (year x))), (str "-" ++ pad2 (month x)), (str "-" ++ pad2 (day x)), (- year x).
    split_and!; [by rewrite <- !app_assoc| |right; split; [done|lia]|done|done|done].
    rewrite Z.abs_neq by lia. apply pad4_numeral; lia.
Qed.
Lemma read_show_date n x : of_days n = Some x -> read_date (show_date n) = Some n.
Proof.
  intros H. unfold show_date. rewrite H. pose proof (to_days_of_days _ _ H) as [Hr _]. apply read_date_iff.
  exists (show_ymd x), [], x. split_and!; [by rewrite app_nil_r|by apply show_ymd_text|done| |done].
  by apply day_number_of_days.
Qed.

(** ** Times *)
Lemma take_pad (d : text) : (length d <= 9)%nat ->
  Z.of_N (dec_value (take 9 (d ++ replicate 9 48%N))) = Z.of_N (dec_value d) * 10 ^ (9 - Z.of_nat (length d)).
Proof.
  intros Hl. rewrite take_app_ge by done. rewrite take_replicate, dec_value_snoc, dec_value_zeros, replicate_length, N.add_0_r.
  rewrite Nat.min_l by lia. rewrite N2Z.inj_mul, N2Z.inj_pow, nat_N_Z. f_equal. f_equal. lia.
Qed.
Definition fraction_text (ft : text) (nanos : Z) : Prop :=
  (ft = [] /\ nanos = 0) \/
  exists d, ft = 46%N :: d /\ all_digits d /\ (length d <= 9)%nat /\
    nanos = Z.of_N (dec_value d) * 10 ^ (9 - Z.of_nat (length d)).
Lemma after_fraction ft nanos r : fraction_text ft nanos -> ends_time r ->
  default 0 (after 46 (fraction 9) (ft ++ r)).1 = nanos /\ (after 46 (fraction 9) (ft ++ r)).2 = r.
Proof.
  intros [[-> ->]|(d & -> & Hd & Hl & ->)] Hr; cbn [app after].
  - destruct r as [|c r]; [done|]. destruct Hr as (_ & _ & Hc). cbn [after]. by rewrite (proj2 (N.eqb_neq _ _)).
  - change (46 =? 46)%N with true. unfold fraction, digits_between.
    rewrite run_digits; [|done|done|by destruct r as [|c r]; [|destruct Hr]]. cbn [Nat.leb].
    cbn [fst snd default]. split; [|done]. by apply take_pad.
Qed.
Lemma after_fraction_inv s : exists ft nanos,
  s = ft ++ (after 46 (fraction 9) s).2 /\ fraction_text ft nanos /\ default 0 (after 46 (fraction 9) s).1 = nanos.
Proof.
  destruct s as [|c s]; [exists [], 0; split_and!; try done; by left|]. cbn [after].
  destruct (N.eqb_spec c 46) as [->|]; [|exists [], 0; split_and!; try done; by left].
  unfold fraction, digits_between. destruct (run is_digit 9 s) as [d r] eqn:E.
  apply run_digits_inv in E as (-> & Hd & Hl). cbn [Nat.leb fst snd].
  exists (46%N :: d), (Z.of_N (dec_value (take 9 (d ++ replicate 9 48%N)))). split_and!; [done| |done].
  right. exists d. split_and!; try done. by apply take_pad.
Qed.
Lemma time_part_text s h m sec nanos r : time_text s h m sec nanos -> ends_time r ->
  parse_time_part (s ++ r) = Some (TimeValue h m sec nanos, r).
Proof.
  intros (ht & mt & st & ft & -> & Hh & Hm & Hs & Hms & Hf) Hr. unfold parse_time_part.
  replace ((ht ++ mt ++ st ++ ft) ++ r) with (ht ++ (mt ++ (st ++ (ft ++ r)))) by (by rewrite <- !app_assoc).
  assert (stops (ft ++ r) /\ head (ft ++ r) <> Some 58%N) as [H1 H1'].
  { destruct Hf as [[-> _]|(d & -> & _)]; [|done]. destruct r as [|c r]; [done|]. destruct Hr as (? & ? & ?).
    split; [done|]. cbn. congruence. }
  assert (stops (st ++ ft ++ r)) as H2. { destruct Hs as [[-> _]|(d & -> & _)]; done. }
  assert (stops (mt ++ st ++ ft ++ r)) as H3. { destruct Hm as [[-> _]|(d & -> & _)]; done. }
  rewrite (unsigned_numeral 1 2 ht _ h) by done.
  destruct (after_part 58 0 mt m (st ++ ft ++ r)) as [A1 A2]; [done|done|intros ->; by rewrite Hms by done|].
  destruct (after 58 (unsigned 1 2) (mt ++ st ++ ft ++ r)) as [om s2]. cbn [fst snd] in A1, A2. subst s2.
  destruct (after_part 58 0 st sec (ft ++ r)) as [B1 B2]; [done|done|done|].
  destruct (after 58 (unsigned 1 2) (st ++ ft ++ r)) as [od s3]. cbn [fst snd] in B1, B2. subst s3.
  destruct (after_fraction ft nanos r) as [C1 C2]; [done|done|].
  destruct (after 46 (fraction 9) (ft ++ r)) as [of s4]. cbn [fst snd] in C1, C2. subst s4.
  by rewrite A1, B1, C1.
Qed.
Lemma time_part_inv s v r : parse_time_part s = Some (v, r) -> exists t h m sec nanos,
  s = t ++ r /\ time_text t h m sec nanos /\ v = TimeValue h m sec nanos.
Proof.
  unfold parse_time_part. destruct (unsigned 1 2 s) as [[h s1]|] eqn:E; [|done].
  apply unsigned_inv in E as (ht & -> & Hh).
  destruct (after_inv 58 0 s1) as (m & mn & A1 & A2 & A3 & A4).
  destruct (after 58 (unsigned 1 2) s1) as [om s2] eqn:E1. cbn [fst snd] in *.
  destruct (after_inv 58 0 s2) as (d & dn & B1 & B2 & B3 & B4).
  destruct (after 58 (unsigned 1 2) s2) as [od s3] eqn:E2. cbn [fst snd] in *.
  destruct (after_fraction_inv s3) as (ft & nanos & C1 & C2 & C3).
  destruct (after 46 (fraction 9) s3) as [of s4] eqn:E3. cbn [fst snd] in *.
  intros [= <- <-]. exists (ht ++ m ++ d ++ ft), h, mn, dn, nanos. split_and!.
  - rewrite A1, B1, C1. by rewrite <- !app_assoc.
  - exists ht, m, d, ft. split_and!; try done. intros ->. cbn [app] in A1. specialize (A4 eq_refl).
    injection A4 as -> ->. rewrite E1 in E2. injection E2 as <- <-.
    apply (f_equal length) in B1. rewrite app_length in B1. destruct d; [done|cbn in B1; lia].
  - by rewrite A3, B3, C3.
Qed.
Lemma numeral_nonneg lo hi s n : numeral lo hi s n -> 0 <= n.
Proof. intros (_ & _ & ->). lia. Qed.
Lemma part_nonneg c missing s n : part c missing s n -> 0 <= missing -> 0 <= n.
Proof. intros [[_ ->]|(d & _ & H)] ?; [done|]. by eapply numeral_nonneg. Qed.
Lemma time_text_nonneg s h m sec nanos : time_text s h m sec nanos -> 0 <= h /\ 0 <= m /\ 0 <= sec /\ 0 <= nanos < 1000000000.
Proof.
  intros (ht & mt & st & ft & -> & Hh & Hm & Hs & Hms & Hf). split_and!.
  - by eapply numeral_nonneg.
  - by eapply part_nonneg.
  - by eapply part_nonneg.
  - destruct Hf as [[_ ->]|(d & _ & _ & _ & ->)]; [done|]. apply Z.mul_nonneg_nonneg; lia.
  - destruct Hf as [[_ ->]|(d & _ & Hd & Hl & ->)]; [done|].
    pose proof (dec_value_bound d Hd) as Hb. apply N2Z.inj_lt in Hb. rewrite N2Z.inj_pow, nat_N_Z in Hb.
    replace 1000000000 with (10 ^ Z.of_nat (length d) * 10 ^ (9 - Z.of_nat (length d))).
    + apply Z.mul_lt_mono_pos_r; [apply Z.pow_pos_nonneg; lia|done].
    + rewrite <- Z.pow_add_r by lia. replace (_ + _) with 9 by lia. done.
Qed.
(** Seconds since midnight: 23:59:60 counts as 23:59:59. *)
Lemma naive_time_spec h m sec nanos p : 0 <= h -> 0 <= m -> 0 <= sec ->
  naive_time (TimeValue h m sec nanos) = Some p <->
  (clock_time h m sec /\ p = (h * 3600 + m * 60 + sec, nanos)) \/
  (h = 23 /\ m = 59 /\ sec = 60 /\ p = (86399, nanos)).
Proof.
  intros Hh Hm Hs. unfold naive_time. cbn [tv_hour tv_minute tv_second tv_nanos].
  destruct (Z.eqb_spec sec 60) as [->|Hne].
  - destruct (Z.eqb_spec h 23) as [->|]; cbn [negb orb].
    + destruct (Z.eqb_spec m 59) as [->|]; cbn [negb].
      * change (_ && _) with true. split; [intros [= <-]; right; auto|]. intros [[[_ [_ ?]] _]|(_ & _ & _ & ->)]; [lia|done].
      * split; [done|]. intros [[[_ [_ ?]] _]|(_ & ? & _ & _)]; lia.
    + split; [done|]. intros [[[_ [_ ?]] _]|(? & ? & _ & _)]; lia.
  - destruct ((h <? 24) && (m <? 60) && (sec <? 60)) eqn:E.
    + apply andb_true_iff in E as [[E1%Z.ltb_lt E2%Z.ltb_lt]%andb_true_iff E3%Z.ltb_lt].
      split; [intros [= <-]; left; unfold clock_time; split; [lia|done]|]. intros [[_ ->]|(_ & _ & ? & _)]; [done|lia].
    + split; [done|]. intros [[(? & ? & ?) _]|(_ & _ & ? & _)]; [|lia]. exfalso. revert E.
      rewrite !andb_false_iff, !Z.ltb_ge. lia.
Qed.
Lemma read_time_iff s us : read_time s = Some us <-> exists h m sec nanos,
  time_text s h m sec nanos /\
  (clock_time h m sec /\ us = (h * 3600 + m * 60 + sec) * 1000000 + nanos / 1000 \/
   h = 23 /\ m = 59 /\ sec = 60 /\ us = 86399 * 1000000 + nanos / 1000).
Proof.
  unfold read_time, parse_time. split.
  - intros (v & Hv & ([a b] & Hy & [= <-])%bind_Some)%bind_Some.
    destruct (parse_time_part s) as [[v' r]|] eqn:E; [|done]. destruct r as [|c r]; [|done]. injection Hv as ->.
    apply time_part_inv in E as (t & h & m & sec & nanos & -> & Ht & ->). rewrite app_nil_r.
    pose proof (time_text_nonneg _ _ _ _ _ Ht) as (? & ? & ? & ?).
    exists h, m, sec, nanos. split; [done|]. apply naive_time_spec in Hy; [|done..].
    destruct Hy as [[? [= -> ->]]|(? & ? & ? & [= -> ->])]; [by left|by right].
  - intros (h & m & sec & nanos & Ht & H).
    pose proof (time_text_nonneg _ _ _ _ _ Ht) as (? & ? & ? & ?).
    rewrite <- (app_nil_r s). erewrite time_part_text; [|done|done]. cbn [mbind option_bind].
    destruct H as [[Hc ->]|(-> & -> & -> & ->)].
    + by rewrite (proj2 (naive_time_spec h m sec nanos _ ltac:(done) ltac:(done) ltac:(done)) (or_introl (conj Hc eq_refl))).
    + done.
Qed.
Lemma show_fraction_text (digits : nat) n : 0 <= n < 10 ^ Z.of_nat digits -> (digits <= 9)%nat ->
  fraction_text (show_fraction digits n) (n * 10 ^ (9 - Z.of_nat digits)).
Proof.
  intros Hn H9. unfold show_fraction. destruct (Z.ltb_spec 0 n).
  2: { left. split; [done|]. replace n with 0 by lia. done. }
  assert (Hdg : (0 < digits)%nat) by (destruct digits; [cbn in Hn; lia|lia]).
  set (v := print_int n). destruct (trim_end_split v) as [k Hk]. remember (trim_end_zeros v) as t eqn:Et.
  assert (Hv : v = decimal (Z.to_N n)) by (by apply print_int_nonneg; lia).
  assert (Hval : Z.of_N (dec_value v) = n) by (rewrite Hv; apply decimal_z; lia).
  assert (Hlen : (length v <= digits)%nat).
  { rewrite Hv. apply decimal_length; [done|]. apply N2Z.inj_lt. rewrite Z2N.id, N2Z.inj_pow, nat_N_Z; lia. }
  assert (Hvd : all_digits v) by (rewrite Hv; apply number_decimal).
  assert (Htd : all_digits t) by (rewrite Hk in Hvd; by apply Forall_app in Hvd as [? _]).
  assert (Hdec : n = Z.of_N (dec_value t) * 10 ^ Z.of_nat k).
  { rewrite <- Hval, Hk at 1. rewrite dec_value_snoc, dec_value_zeros, replicate_length, N.add_0_r.
    rewrite N2Z.inj_mul, N2Z.inj_pow, nat_N_Z. done. }
  assert (Hvl : length v = (length t + k)%nat) by (rewrite Hk at 1; by rewrite app_length, replicate_length).
  right. exists (replicate (digits - length v) 48%N ++ t). split_and!; [done| | |].
  - apply Forall_app. split; [|done]. by apply Forall_replicate.
  - rewrite app_length, replicate_length. lia.
  - rewrite dec_value_snoc, dec_value_zeros, N.mul_0_l, N.add_0_l, app_length, replicate_length.
    rewrite Hdec at 1. rewrite <- Z.mul_assoc. f_equal. rewrite <- Z.pow_add_r by lia. f_equal. lia.
Qed.
Lemma show_hms_text l digits n : 0 <= l < 86400 -> 0 <= n < 10 ^ Z.of_nat digits -> (digits <= 9)%nat ->
  let h := l / 3600 in let m := l / 60 mod 60 in let s := l mod 60 in
  time_text (show_hms l ++ show_fraction digits n) h m s (n * 10 ^ (9 - Z.of_nat digits)) /\
  clock_time h m s /\ h * 3600 + m * 60 + s = l.
Proof.
  intros Hl Hn H9 h m s.
  assert (0 <= h < 24 /\ 0 <= m < 60 /\ 0 <= s < 60 /\ h * 3600 + m * 60 + s = l) as (Bh & Bm & Bs & Hsum).
  { unfold h, m, s. clear -Hl. Z.to_euclidean_division_equations; lia. }
  split; [|split; [by unfold clock_time|done]].
  exists (pad2 h), (str ":" ++ pad2 m), (str ":" ++ pad2 s), (show_fraction digits n). split_and!.
  - unfold show_hms. fold h m s. by rewrite <- !app_assoc.
  - apply pad2_numeral. lia.
  - right. eexists. split; [done|]. apply pad2_numeral. lia.
  - right. eexists. split; [done|]. apply pad2_numeral. lia.
  - done.
  - by apply show_fraction_text.
Qed.
Lemma read_show_time us : 0 <= us < 86400000000 -> read_time (show_time us) = Some us.
Proof.
  intros H. unfold show_time. rewrite (proj2 (Z.leb_le _ _)), (proj2 (Z.ltb_lt _ _)) by lia. cbn [andb].
  destruct (show_hms_text (us / 1000000) 6 (us mod 1000000)) as (H1 & H2 & H3).
  { split; [apply Z.div_pos; lia|apply Z.div_lt_upper_bound; lia]. }
  { pose proof (Z.mod_pos_bound us 1000000 ltac:(lia)). cbn. lia. }
  { lia. }
  apply read_time_iff. do 4 eexists. split; [exact H1|]. left. split; [done|]. rewrite H3.
  change (10 ^ (9 - Z.of_nat 6)) with 1000. rewrite Z.div_mul by lia.
  pose proof (Z.div_mod us 1000000 ltac:(lia)). lia.
Qed.

(** ** Timestamps *)
Lemma skip_blanks k (s : text) : head s <> Some 32%N -> skip (fun c => c =? 32)%N (blanks k ++ s) = s.
Proof.
  intros Hs. induction k as [|k IH]; [|exact IH]. cbn [blanks replicate app].
  destruct s as [|c s]; [done|]. cbn [skip]. rewrite (proj2 (N.eqb_neq c 32)); [done|]. cbn in Hs. congruence.
Qed.
Lemma separator_text s t : separates s -> (exists c t', t = c :: t' /\ is_digit c = true) -> separator (s ++ t) = Some t.
Proof.
  intros Hs (c & t' & -> & Hc%digit_bounds). unfold separator.
  assert (head (c :: t') <> Some 32%N) as Hh by (cbn; intros [= ->]; lia).
  destruct Hs as [(a & b & x & -> & Hx)|(a & ->)].
  - rewrite <- !app_assoc. rewrite skip_blanks; [|cbn; intros [= ->]; lia]. cbn [app].
    replace ((x =? 84) || (x =? 116))%N with true by lia. by rewrite skip_blanks.
  - rewrite skip_blanks by done. replace ((c =? 84) || (c =? 116))%N with false by lia.
    rewrite bool_decide_false; [done|]. intros E. apply (f_equal head) in E. cbn in E. injection E as ->. lia.
Qed.
Lemma time_text_head s h m sec nanos : time_text s h m sec nanos -> exists c t', s = c :: t' /\ is_digit c = true.
Proof.
  intros (ht & mt & st & ft & -> & (Hd & Hl & _) & _). destruct ht as [|c ht]; [cbn in Hl; lia|].
  apply Forall_cons in Hd as [Hc _]. eexists _, _. cbn [app]. eauto.
Qed.
Lemma parse_timestamp_text d x sep t h m sec nanos r :
  date_text d x -> separates sep -> time_text t h m sec nanos -> ends_time r ->
  parse_timestamp (d ++ sep ++ t ++ r) = Some (TimestampValue (value_of x) (TimeValue h m sec nanos) (zone_text r)).
Proof.
  intros Hd Hs Ht Hr. unfold parse_timestamp.
  rewrite (date_part_text d x); [|done| |].
  - rewrite separator_text; [|done|].
    + by rewrite (time_part_text t h m sec nanos r).
    + destruct (time_text_head _ _ _ _ _ Ht) as (c & t' & -> & Hc). cbn [app]. eauto.
  - destruct Hs as [(a & b & c & -> & Hc)|(a & ->)]; [|done].
    destruct a; [|done]. cbn. destruct Hc as [->| ->]; done.
  - destruct Hs as [(a & b & c & -> & Hc)|(a & ->)]; [|done].
    destruct a; [|done]. cbn. destruct Hc as [->| ->]; done.
Qed.
Lemma into_naive_text x h m sec nanos z : in_range x -> clock_time h m sec ->
  into_naive (TimestampValue (value_of x) (TimeValue h m sec nanos) z) =
  Ok (to_days x * 86400 + (h * 3600 + m * 60 + sec), nanos, z).
Proof.
  intros Hx Hc. unfold into_naive. cbn [ts_date ts_time ts_zone tv_second].
  rewrite (proj2 (naive_date_spec x x)) by done.
  rewrite (proj2 (naive_time_spec h m sec nanos _ ltac:(apply Hc) ltac:(apply Hc) ltac:(apply Hc)) (or_introl (conj Hc eq_refl))).
  rewrite (proj2 (Z.eqb_neq sec 60)); [done|]. destruct Hc as (_ & _ & ?). lia.
Qed.

(** ** Time zones *)
Lemma offset_from_before off cs u : in_order cs -> (forall t o, (t, o) ∈ cs -> u < t) -> offset_from off cs u = off.
Proof.
  intros _ H. destruct cs as [|[t o] cs]; [done|]. cbn [offset_from]. rewrite (proj2 (Z.ltb_lt _ _)); [done|].
  eapply (H t o). apply elem_of_list_here.
Qed.
Lemma in_order_tail c cs : in_order (c :: cs) -> in_order cs /\ forall t o, (t, o) ∈ cs -> c.1 < t.
Proof.
  destruct c as [a b]. cbn [fst]. revert a b. induction cs as [|[t o] cs IH]; intros a b H.
  - split; [done|]. intros t o Ht. by apply elem_of_nil in Ht.
  - destruct H as [H1 H2]. split; [done|]. intros t' o' [[= -> ->]|Ht]%elem_of_cons; [done|].
    destruct (IH t o H2) as [_ H3]. specialize (H3 _ _ Ht). lia.
Qed.
Lemma offset_from_spec off cs u : in_order cs ->
  (exists t, (t, offset_from off cs u) ∈ cs /\ t <= u /\ forall t' o', (t', o') ∈ cs -> t' <= u -> t' <= t) \/
  (offset_from off cs u = off /\ forall t' o', (t', o') ∈ cs -> u < t').
Proof.
  revert off. induction cs as [|[t o] cs IH]; intros off H.
  - right. split; [done|]. intros t' o' Ht. by apply elem_of_nil in Ht.
  - destruct (in_order_tail _ _ H) as [H1 H2]. cbn [fst] in H2. cbn [offset_from]. destruct (Z.ltb_spec u t).
    + right. split; [done|]. intros t' o' [[= -> ->]|Ht]%elem_of_cons; [done|]. specialize (H2 _ _ Ht). lia.
    + left. destruct (IH o H1) as [(t1 & Hin & Hle & Hmax)|[-> Hall]].
      * exists t1. split_and!; [by apply elem_of_list_further|done|].
        intros t' o' [[= -> ->]|Ht]%elem_of_cons Hu; [|by eapply Hmax]. specialize (H2 _ _ Hin). lia.
      * exists t. split_and!; [apply elem_of_list_here|done|].
        intros t' o' [[= -> ->]|Ht]%elem_of_cons Hu; [lia|]. specialize (Hall _ _ Ht). lia.
Qed.
Lemma in_order_unique cs t o o' : in_order cs -> (t, o) ∈ cs -> (t, o') ∈ cs -> o = o'.
Proof.
  induction cs as [|c cs IH]; intros H Ho Ho'; [by apply elem_of_nil in Ho|].
  destruct (in_order_tail _ _ H) as [H1 H2].
  apply elem_of_cons in Ho as [<-|Ho], Ho' as [E|Ho'].
  - by injection E.
  - specialize (H2 _ _ Ho'). cbn in H2. lia.
  - subst c. specialize (H2 _ _ Ho). cbn in H2. lia.
  - by apply IH.
Qed.
Lemma in_force_offset z u off : in_order (tz_changes z) -> in_force z u off <-> offset_at z u = off.
Proof.
  intros Ho. pose proof (offset_from_spec (tz_first z) (tz_changes z) u Ho) as H. unfold offset_at. split.
  - intros [(t & Hin & Hle & Hmax)|[-> Hall]].
    + destruct H as [(t' & Hin' & Hle' & Hmax')|[_ Hall]].
      * pose proof (Hmax _ _ Hin' Hle'). pose proof (Hmax' _ _ Hin Hle). assert (t' = t) as -> by lia.
        by eapply in_order_unique.
      * specialize (Hall _ _ Hin). lia.
    + by apply offset_from_before.
  - intros <-. destruct H as [H|H]; [by left|]. right. destruct H as [-> H]. done.
Qed.
Lemma shows_local z u l : in_order (tz_changes z) -> shows z u l <-> local_of z u = l.
Proof.
  intros Ho. unfold shows, local_of. split.
  - intros (off & H & ->). by apply in_force_offset in H as ->.
  - intros <-. exists (offset_at z u). split; [|done]. by apply in_force_offset.
Qed.
Definition started (from : option Z) (u : Z) : Prop := match from with Some t => t <= u | None => True end.
Lemma resolve_from_spec from off cs l : in_order cs -> (forall t o, (t, o) ∈ cs -> match from with Some a => a < t | None => True end) ->
  match resolve_from from off cs l with
  | Some u => started from u /\ u + offset_from off cs u = l /\
      forall u', started from u' -> u' + offset_from off cs u' = l -> u <= u'
  | None => forall u', started from u' -> u' + offset_from off cs u' <> l
  end.
Proof.
  revert from off. induction cs as [|[t o] cs IH]; intros from off Hc Hf; cbn [resolve_from offset_from].
  - destruct (match from with Some t => t <=? l - off | None => true end) eqn:E.
    + split_and!; [destruct from; [by apply Z.leb_le in E|done]|lia|]. intros u' _ <-. lia.
    + destruct from as [t|]; [|done]. apply Z.leb_gt in E. intros u' Hu' <-. cbn in Hu'. lia.
  - destruct (in_order_tail _ _ Hc) as [H1 H2]. cbn [fst] in H2.
    specialize (IH (Some t) o H1 H2).
    destruct (match from with Some t => t <=? l - off | None => true end) eqn:E; cbn [andb].
    + assert (started from (l - off)) as HS by (destruct from; [by apply Z.leb_le in E|done]).
      destruct (Z.ltb_spec (l - off) t).
      * split_and!; [done|rewrite (proj2 (Z.ltb_lt _ _)) by done; lia|].
        intros u' Hu'. destruct (Z.ltb_spec u' t); intros; lia.
      * destruct (resolve_from (Some t) o cs l) as [u|].
        -- destruct IH as (I1 & I2 & I3). cbn in I1. split_and!.
           ++ destruct from as [a|]; [|done]. cbn. specialize (Hf t o (elem_of_list_here _ _)). cbn in Hf. lia.
           ++ rewrite (proj2 (Z.ltb_ge _ _)) by done. done.
           ++ intros u' Hu'. destruct (Z.ltb_spec u' t); [lia|]. intros. by apply I3.
        -- intros u' Hu'. destruct (Z.ltb_spec u' t); [lia|]. by apply IH.
    + destruct from as [a|]; [|done]. apply Z.leb_gt in E. specialize (Hf t o (elem_of_list_here _ _)). cbn in Hf.
      destruct (resolve_from (Some t) o cs l) as [u|].
      * destruct IH as (I1 & I2 & I3). cbn in I1. split_and!; [cbn; lia|rewrite (proj2 (Z.ltb_ge _ _)) by done; done|].
        intros u' Hu'. cbn in Hu'. destruct (Z.ltb_spec u' t); [lia|]. intros. by apply I3.
      * intros u' Hu'. cbn in Hu'. destruct (Z.ltb_spec u' t); [lia|]. by apply IH.
Qed.
Lemma resolve_some z l u : in_order (tz_changes z) -> resolve z l = Some u <-> first_shows z u l.
Proof.
  intros Ho. unfold resolve. pose proof (resolve_from_spec None (tz_first z) (tz_changes z) l Ho ltac:(done)) as H.
  change (forall u', started None u' -> u' + offset_from (tz_first z) (tz_changes z) u' <> l) with
    (forall u', True -> local_of z u' <> l) in H.
  unfold first_shows. rewrite shows_local by done. setoid_rewrite shows_local; [|done].
  destruct (resolve_from None (tz_first z) (tz_changes z) l) as [v|].
  - destruct H as (_ & H2 & H3). split.
    + intros [= <-]. split; [done|]. intros u' Hu'. by apply H3.
    + intros [Hu1 Hu2]. f_equal. specialize (Hu2 v H2). specialize (H3 u I Hu1). lia.
  - split; [done|]. intros [Hu _]. by apply H in Hu.
Qed.
Lemma resolve_none z l : in_order (tz_changes z) -> resolve z l = None <-> never_shown z l.
Proof.
  intros Ho. unfold never_shown. setoid_rewrite shows_local; [|done]. unfold resolve.
  pose proof (resolve_from_spec None (tz_first z) (tz_changes z) l Ho ltac:(done)) as H.
  destruct (resolve_from None (tz_first z) (tz_changes z) l) as [v|].
  - destruct H as (_ & H2 & H3). split; [done|]. intros Hn. by apply Hn in H2.
  - split; [|done]. intros _ u Hu. by apply (H u I).
Qed.
Lemma localize_first z l u : in_order (tz_changes z) -> first_shows z u l -> localize z l = Some u.
Proof. intros Ho H%resolve_some; [|done]. unfold localize. by rewrite H. Qed.
Lemma localize_gap z l u : in_order (tz_changes z) -> never_shown z l -> first_shows z u (l - 86400) ->
  localize z l = Some (u + 86400).
Proof. intros Ho Hn%resolve_none H%resolve_some; [|done..]. unfold localize. rewrite Hn, H. done. Qed.
Lemma first_exists z u l : in_order (tz_changes z) -> shows z u l -> exists u0, first_shows z u0 l.
Proof.
  intros Ho H. destruct (resolve z l) as [u0|] eqn:E; [exists u0; by apply resolve_some|].
  apply resolve_none in E; [|done]. by apply E in H.
Qed.

(** ** Zone names *)
Lemma skip_head (s : text) : head s <> Some 32%N -> skip (fun c => c =? 32)%N s = s.
Proof. apply (skip_blanks 0). Qed.
Lemma trim_trimmed a b (s : text) : trimmed s -> trim_blanks (blanks a ++ s ++ blanks b) = s.
Proof.
  intros (Hne & Hh & Hl). unfold trim_blanks. cbv zeta. rewrite skip_blanks.
  2: { destruct s as [|c s]; [done|]. done. }
  rewrite rev_app_distr. replace (rev (blanks b)) with (blanks b).
  2: { clear. unfold blanks. induction b as [|b IH]; [done|]. cbn [replicate rev]. rewrite <- IH. apply (replicate_cons_app b 32%N). }
  rewrite skip_blanks, rev_involutive; [done|].
  destruct s as [|c s _] using rev_ind; [done|]. rewrite rev_app_distr. rewrite last_snoc in Hl. done.
Qed.
Lemma trim_blank k : trim_blanks (blanks k) = [].
Proof. unfold trim_blanks. cbv zeta. rewrite <- (app_nil_r (blanks k)). by rewrite skip_blanks. Qed.

Lemma take_prefix (p s : text) : take (length p) (p ++ s) = p.
Proof. by rewrite take_app. Qed.
Lemma zone_text_names r name : names_zone r name -> zone_text r = name.
Proof.
  unfold zone_text. intros [(k & -> & ->)|(a & b & n & -> & Hn & H)].
  { rewrite trim_blank. done. }
  rewrite trim_trimmed by done. destruct H as [[Hz ->]|[(sign & t & Hs & -> & ->)|(H1 & H2 & H3 & ->)]].
  - by rewrite bool_decide_true.
  - rewrite bool_decide_false by (intros [E|E]; vm_compute in E; done). destruct Hs as [->| ->]; done.
  - rewrite bool_decide_false by (intros [E|E]; done).
    replace (starts_with n (str "UTC+") || starts_with n (str "UTC-")) with false; [done|].
    symmetry. apply orb_false_iff. unfold starts_with. split; apply bool_decide_eq_false; intros E.
    + change (length (str "UTC+")) with 4%nat in E. apply (H3 (str "+") (drop 4 n)); [by left|]. rewrite <- (take_drop 4 n) at 1. rewrite E. done.
    + change (length (str "UTC-")) with 4%nat in E. apply (H3 (str "-") (drop 4 n)); [by right|]. rewrite <- (take_drop 4 n) at 1. rewrite E. done.
Qed.
Lemma parse_text s l nanos name : timestamp_text s l nanos name ->
  exists v, parse_timestamp s = Some v /\ tv_second (ts_time v) <> 60 /\ into_naive v = Ok (l, nanos, name).
Proof.
  intros (d & x & n & sep & t & h & m & sec & r & -> & Hd & Hx & Hn & Hs & Ht & Hc & Hr & Hz & ->).
  eexists. split; [by eapply parse_timestamp_text|]. cbn [ts_time tv_second]. split; [destruct Hc as (_ & _ & ?); lia|].
  rewrite into_naive_text by done. rewrite (zone_text_names r name) by done. f_equal. f_equal. f_equal.
  apply day_number_spec in Hn; [|done]. lia.
Qed.
Lemma localize_spec z l u : in_order (tz_changes z) -> localize z l = Some u <-> stands_for z l u.
Proof.
  intros Ho. unfold localize, stands_for. destruct (resolve z l) as [v|] eqn:E.
  - pose proof E as E'%resolve_some; [|done]. split; [intros [= <-]; by left|].
    intros [H%resolve_some|[H _]]; [congruence|done|]. apply resolve_none in H; [congruence|done].
  - pose proof E as E'%resolve_none; [|done]. split.
    + intros (w & Hw%resolve_some & [= <-])%bind_Some; [|done]. right. split; [done|].
      by replace (w + 86400 - 86400) with w by lia.
    + intros [H%resolve_some|[_ H]]; [congruence|done|]. apply resolve_some in H as ->; [|done]. cbn [mbind option_bind].
      f_equal. lia.
Qed.
Lemma blank_separates : separates (str " ").
Proof. right. by exists O. Qed.
Lemma show_timestamp_text z us x l r name : l = match z with Some z => local_of z (us / 1000000) | None => us / 1000000 end ->
  of_days (l / 86400) = Some x -> ends_time r -> names_zone r name ->
  timestamp_text (show_timestamp z us ++ r) l (us mod 1000000 * 1000) name.
Proof.
  intros El Hx Hr Hz. unfold show_timestamp. cbv zeta. rewrite <- El, Hx.
  pose proof (to_days_of_days _ _ Hx) as [Hxr Hn].
  pose proof (Z.mod_pos_bound us 1000000 ltac:(lia)) as Hus.
  destruct (show_hms_text (l mod 86400) 9 (us mod 1000000 * 1000)) as (H1 & H2 & H3).
  { apply Z.mod_pos_bound. lia. } { cbn. lia. } { lia. }
  change (10 ^ (9 - Z.of_nat 9)) with 1 in H1. rewrite Z.mul_1_r in H1.
  exists (show_ymd x), x, (l / 86400), (str " "), (show_hms (l mod 86400) ++ show_fraction 9 (us mod 1000000 * 1000)).
  do 3 eexists. exists r. split; [by rewrite <- !app_assoc|]. split; [by apply show_ymd_text|]. split; [done|].
  split; [by apply day_number_of_days|]. split; [apply blank_separates|]. split; [exact H1|]. split; [done|].
  split; [done|]. split; [done|]. pose proof (Z.div_mod l 86400 ltac:(lia)). lia.
Qed.
Lemma no_zone : names_zone [] [].
Proof. left. by exists O. Qed.
Lemma micros_back us : micros (us / 1000000) (us mod 1000000 * 1000) = us.
Proof. unfold micros. rewrite Z.div_mul by lia. pose proof (Z.div_mod us 1000000 ltac:(lia)). lia. Qed.

(** ** Panics *)
Lemma into_naive_panic v : into_naive v = Panic -> exists nanos z,
  v = TimestampValue (DateValue 262142 12 31) (TimeValue 23 59 60 nanos) z \/ tv_hour (ts_time v) < 0 \/ tv_minute (ts_time v) < 0 \/ tv_second (ts_time v) < 0.
Proof.
  destruct v as [[y m d] [h mi sec nanos] z]. unfold into_naive. cbn [ts_date ts_time ts_zone tv_second tv_hour tv_minute].
  destruct (naive_date (DateValue y m d)) as [x|] eqn:Ed; [|done].
  destruct (naive_time (TimeValue h mi sec nanos)) as [[a b]|] eqn:Et; [|done].
  destruct (Z.eqb_spec sec 60) as [->|]; [|done].
  destruct (Z.leb_spec (to_days x * 86400 + a + 1) LAST_SECOND) as [|Hl]; [done|]. intros _. exists nanos, z.
  destruct (Z.le_gt_cases 0 h) as [Hh|]; [|by auto]. destruct (Z.le_gt_cases 0 mi) as [Hm|]; [|by auto]. left.
  apply naive_time_spec in Et; [|done|done|lia]. destruct Et as [[(_ & _ & ?) _]|(-> & -> & _ & [= -> ->])]; [lia|].
  change (DateValue y m d) with (value_of (Date y m d)) in Ed. apply naive_date_spec in Ed as [-> Hr].
  assert (of_days (to_days (Date y m d)) = Some (Date y m d)) as Ho by (by apply of_days_to_days).
  assert (exists x, of_days (to_days (Date y m d)) = Some x) as Hb%of_days_bounds by eauto.
  rewrite last_second in Hl. assert (to_days (Date y m d) = LAST_DAY) as E by lia.
  rewrite E in Ho. replace (of_days LAST_DAY) with (Some (Date 262142 12 31)) in Ho by (by vm_compute).
  by injection Ho as <- <- <-.
Qed.
Lemma parse_timestamp_inv s v : parse_timestamp s = Some v -> exists d x r, s = d ++ r /\ date_text d x /\ ts_date v = value_of x /\
  (ts_time v = TimeValue 0 0 0 0 /\ ts_zone v = [] /\ (exists k, r = blanks k) \/
   exists b t rest h m sec nanos, r = b ++ t ++ rest /\ separates b /\ time_text t h m sec nanos /\ ts_time v = TimeValue h m sec nanos /\ ts_zone v = zone_text rest).
Proof.
  unfold parse_timestamp. destruct (parse_date_part s) as [[dv r]|] eqn:E; [|done].
  apply date_part_inv in E as (d & x & -> & Hd & ->).
  assert (Hskip : forall q : text, exists k, q = blanks k ++ skip (fun c => c =? 32)%N q /\ head (skip (fun c => c =? 32)%N q) <> Some 32%N).
  { clear. induction q as [|c q [k [IH1 IH2]]]; [by exists O|]. cbn [skip]. destruct (N.eqb_spec c 32) as [->|].
    - exists (S k). split; [|done]. rewrite IH1 at 1. done.
    - exists O. split; [done|]. cbn. congruence. }
  assert (Hsep : forall q, separator r = Some q -> exists b, separates b /\ r = b ++ q).
  { intros q. unfold separator. destruct (Hskip r) as (k & Hk & _). set (s1 := skip _ r) in *. clearbody s1.
    destruct s1 as [|c s2].
    - destruct (bool_decide_reflect ([] = r)); [done|]. intros [= <-]. exists r. rewrite app_nil_r in *. split; [|done].
      right. destruct k; [done|]. by exists k.
    - destruct ((c =? 84) || (c =? 116))%N eqn:Ec.
      + intros [= <-]. destruct (Hskip s2) as (j & Hj & _). exists (blanks k ++ [c] ++ blanks j). split.
        * left. exists k, j, c. split; [done|]. lia.
        * rewrite Hk. rewrite Hj at 1. by rewrite <- !app_assoc.
      + destruct (bool_decide_reflect (c :: s2 = r)); [done|]. intros [= <-]. exists (blanks k). split; [|done].
        right. destruct k; [done|]. by exists k. }
  destruct (separator r) as [q|] eqn:Es.
  - destruct (parse_time_part q) as [[t rest]|] eqn:Et.
    + intros [= <-]. exists d, x, r. split_and!; try done. right.
      apply time_part_inv in Et as (tt & h & m & sec & nanos & -> & Ht & ->).
      destruct (Hsep _ eq_refl) as (b & Hb & ->). exists b, tt, rest, h, m, sec, nanos. by split_and!.
    + destruct (Hskip r) as (k & Hk & _). destruct (skip _ r); [|done]. rewrite app_nil_r in Hk.
      intros [= <-]. exists d, x, r. split_and!; try done. left. eauto.
  - destruct (Hskip r) as (k & Hk & _). destruct (skip _ r); [|done]. rewrite app_nil_r in Hk.
    intros [= <-]. exists d, x, r. split_and!; try done. left. eauto.
Qed.

(** ** What is accepted *)
Lemma split_blanks (s : text) : exists k, s = blanks k ++ skip (fun c => c =? 32)%N s /\ head (skip (fun c => c =? 32)%N s) <> Some 32%N.
Proof.
  induction s as [|c s [k [IH1 IH2]]]; [by exists O|]. cbn [skip]. destruct (N.eqb_spec c 32) as [->|].
  - exists (S k). split; [|done]. rewrite IH1 at 1. done.
  - exists O. split; [done|]. cbn. congruence.
Qed.
Lemma rev_blanks b : rev (blanks b) = blanks b.
Proof. unfold blanks. induction b as [|b IH]; [done|]. cbn [replicate rev]. rewrite IH. symmetry. apply (replicate_cons_app b 32%N). Qed.
Lemma names_zone_total (r : text) : names_zone r (zone_text r).
Proof.
  unfold zone_text. destruct (split_blanks r) as (a & Ha & Ha'). set (s1 := skip _ r) in *. clearbody s1.
  destruct (split_blanks (rev s1)) as (b & Hb & Hb'). set (s2 := skip _ (rev s1)) in *. clearbody s2.
  apply (f_equal (@rev N)) in Hb. rewrite rev_involutive, rev_app_distr, rev_blanks in Hb.
  destruct (rev s2) as [|c n] eqn:E2.
  { cbn [app] in Hb. subst s1 r. assert (b = 0%nat) as ->.
    { destruct b; [done|]. by destruct Ha'. }
    cbn [blanks replicate]. rewrite app_nil_r, trim_blank. left. by exists a. }
  set (m := c :: n) in *.
  assert (trimmed m) as Ht.
  { split; [done|]. split; [subst s1; exact Ha'|]. rewrite <- E2. destruct s2 as [|x s2]; [done|]. cbn [rev].
    rewrite last_snoc. exact Hb'. }
  clearbody m. subst s1 r. rewrite trim_trimmed by done. right. exists a, b, m. split; [done|]. split; [done|].
  case_bool_decide as Hz; [by left|]. right.
  assert (Hcase : forall p, starts_with m p = true -> m = p ++ drop (length p) m).
  { intros p Hp. unfold starts_with in Hp. apply bool_decide_eq_true in Hp. rewrite <- Hp at 1. by rewrite take_drop. }
  destruct (starts_with m (str "UTC+")) eqn:E3; cbn [orb].
  { left. exists (str "+"), (drop 4 m). apply Hcase in E3. change (length (str "UTC+")) with 4%nat in E3.
    split; [by left|]. split; [done|]. rewrite E3 at 1. done. }
  destruct (starts_with m (str "UTC-")) eqn:E4.
  { left. exists (str "-"), (drop 4 m). apply Hcase in E4. change (length (str "UTC-")) with 4%nat in E4.
    split; [by right|]. split; [done|]. rewrite E4 at 1. done. }
  right. split; [by intros ->; apply Hz; left|]. split; [by intros ->; apply Hz; right|]. split; [|done].
  intros sign t [->| ->] ->; done.
Qed.
Lemma cast_inv zone session s us : cast_timestamp zone session s = Ok us -> exists d x n r l nanos name,
  s = d ++ r /\ date_text d x /\ in_range x /\ day_number x n /\
  ((exists k, r = blanks k) /\ l = n * 86400 /\ nanos = 0 /\ name = [] \/
   exists sep t h m sec rest, r = sep ++ t ++ rest /\ separates sep /\ time_text t h m sec nanos /\ clock_time h m sec /\
     names_zone rest name /\ l = n * 86400 + h * 3600 + m * 60 + sec) /\
  match session with
  | None => us = l * 1000000 + nanos / 1000
  | Some session => exists z u, zone (if decide (name = []) then session else name) = Some z /\
      localize z l = Some u /\ us = u * 1000000 + nanos / 1000
  end.
Proof.
  unfold cast_timestamp. destruct (parse_timestamp s) as [v|] eqn:Ev; [|done].
  destruct (Z.eqb_spec (tv_second (ts_time v)) 60) as [|H60]; [done|].
  destruct (into_naive v) as [[[l nanos] name]| |] eqn:Ei; [|done|done].
  intros H. apply parse_timestamp_inv in Ev as (d & x & r & -> & Hd & Hv & Hr).
  unfold into_naive in Ei. rewrite Hv in Ei. destruct (naive_date (value_of x)) as [y|] eqn:Ey; [|done].
  apply naive_date_spec in Ey as [-> Hx].
  destruct (naive_time (ts_time v)) as [[a b]|] eqn:Et; [|done].
  rewrite (proj2 (Z.eqb_neq _ _)) in Ei by done. injection Ei as <- <- <-.
  exists d, x, (to_days x), r, (to_days x * 86400 + a), b, (ts_zone v).
  split; [done|]. split; [done|]. split; [done|]. split; [by apply day_number_spec|]. split.
  - destruct Hr as [(Ht & Hz & k & ->)|(sep & t & rest & h & m & sec & nn & -> & Hs & Htt & Ht & Hz)].
    + left. rewrite Ht in Et. injection Et as <- <-. split; [by exists k|]. split; [lia|]. done.
    + right. rewrite Ht in Et, H60. cbn in H60. pose proof (time_text_nonneg _ _ _ _ _ Htt) as (? & ? & ? & ?).
      apply naive_time_spec in Et; [|done..]. destruct Et as [[Hc [= -> ->]]|(_ & _ & ? & _)]; [|done].
      exists sep, t, h, m, sec, rest. split; [done|]. split; [done|]. split; [done|]. split; [done|].
      split; [rewrite Hz; apply names_zone_total|lia].
  - destruct session as [session|]; [|by injection H].
    destruct (zone _) as [z|]; [|done]. destruct (localize z _) as [u|] eqn:El; [|done]. injection H as <-.
    by exists z, u.
Qed.
Lemma parse_date_only d x k : date_text d x ->
  parse_timestamp (d ++ blanks k) = Some (TimestampValue (value_of x) (TimeValue 0 0 0 0) []).
Proof.
  intros Hd. unfold parse_timestamp. rewrite (date_part_text d x); [|done|by destruct k|by destruct k].
  assert (skip (fun c => c =? 32)%N (blanks k) = []) as Hs.
  { rewrite <- (app_nil_r (blanks k)). by rewrite skip_blanks. }
  rewrite Hs. unfold separator. rewrite Hs. by case_bool_decide.
Qed.
