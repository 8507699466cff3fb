From Coq Require Import NArith ZArith ZifyN ZifyNat Lia.
From stdpp Require Import prelude list.
From Verif.Lib Require Import Text ListFacts.
From Verif.Iceberg Require Import ValueModel DeleteModel DeleteProofs TransformModel TransformSpec.
Local Open Scope Z_scope.

(** * Calendar *)
Definition year_start (y : Z) : Z := 365 * (y - 1970) + ((y - 1) / 4 - (y - 1) / 100 + (y - 1) / 400) - 477.
Definition month_offset (m : Z) : Z :=
  match m with
  | 0 => 0 | 1 => 31 | 2 => 59 | 3 => 90 | 4 => 120 | 5 => 151 | 6 => 181 | 7 => 212
  | 8 => 243 | 9 => 273 | 10 => 304 | _ => 334
  end.
Definition month_start (k : Z) : Z :=
  let y := 1970 + k / 12 in
  let m := k mod 12 in
  year_start y + month_offset m + (if decide (1 < m) then if leap_dec y then 1 else 0 else 0).

Lemma div_shift a b n : 0 < n -> (a + b * n) / n = a / n + b.
Proof. intros. rewrite Z.div_add by lia. lia. Qed.
Lemma leap_shift y e : leap (y + 400 * e) <-> leap y.
Proof.
  unfold leap.
  replace (y + 400 * e) with (y + (100 * e) * 4) at 1 by lia. rewrite Z.mod_add by lia.
  replace (y + 400 * e) with (y + (4 * e) * 100) at 1 by lia. rewrite Z.mod_add by lia.
  replace (y + 400 * e) with (y + e * 400) by lia. rewrite Z.mod_add by lia. done.
Qed.
Lemma year_start_shift y e : year_start (y + 400 * e) = year_start y + 146097 * e.
Proof.
  unfold year_start.
  replace (y + 400 * e - 1) with ((y - 1) + (100 * e) * 4) at 1 by lia. rewrite div_shift by lia.
  replace (y + 400 * e - 1) with ((y - 1) + (4 * e) * 100) at 1 by lia. rewrite div_shift by lia.
  replace (y + 400 * e - 1) with ((y - 1) + e * 400) by lia. rewrite div_shift by lia. lia.
Qed.
Lemma month_shift k e : (k + 4800 * e) / 12 = k / 12 + 400 * e /\ (k + 4800 * e) mod 12 = k mod 12.
Proof.
  replace (k + 4800 * e) with (k + (400 * e) * 12) by lia.
  rewrite div_shift by lia. rewrite Z.mod_add by lia. done.
Qed.
Lemma month_start_shift k e : month_start (k + 4800 * e) = month_start k + 146097 * e.
Proof.
  unfold month_start. destruct (month_shift k e) as [-> ->].
  replace (1970 + (k / 12 + 400 * e)) with ((1970 + k / 12) + 400 * e) by lia.
  rewrite year_start_shift.
  destruct (decide (1 < k mod 12)); [|lia].
  destruct (leap_dec (1970 + k / 12 + 400 * e)) as [H|H], (leap_dec (1970 + k / 12)) as [H'|H'];
    rewrite leap_shift in H; tauto || lia.
Qed.
Lemma month_length_shift y e m : month_length (y + 400 * e) m = month_length y m.
Proof.
  unfold month_length. destruct (decide (m = 1)); [|done].
  destruct (leap_dec (y + 400 * e)) as [H|H], (leap_dec y) as [H'|H']; rewrite leap_shift in H; tauto || done.
Qed.

Definition check_month (k : Z) : bool :=
  bool_decide (month_start (k + 1) = month_start k + month_length (1970 + k / 12) (k mod 12)).
Fixpoint all_from (f : Z -> bool) (n : nat) (z : Z) : bool :=
  match n with O => true | S n => if f z then all_from f n (z + 1) else false end.
Lemma all_from_spec (f : Z -> bool) n x : all_from f (Z.to_nat n) 0 = true -> 0 <= x < n -> f x = true.
Proof.
  enough (H : forall m z, all_from f m z = true -> z <= x < z + Z.of_nat m -> f x = true).
  { intros Ha Hx. eapply H; [exact Ha|]. lia. }
  induction m as [|m IH]; intros z Hz Hx; [lia|]. cbn [all_from] in Hz.
  destruct (f z) eqn:E; [|done]. destruct (Z.eq_dec x z) as [->|]; [done|].
  apply (IH (z + 1)); [done|lia].
Qed.
Lemma check_months : all_from check_month (Z.to_nat 4800) 0 = true.
Proof. by vm_compute. Qed.
Lemma month_start_calendar : calendar month_start.
Proof.
  split; [by vm_compute|]. intros k.
  assert (E : k = k mod 4800 + 4800 * (k / 4800)) by (rewrite (Z.div_mod k 4800) at 1; lia).
  assert (Hb := Z.mod_pos_bound k 4800 ltac:(lia)).
  assert (Hc := all_from_spec check_month 4800 (k mod 4800) check_months Hb).
  unfold check_month in Hc. apply bool_decide_eq_true in Hc.
  revert Hc E. generalize (k mod 4800) (k / 4800). intros r e Hc ->.
  replace (r + 4800 * e + 1) with ((r + 1) + 4800 * e) by lia. rewrite !month_start_shift.
  destruct (month_shift r e) as [-> ->].
  replace (1970 + (r / 12 + 400 * e)) with ((1970 + r / 12) + 400 * e) by lia.
  rewrite month_length_shift. lia.
Qed.
Lemma calendar_unique s : calendar s -> forall k, s k = month_start k.
Proof.
  intros [H0 H1]. destruct month_start_calendar as [G0 G1]. intros k.
  assert (forall n : nat, s (Z.of_nat n) = month_start (Z.of_nat n) /\ s (- Z.of_nat n) = month_start (- Z.of_nat n)) as H.
  { induction n as [|n [IH1 IH2]].
    - change (Z.of_nat 0) with 0. change (- 0) with 0. lia.
    - split.
      + rewrite Nat2Z.inj_succ, <- Z.add_1_r, H1, G1. lia.
      + specialize (H1 (- Z.of_nat (S n))). specialize (G1 (- Z.of_nat (S n))).
        replace (- Z.of_nat (S n) + 1) with (- Z.of_nat n) in * by lia. lia. }
  destruct (Z_le_dec 0 k).
  - destruct (H (Z.to_nat k)) as [H2 _]. by rewrite Z2Nat.id in H2 by lia.
  - destruct (H (Z.to_nat (- k))) as [_ H2]. rewrite Z2Nat.id in H2 by lia. by replace (- - k) with k in H2 by lia.
Qed.
Lemma month_length_pos y m : 0 < month_length y m.
Proof. unfold month_length. repeat case_decide; try destruct (leap_dec y); lia. Qed.
Lemma month_start_mono j k : j <= k -> month_start j <= month_start k.
Proof.
  intros H. replace k with (j + Z.of_nat (Z.to_nat (k - j))) by lia. clear H.
  induction (Z.to_nat (k - j)) as [|n IH]; [replace (j + Z.of_nat 0) with j by lia; lia|].
  rewrite Nat2Z.inj_succ. replace (j + Z.succ (Z.of_nat n)) with ((j + Z.of_nat n) + 1) by lia.
  destruct month_start_calendar as [_ ->].
  pose proof (month_length_pos (1970 + (j + Z.of_nat n) / 12) ((j + Z.of_nat n) mod 12)). lia.
Qed.
Lemma in_month_unique d j k : in_month month_start d j -> in_month month_start d k -> j = k.
Proof.
  unfold in_month. intros [H1 H2] [H3 H4].
  destruct (Z.lt_trichotomy j k) as [H|[H|H]]; [|done|].
  - pose proof (month_start_mono (j + 1) k ltac:(lia)). lia.
  - pose proof (month_start_mono (k + 1) j ltac:(lia)). lia.
Qed.

Definition month_of_day (d : Z) : Z := (year_of_day d - 1970) * 12 + month0_of_day d.
Lemma cycle_shift d e : cycle_day (d + 146097 * e) = cycle_day d.
Proof.
  unfold cycle_day. replace (d + 146097 * e + 719468) with (d + 719468 + e * 146097) by lia.
  by rewrite Z.mod_add by lia.
Qed.
Lemma month0_shift d e : month0_of_day (d + 146097 * e) = month0_of_day d.
Proof. unfold month0_of_day. by rewrite cycle_shift. Qed.
Lemma year_shift d e : year_of_day (d + 146097 * e) = year_of_day d + 400 * e.
Proof.
  unfold year_of_day. rewrite month0_shift, cycle_shift.
  replace (d + 146097 * e + 719468) with (d + 719468 + e * 146097) by lia.
  rewrite div_shift by lia. destruct (decide _); lia.
Qed.
(** The first day of a year within the 400-year cycle, years starting in March. *)
Definition cycle_start (y : Z) : Z := 365 * y + y / 4 - y / 100 + y / 400.
Lemma cycle_year_mono a b : 0 <= a <= b -> cycle_year a <= cycle_year b.
Proof.
  intros Hab. unfold cycle_year. apply Z.div_le_mono; [lia|].
  replace b with (a + Z.of_nat (Z.to_nat (b - a))) by lia.
  induction (Z.to_nat (b - a)) as [|n IH]; [replace (a + Z.of_nat 0) with a by lia; lia|].
  rewrite Nat2Z.inj_succ. generalize dependent (Z.of_nat n). intros m Hm.
  etransitivity; [exact Hm|]. clear.
  replace (a + Z.succ m) with (a + m + 1) by lia. generalize (a + m). clear. intros x.
  Z.to_euclidean_division_equations. lia.
Qed.
Definition check_year (y : Z) : bool :=
  bool_decide (cycle_year (cycle_start y) = y) && bool_decide (cycle_year (cycle_start (y + 1) - 1) = y) &&
  bool_decide (0 <= cycle_start y) && bool_decide (cycle_start y < cycle_start (y + 1)).
Lemma check_years : all_from check_year (Z.to_nat 400) 0 = true.
Proof. by vm_compute. Qed.
Definition check_march (i : Z) : bool :=
  bool_decide (month_start (i - 1970 * 12 + 2) =
    cycle_start (i / 12) + (153 * (i mod 12) + 2) / 5 - 719468).
Lemma check_marchs : all_from check_march (Z.to_nat 4801) 0 = true.
Proof. by vm_compute. Qed.
Lemma cycle_year_exists doe : 0 <= doe < 146097 -> exists y, 0 <= y < 400 /\ cycle_start y <= doe < cycle_start (y + 1).
Proof.
  intros Hd. change 146097 with (cycle_start (Z.of_nat 400)) in Hd. revert Hd.
  assert (Hn : (400 <= 400)%nat) by lia. revert Hn. generalize 400%nat at 1 3. intros n.
  induction n as [|n IH]; intros Hn Hd; [change (cycle_start (Z.of_nat 0)) with 0 in Hd; lia|].
  destruct (Z_lt_dec doe (cycle_start (Z.of_nat n))) as [H|H]; [apply IH; lia|].
  exists (Z.of_nat n). rewrite Nat2Z.inj_succ in Hd. unfold Z.succ in Hd. lia.
Qed.
Lemma cycle_year_spec doe :
  0 <= doe < 146097 -> 0 <= cycle_year doe < 400 /\ cycle_start (cycle_year doe) <= doe < cycle_start (cycle_year doe + 1).
Proof.
  intros Hd. destruct (cycle_year_exists doe Hd) as (y & Hy & Hs).
  assert (Hc := all_from_spec check_year 400 y check_years Hy).
  unfold check_year in Hc. rewrite !andb_true_iff, !bool_decide_eq_true in Hc.
  destruct Hc as [[[H1 H2] H3] H4].
  pose proof (cycle_year_mono (cycle_start y) doe ltac:(lia)).
  pose proof (cycle_year_mono doe (cycle_start (y + 1) - 1) ltac:(lia)).
  assert (cycle_year doe = y) as -> by lia. done.
Qed.
Lemma check_day_spec i : 0 <= i < 146097 ->
  let d := i - 719468 in
  in_month month_start d (month_of_day d) /\ 0 <= month0_of_day d < 12.
Proof.
  intros Hi d. destruct (cycle_year_spec i Hi) as [Hy Hs].
  assert (Ec : cycle_day d = i) by (unfold cycle_day, d; replace (i - 719468 + 719468) with i by lia; apply Z.mod_small; lia).
  assert (Ee : (d + 719468) / 146097 = 0) by (unfold d; replace (i - 719468 + 719468) with i by lia; apply Z.div_small; lia).
  set (y := cycle_year i) in *.
  assert (Hleap : cycle_start (y + 1) - cycle_start y <= 366).
  { unfold cycle_start. clear. Z.to_euclidean_division_equations. lia. }
  assert (E400 : y / 400 = 0) by (apply Z.div_small; lia).
  assert (Edoy : i - (365 * y + y / 4 - y / 100) = i - cycle_start y) by (unfold cycle_start; lia).
  set (doy := i - cycle_start y) in *.
  assert (Hmp : cycle_month i = (5 * doy + 2) / 153).
  { unfold cycle_month. fold y. by rewrite Edoy. }
  set (mp := (5 * doy + 2) / 153) in *.
  assert (Hmp1 : 0 <= mp < 12 /\ (153 * mp + 2) / 5 <= doy < (153 * (mp + 1) + 2) / 5).
  { assert (0 <= doy < 366) by (subst doy; lia). subst mp. clear - H.
    Z.to_euclidean_division_equations. lia. }
  assert (Hm0 : month0_of_day d = if decide (mp < 10) then mp + 2 else mp - 10).
  { unfold month0_of_day. rewrite Ec, Hmp. done. }
  assert (Hyd : year_of_day d = if decide (mp < 10) then y else y + 1).
  { unfold year_of_day. rewrite Hm0, Ec, Ee. fold y. destruct (decide (mp < 10)).
    - rewrite decide_False by lia. lia.
    - rewrite decide_True by lia. lia. }
  split; [|rewrite Hm0; destruct (decide _); lia].
  assert (Hk : month_of_day d = (12 * y + mp) - 1970 * 12 + 2).
  { unfold month_of_day. rewrite Hyd, Hm0. destruct (decide _); lia. }
  unfold in_month. rewrite Hk.
  assert (Hc1 := all_from_spec check_march 4801 (12 * y + mp) check_marchs ltac:(lia)).
  assert (Hc2 := all_from_spec check_march 4801 (12 * y + mp + 1) check_marchs ltac:(lia)).
  unfold check_march in Hc1, Hc2. apply bool_decide_eq_true in Hc1, Hc2.
  replace (12 * y + mp - 1970 * 12 + 2 + 1) with (12 * y + mp + 1 - 1970 * 12 + 2) by lia.
  rewrite Hc1, Hc2.
  assert ((12 * y + mp) / 12 = y /\ (12 * y + mp) mod 12 = mp) as [-> ->].
  { replace (12 * y + mp) with (mp + y * 12) by lia. rewrite div_shift, Z.mod_add by lia.
    rewrite Z.div_small, Z.mod_small by lia. lia. }
  split; [subst d doy; lia|].
  destruct (decide (mp = 11)) as [->|Hne].
  - assert ((12 * y + 11 + 1) / 12 = y + 1 /\ (12 * y + 11 + 1) mod 12 = 0) as [-> ->].
    { replace (12 * y + 11 + 1) with (0 + (y + 1) * 12) by lia. rewrite div_shift, Z.mod_add by lia. done. }
    change ((153 * 0 + 2) / 5) with 0. subst d. lia.
  - assert ((12 * y + mp + 1) / 12 = y /\ (12 * y + mp + 1) mod 12 = mp + 1) as [-> ->].
    { replace (12 * y + mp + 1) with (mp + 1 + y * 12) by lia. rewrite div_shift, Z.mod_add by lia.
      rewrite Z.div_small, Z.mod_small by lia. lia. }
    subst d doy. lia.
Qed.
Lemma month_of_day_spec d : in_month month_start d (month_of_day d) /\ 0 <= month0_of_day d < 12.
Proof.
  set (i := (d + 719468) mod 146097). set (e := (d + 719468) / 146097).
  assert (E : d = (i - 719468) + 146097 * e).
  { subst i e. pose proof (Z.div_mod (d + 719468) 146097 ltac:(lia)). lia. }
  assert (Hi : 0 <= i < 146097) by (apply Z.mod_pos_bound; lia).
  destruct (check_day_spec i Hi) as [[H1 H2] H3].
  rewrite E, month0_shift. split; [|done].
  assert (Em : month_of_day (i - 719468 + 146097 * e) = month_of_day (i - 719468) + 4800 * e).
  { unfold month_of_day. rewrite year_shift, month0_shift. lia. }
  rewrite Em. unfold in_month. rewrite month_start_shift.
  replace (month_of_day (i - 719468) + 4800 * e + 1) with (month_of_day (i - 719468) + 1 + 4800 * e) by lia.
  rewrite month_start_shift. lia.
Qed.
Lemma year_of_day_spec d : in_year month_start d (year_of_day d - 1970).
Proof.
  destruct (month_of_day_spec d) as [[H1 H2] Hm]. unfold in_year, month_of_day in *.
  pose proof (month_start_mono (12 * (year_of_day d - 1970)) ((year_of_day d - 1970) * 12 + month0_of_day d) ltac:(lia)).
  pose proof (month_start_mono ((year_of_day d - 1970) * 12 + month0_of_day d + 1) (12 * (year_of_day d - 1970 + 1)) ltac:(lia)).
  lia.
Qed.
Lemma calendar_in_month s d k : calendar s -> in_month month_start d k -> in_month s d k.
Proof. intros Hs. unfold in_month. by rewrite !(calendar_unique s). Qed.
Lemma calendar_in_year s d k : calendar s -> in_year month_start d k -> in_year s d k.
Proof. intros Hs. unfold in_year. by rewrite !(calendar_unique s). Qed.

(** * Rounding *)
Lemma floor_div v u : 0 < u -> floor_of v u (v / u).
Proof.
  intros H. unfold floor_of. pose proof (Z.div_mod v u ltac:(lia)). pose proof (Z.mod_pos_bound v u H). nia.
Qed.
Lemma to_micros_div ty v unit : 0 < unit -> to_micros ty v / (unit * 1000000) = v / (unit * second_of ty).
Proof.
  intros Hu. unfold to_micros, second_of. destruct ty; try done.
  rewrite Z.div_div by lia. f_equal. lia.
Qed.
Lemma micros_day ty v : to_micros ty v / micros_per_day = v / (86400 * second_of ty).
Proof. apply (to_micros_div ty v 86400). lia. Qed.
Lemma wrap_id k z : 0 < k -> - 2 ^ (k - 1) <= z < 2 ^ (k - 1) -> wrap k z = z.
Proof.
  intros Hk Hz. unfold wrap.
  assert (2 ^ k = 2 * 2 ^ (k - 1)) by (rewrite <- Z.pow_succ_r by lia; f_equal; lia).
  rewrite Z.mod_small; lia.
Qed.

(** * Bytes *)
Lemma le_val_bytes k n : le_val (le_bytes k n) = Z.of_N (n mod 256 ^ N.of_nat k).
Proof.
  revert n. induction k as [|k IH]; intros n; cbn [le_bytes le_val].
  - change (256 ^ N.of_nat 0)%N with 1%N. by rewrite N.mod_1_r.
  - rewrite IH. rewrite Nat2N.inj_succ, N.pow_succ_r'.
    assert (256 ^ N.of_nat k <> 0)%N by (apply N.pow_nonzero; lia).
    rewrite N.mod_mul_r by lia. lia.
Qed.
Lemma le_bytes_is_byte k n : Forall is_byte (le_bytes k n).
Proof.
  revert n. induction k as [|k IH]; intros n; cbn [le_bytes]; constructor; [|done].
  unfold is_byte. pose proof (N.mod_lt n 256 ltac:(lia)). lia.
Qed.
Lemma pow256 k : Z.of_N (256 ^ N.of_nat k) = 2 ^ (8 * Z.of_nat k).
Proof.
  rewrite N2Z.inj_pow. change (Z.of_N 256) with (2 ^ 8). rewrite <- Z.pow_mul_r by lia. f_equal. lia.
Qed.
Lemma le_val_signed k z : le_val (signed_le k z) = z mod 2 ^ (8 * Z.of_nat k).
Proof.
  unfold signed_le. rewrite le_val_bytes.
  assert (Hp : 0 < 2 ^ (8 * Z.of_nat k)) by (apply Z.pow_pos_nonneg; lia).
  pose proof (Z.mod_pos_bound z _ Hp).
  rewrite N2Z.inj_mod, pow256, Z2N.id by lia. apply Z.mod_small. done.
Qed.
Lemma le_val_nonneg l : 0 <= le_val l.
Proof. induction l; cbn [le_val]; lia. Qed.
Lemma le_val_bound l : Forall is_byte l -> le_val l < 2 ^ (8 * Z.of_nat (length l)).
Proof.
  induction 1 as [|b l Hb H IH]; cbn [le_val length]; [lia|].
  replace (8 * Z.of_nat (S (length l))) with (8 + 8 * Z.of_nat (length l)) by lia.
  rewrite Z.pow_add_r by lia. change (2 ^ 8) with 256. unfold is_byte in Hb. lia.
Qed.
Lemma le_val_app a b : le_val (a ++ b) = le_val a + 2 ^ (8 * Z.of_nat (length a)) * le_val b.
Proof.
  induction a as [|x a IH]; [cbn [app le_val length]; change (8 * Z.of_nat 0) with 0; lia|].
  cbn [app le_val length]. rewrite IH.
  replace (8 * Z.of_nat (S (length a))) with (8 + 8 * Z.of_nat (length a)) by lia.
  rewrite Z.pow_add_r by lia. change (2 ^ 8) with 256. lia.
Qed.

(** Stripping zeros keeps the value and leaves no leading zero. *)
Lemma strip_zeros_spec l :
  exists n, l = repeat 0%N n ++ strip_zeros l /\ (forall b k, strip_zeros l = b :: k -> b <> 0%N).
Proof.
  induction l as [|b l IH]; [exists 0%nat; done|].
  cbn [strip_zeros]. destruct (decide (b = 0%N)) as [->|Hb].
  - destruct IH as (n & E & H). exists (S n). cbn. by rewrite <- E.
  - exists 0%nat. split; [done|]. intros b' k [= <- <-]. done.
Qed.
Lemma le_val_repeat n : le_val (repeat 0%N n) = 0.
Proof. induction n as [|n IH]; cbn [repeat le_val]; lia. Qed.
Lemma rev_repeat {A} (x : A) n : rev (repeat x n) = repeat x n.
Proof.
  induction n as [|n IH]; [done|]. cbn [repeat rev]. rewrite IH.
  clear. induction n as [|n IH]; [done|]. cbn [repeat app]. by rewrite IH.
Qed.
Lemma strip_zeros_val l : le_val (rev (strip_zeros l)) = le_val (rev l).
Proof.
  destruct (strip_zeros_spec l) as (n & E & _). rewrite E at 2.
  rewrite rev_app_distr, le_val_app, rev_repeat, le_val_repeat. lia.
Qed.
Lemma Forall_strip_zeros l : Forall is_byte l -> Forall is_byte (strip_zeros l).
Proof.
  intros H. destruct (strip_zeros_spec l) as (n & E & _). rewrite E in H.
  by apply Forall_app in H as [_ H].
Qed.

Lemma decimal_bytes v :
  decimal_plain v -> exists b, hash_decimal v = murmur3_32 0 b /\ spec_bytes TyDecimal (PInt128 v) b.
Proof.
  intros Hv. unfold hash_decimal, hash_bytes.
  assert (Hb : Forall is_byte (rev (signed_le 16 v))) by (apply Forall_rev, le_bytes_is_byte).
  assert (Hval : le_val (rev (strip_zeros (rev (signed_le 16 v)))) = v mod 2 ^ 128).
  { rewrite strip_zeros_val, rev_involutive, le_val_signed. done. }
  assert (Hhd := strip_zeros_spec (rev (signed_le 16 v))).
  destruct Hhd as (_ & _ & Hhd).
  pose proof (Forall_strip_zeros _ Hb) as Hb'.
  destruct Hv as [->|(n & Hn & Hv)].
  - exists [0%N]. split; [by vm_compute|]. cbn [spec_bytes].
    split; [by repeat constructor|]. split; [by vm_compute|]. split; [done|].
    intros [|] _ ? _; [done|cbn; lia].
  - assert (Hlt : 2 ^ (8 * n - 1) <= 2 ^ 127) by (apply Z.pow_le_mono_r; lia).
    assert (Hpos : 0 < 2 ^ (8 * (n - 1))) by (apply Z.pow_pos_nonneg; lia).
    rewrite Z.mod_small in Hval by (change (2 ^ 128) with (2 * 2 ^ 127); lia).
    destruct (strip_zeros (rev (signed_le 16 v))) as [|b l] eqn:Es.
    { cbn in Hval. lia. }
    exists (b :: l). split; [done|].
    (* its length is n *)
    assert (Hl : Z.of_nat (length (b :: l)) = n).
    { specialize (Hhd b l eq_refl).
      assert (Hup : le_val (rev (b :: l)) < 2 ^ (8 * Z.of_nat (length (b :: l)))).
      { rewrite <- rev_length. apply le_val_bound. by apply Forall_rev. }
      assert (Hlo : 2 ^ (8 * Z.of_nat (length l)) <= le_val (rev (b :: l))).
      { cbn [rev]. rewrite le_val_app. cbn [le_val]. rewrite rev_length.
        pose proof (le_val_nonneg (rev l)). assert (0 < 2 ^ (8 * Z.of_nat (length l))) by (apply Z.pow_pos_nonneg; lia).
        nia. }
      rewrite Hval in Hup, Hlo. cbn [length] in *.
      destruct (Z.lt_trichotomy (Z.of_nat (S (length l))) n) as [H|[H|H]]; [|done|].
      - assert (2 ^ (8 * Z.of_nat (S (length l))) <= 2 ^ (8 * (n - 1))) by (apply Z.pow_le_mono_r; lia). lia.
      - assert (2 ^ (8 * n - 1) <= 2 ^ (8 * Z.of_nat (length l))) by (apply Z.pow_le_mono_r; lia). lia. }
    cbn [spec_bytes]. split; [done|]. split; [|split; [done|]].
    + unfold be_signed. rewrite Hval, Hl. rewrite decide_True; [done|lia].
    + intros b' Hb1 Hne Hv'. unfold be_signed in Hv'.
      assert (Hu : le_val (rev b') < 2 ^ (8 * Z.of_nat (length b'))).
      { rewrite <- rev_length. apply le_val_bound. by apply Forall_rev. }
      destruct (decide _) as [Hd|Hd]; [|lia].
      destruct (decide (length (b :: l) <= length b')%nat) as [|Hc]; [done|exfalso].
      assert (2 ^ (8 * Z.of_nat (length b')) <= 2 ^ (8 * (n - 1))) by (apply Z.pow_le_mono_r; lia). lia.
Qed.

Lemma bucket_spec h n :
  (0 < n < 2 ^ 31)%N ->
  bucket_n h n = Ret (Some (PInt (Z.of_N (N.land h 0x7fffffff) mod Z.of_N n))).
Proof.
  intros Hn. unfold bucket_n, wrap32. rewrite wrap_id by lia.
  rewrite decide_False by lia. rewrite Z.rem_mod_nonneg by lia. done.
Qed.

Lemma bucket_transform start n ty v :
  spec_types (Bucket n) ty v -> bucket_plain ty v ->
  exists r, apply_transform (Bucket n) ty (Some v) = Ret r /\ spec_transform start (Bucket n) ty v r.
Proof.
  intros [Ht Hn] [Hns Hp].
  assert (Hgo : forall h b, h = murmur3_32 0 b -> spec_bytes ty v b ->
    exists r, bucket_n h n = Ret r /\ spec_transform start (Bucket n) ty v r).
  { intros h b -> Hb. rewrite bucket_spec by done. eexists. split; [done|]. exists b. split; [done|done]. }
  assert (Hlong : forall z, spec_bytes TyLong (PLong z) (signed_le 8 z)).
  { intros z. split; [apply le_bytes_is_byte|]. split; [apply le_bytes_length|]. apply (le_val_signed 8). }
  destruct v as [x|x|x|x|x|x|x|x|x]; try (by destruct ty); cbn [apply_transform].
  - eapply Hgo; [done|]. apply (Hlong x).
  - eapply Hgo; [done|]. destruct (Hlong x) as [H1 H2]. split; [done|]. by destruct ty.
  - destruct (decimal_bytes x Hp) as (b & -> & Hb). eapply Hgo; [done|]. done.
  - eapply Hgo; [done|]. by split.
  - eapply Hgo; [done|]. split; [apply Forall_rev, le_bytes_is_byte|].
    rewrite rev_length, le_bytes_length, rev_involutive, le_val_bytes. split; [done|].
    change (256 ^ N.of_nat 16)%N with (2 ^ 128)%N. by rewrite N.mod_small.
  - eapply Hgo; [done|]. by split.
Qed.

(** * Truncation *)
Lemma take_chars_concat cs w :
  Forall utf8_char cs -> take_chars w (concat cs) = concat (take (N.to_nat w) cs).
Proof.
  intros H. revert w. induction H as [|c cs (b & bs & -> & Hb & Hbs & _) H IH]; intros w; [by destruct (N.to_nat w)|].
  cbn [concat app take_chars]. rewrite Hb.
  destruct (decide (w = 0%N)) as [->|Hw]; [done|].
  destruct (N.to_nat w) as [|k] eqn:Ek; [lia|]. cbn [take concat app]. f_equal.
  assert (Hc : forall l, take_chars (w - 1) (bs ++ l) = bs ++ take_chars (w - 1) l).
  { intros l. induction Hbs as [|x bs Hx Hbs IHb]; [done|]. cbn [app take_chars]. by rewrite Hx, IHb. }
  rewrite Hc, IH. do 3 f_equal. lia.
Qed.

Lemma truncate_transform start w ty v :
  spec_types (Truncate w) ty v -> truncate_plain w v ->
  exists r, apply_transform (Truncate w) ty (Some v) = Ret r /\ spec_transform start (Truncate w) ty v r.
Proof.
  intros [_ [Hw _]] Hp. destruct v as [x|x|x|x|x|x|x|x|x]; try done; cbn [apply_transform].
  - destruct Hp as [Hx Hr]. pose proof (Z.mod_pos_bound x (Z.of_N w) ltac:(lia)).
    unfold truncate_int, rem_euclid, wrap32. rewrite (wrap_id 32 (Z.of_N w)) by lia.
    rewrite decide_False by lia. rewrite decide_False by lia.
    rewrite Z.abs_eq by lia. rewrite (wrap_id 32) by lia.
    eexists. split; [done|]. exists (x / Z.of_N w). split; [apply floor_div; lia|].
    do 2 f_equal. pose proof (Z.div_mod x (Z.of_N w) ltac:(lia)). lia.
  - destruct Hp as [Hx Hr]. pose proof (Z.mod_pos_bound x (Z.of_N w) ltac:(lia)).
    unfold truncate_long, rem_euclid, wrap64.
    rewrite decide_False by lia.
    rewrite Z.abs_eq by lia. rewrite (wrap_id 64) by lia.
    eexists. split; [done|]. exists (x / Z.of_N w). split; [apply floor_div; lia|].
    do 2 f_equal. pose proof (Z.div_mod x (Z.of_N w) ltac:(lia)). lia.
  - destruct Hp as (cs & Hcs & ->). rewrite take_chars_concat by done. eexists. split; [done|].
    exists cs. done.
Qed.

(** * Time *)
Lemma day_transform start ty v :
  spec_types Day ty v -> prim_ok v ->
  exists r, apply_transform Day ty (Some v) = Ret r /\ spec_transform start Day ty v r.
Proof.
  intros [Ht Hd] Hok.
  change (ty ∈ [TyDate; TyTs; TyTsNs]) in Hd.
  destruct ty; try (exfalso; clear - Hd; apply (bool_decide_eq_true_2 _) in Hd; vm_compute in Hd; discriminate); destruct v; try exact (False_ind _ Ht).
  - eexists. split; [done|]. cbn. done.
  - cbn [apply_transform]. rewrite micros_day. cbn [prim_ok] in Hok. unfold clamp32.
    change (86400 * second_of TyTs) with 86400000000.
    rewrite decide_True by (Z.to_euclidean_division_equations; lia).
    eexists. split; [done|]. cbn [spec_transform]. eexists. split; [|done]. apply floor_div. lia.
  - cbn [apply_transform]. rewrite micros_day. cbn [prim_ok] in Hok. unfold clamp32.
    change (86400 * second_of TyTsNs) with 86400000000000.
    rewrite decide_True by (Z.to_euclidean_division_equations; lia).
    eexists. split; [done|]. cbn [spec_transform]. eexists. split; [|done]. apply floor_div. lia.
Qed.
Lemma hour_transform start ty v :
  spec_types Hour ty v -> prim_ok v -> hour_plain ty v ->
  exists r, apply_transform Hour ty (Some v) = Ret r /\ spec_transform start Hour ty v r.
Proof.
  intros [Ht Hd] Hok Hp.
  change (ty ∈ [TyTs; TyTsNs]) in Hd.
  destruct ty; try (exfalso; clear - Hd; apply (bool_decide_eq_true_2 _) in Hd; vm_compute in Hd; discriminate); destruct v; try exact (False_ind _ Ht).
  - cbn [apply_transform]. cbn [prim_ok] in Hok. destruct Hp as [|Hp]; [done|].
    change (to_micros TyTs z) with z. unfold clamp32.
    rewrite decide_True by (Z.to_euclidean_division_equations; lia).
    eexists. split; [done|]. cbn [spec_transform]. eexists. split; [|done]. apply floor_div. lia.
  - cbn [apply_transform]. cbn [prim_ok] in Hok.
    change (to_micros TyTsNs z) with (z / 1000). unfold clamp32.
    rewrite Z.div_div by lia. change (1000 * 3600000000) with 3600000000000.
    rewrite decide_True by (Z.to_euclidean_division_equations; lia).
    eexists. split; [done|]. cbn [spec_transform]. eexists. split; [|done]. apply floor_div. lia.
Qed.

Lemma chrono_day_plain start d :
  calendar start -> start (12 * (-262143 - 1970)) <= d < start (12 * (262143 - 1970)) -> chrono_day d = true.
Proof.
  intros Hs Hd. rewrite !(calendar_unique start Hs) in Hd.
  unfold chrono_day. rewrite andb_true_iff, !bool_decide_eq_true.
  destruct (year_of_day_spec d) as [H1 H2]. unfold chrono_min_year, chrono_max_year.
  destruct (Z_lt_dec (year_of_day d) (-262143)) as [H|H].
  { pose proof (month_start_mono (12 * (year_of_day d - 1970 + 1)) (12 * (-262143 - 1970)) ltac:(lia)). lia. }
  destruct (Z_lt_dec 262142 (year_of_day d)) as [H'|H'].
  { pose proof (month_start_mono (12 * (262143 - 1970)) (12 * (year_of_day d - 1970)) ltac:(lia)). lia. }
  lia.
Qed.
Lemma micros_to_months_eq m :
  chrono_day (m / micros_per_day) = true -> micros_to_months m = month_of_day (m / micros_per_day).
Proof.
  intros H. unfold micros_to_months, month_of_day. rewrite H. destruct (decide _); lia.
Qed.
Lemma month_transform start ty v :
  calendar start -> spec_types Month ty v -> date_plain start ty v ->
  exists r, apply_transform Month ty (Some v) = Ret r /\ spec_transform start Month ty v r.
Proof.
  intros Hs [Ht Hd] [Hp Hr]. apply chrono_day_plain in Hr; [|done].
  destruct (month_of_day_spec (day_of ty v)) as [Hm _]. apply (calendar_in_month start) in Hm; [|done].
  change (ty ∈ [TyDate; TyTs; TyTsNs]) in Hd.
  destruct ty; try (exfalso; clear - Hd; apply (bool_decide_eq_true_2 _) in Hd; vm_compute in Hd; discriminate); destruct v; try exact (False_ind _ Ht).
  - cbn [apply_transform day_of] in *. specialize (Hp eq_refl). unfold days_to_months.
    rewrite decide_True by done. rewrite Hr. eexists. split; [done|]. cbn [spec_transform]. by eexists.
  - cbn [apply_transform]. cbn [day_of] in *. rewrite <- micros_day in Hr, Hm.
    rewrite micros_to_months_eq by done.
    eexists. split; [done|]. cbn [spec_transform]. do 2 eexists.
    split; [apply (floor_div z (86400 * 1000000)); lia|]. split; [|done]. rewrite micros_day in *. done.
  - cbn [apply_transform]. cbn [day_of] in *. rewrite <- micros_day in Hr, Hm.
    rewrite micros_to_months_eq by done.
    eexists. split; [done|]. cbn [spec_transform]. do 2 eexists.
    split; [apply (floor_div z (86400 * 1000000000)); lia|]. split; [|done]. rewrite micros_day in *. done.
Qed.
Lemma year_transform start ty v :
  calendar start -> spec_types Year ty v -> date_plain start ty v ->
  exists r, apply_transform Year ty (Some v) = Ret r /\ spec_transform start Year ty v r.
Proof.
  intros Hs [Ht Hd] [Hp Hr]. apply chrono_day_plain in Hr; [|done].
  pose proof (year_of_day_spec (day_of ty v)) as Hm. apply (calendar_in_year start) in Hm; [|done].
  change (ty ∈ [TyDate; TyTs; TyTsNs]) in Hd.
  destruct ty; try (exfalso; clear - Hd; apply (bool_decide_eq_true_2 _) in Hd; vm_compute in Hd; discriminate); destruct v; try exact (False_ind _ Ht).
  - cbn [apply_transform day_of] in *. specialize (Hp eq_refl). unfold days_to_year.
    rewrite decide_True by done. rewrite Hr. eexists. split; [done|]. cbn [spec_transform]. by eexists.
  - cbn [apply_transform]. cbn [day_of] in *. rewrite <- micros_day in Hr, Hm.
    unfold micros_to_year. rewrite Hr.
    eexists. split; [done|]. cbn [spec_transform]. do 2 eexists.
    split; [apply (floor_div z (86400 * 1000000)); lia|]. split; [|done]. rewrite micros_day in *. done.
  - cbn [apply_transform]. cbn [day_of] in *. rewrite <- micros_day in Hr, Hm.
    unfold micros_to_year. rewrite Hr.
    eexists. split; [done|]. cbn [spec_transform]. do 2 eexists.
    split; [apply (floor_div z (86400 * 1000000000)); lia|]. split; [|done]. rewrite micros_day in *. done.
Qed.

(** The specified result is unique. *)
Lemma floor_unique v u a b : 0 < u -> floor_of v u a -> floor_of v u b -> a = b.
Proof. unfold floor_of. nia. Qed.

Lemma null_transform t ty : apply_transform t ty None = Ret None.
Proof. by destruct t, ty. Qed.

(** * Counterexamples *)
Lemma void_refuted : exists start v r, calendar start /\ spec_types Void TyInt v /\
  apply_transform Void TyInt (Some v) = Ret r /\ ~ spec_transform start Void TyInt v r.
Proof.
  exists month_start, (PInt 1), (Some (PInt 1)). split; [apply month_start_calendar|].
  split; [done|]. split; [done|]. cbn. discriminate.
Qed.
Lemma before_1970 d : d < 0 ->
  apply_transform Year TyDate (Some (PInt d)) = Panic /\
  apply_transform Month TyDate (Some (PInt d)) = Panic.
Proof.
  intros H. cbn [apply_transform]. unfold days_to_year, days_to_months. by rewrite !decide_False by lia.
Qed.

(** Byte strings are determined by length and value. *)
Lemma le_val_inj a b : Forall is_byte a -> Forall is_byte b -> length a = length b -> le_val a = le_val b -> a = b.
Proof.
  intros Ha. revert b. induction Ha as [|x a Hx Ha IH]; intros [|y b] Hb Hl Hv; try done.
  apply Forall_cons in Hb as [Hy Hb]. cbn [le_val] in Hv. unfold is_byte in *.
  assert (x = y) by lia. subst. f_equal. apply IH; [done| |lia]. by injection Hl.
Qed.
Lemma be_unique (a b : text) v :
  Forall is_byte a -> Forall is_byte b -> length a = length b -> a <> [] ->
  be_signed a = v -> be_signed b = v -> a = b.
Proof.
  intros Ha Hb Hl Hne H1 H2.
  assert (le_val (rev a) = le_val (rev b)).
  { unfold be_signed in *. rewrite Hl in H1.
    assert (le_val (rev a) < 2 ^ (8 * Z.of_nat (length b))).
    { rewrite <- Hl, <- rev_length. apply le_val_bound. by apply Forall_rev. }
    assert (le_val (rev b) < 2 ^ (8 * Z.of_nat (length b))).
    { rewrite <- rev_length. apply le_val_bound. by apply Forall_rev. }
    pose proof (le_val_nonneg (rev a)). pose proof (le_val_nonneg (rev b)).
    assert (2 ^ (8 * Z.of_nat (length b)) = 2 * 2 ^ (8 * Z.of_nat (length b) - 1)).
    { rewrite <- Z.pow_succ_r; [f_equal; lia|]. destruct b; [by destruct a|cbn [length]; lia]. }
    destruct (decide _), (decide _); lia. }
  rewrite <- (rev_involutive a), <- (rev_involutive b). f_equal.
  apply le_val_inj; [by apply Forall_rev|by apply Forall_rev|by rewrite !rev_length|done].
Qed.
(** The shortest encoding is unique. *)
Lemma decimal_bytes_unique v a b :
  spec_bytes TyDecimal (PInt128 v) a -> spec_bytes TyDecimal (PInt128 v) b -> a = b.
Proof.
  intros (Ha & Va & Na & Ma) (Hb & Vb & Nb & Mb).
  eapply be_unique; eauto. specialize (Ma b Hb Nb Vb). specialize (Mb a Ha Na Va). lia.
Qed.
Lemma shortest_1 v b : Forall is_byte b -> length b = 1%nat -> be_signed b = v -> spec_bytes TyDecimal (PInt128 v) b.
Proof.
  intros Hb Hl Hv. split; [done|]. split; [done|]. split; [by destruct b|].
  intros b' _ Hne _. destruct b'; [done|]. cbn [length]. lia.
Qed.
Lemma shortest_128 : spec_bytes TyDecimal (PInt128 128) [0; 128]%N.
Proof.
  split; [repeat constructor|]. split; [by vm_compute|]. split; [done|].
  intros b Hb Hne Hv. destruct b as [|x [|y b]]; [done| |cbn [length]; lia].
  exfalso. apply Forall_cons in Hb as [Hx _]. unfold be_signed in Hv. cbn [rev app le_val length] in Hv.
  change (8 * Z.of_nat 1) with 8 in Hv. change (2 ^ (8 - 1)) with 128 in Hv. change (2 ^ 8) with 256 in Hv.
  unfold is_byte in Hx. destruct (decide _); lia.
Qed.

Lemma bucket_decimal_differs v b n x :
  spec_bytes TyDecimal (PInt128 v) b ->
  apply_transform (Bucket n) TyDecimal (Some (PInt128 v)) = Ret (Some (PInt x)) ->
  x <> Z.of_N (N.land (murmur3_32 0 b) 0x7fffffff) mod Z.of_N n ->
  ~ spec_transform month_start (Bucket n) TyDecimal (PInt128 v) (Some (PInt x)).
Proof.
  intros Hb _ Hx (b' & Hb' & [= E]). apply Hx. rewrite E. by rewrite (decimal_bytes_unique v b b').
Qed.
Lemma bucket_decimal_refuted : exists start n v r, calendar start /\
  spec_types (Bucket n) TyDecimal v /\
  apply_transform (Bucket n) TyDecimal (Some v) = Ret r /\ ~ spec_transform start (Bucket n) TyDecimal v r.
Proof.
  exists month_start, 16%N, (PInt128 128).
  destruct (apply_transform (Bucket 16) TyDecimal (Some (PInt128 128))) as [|[[]|]] eqn:E; try (vm_compute in E; discriminate).
  eexists. split; [apply month_start_calendar|]. split; [clear; by vm_compute|]. split; [reflexivity|].
  eapply bucket_decimal_differs; [apply shortest_128|exact E|].
  vm_compute in E. injection E as <-. by vm_compute.
Qed.
Lemma bucket_negative_refuted : exists start n v r, calendar start /\ v < 0 /\
  spec_types (Bucket n) TyDecimal (PInt128 v) /\
  apply_transform (Bucket n) TyDecimal (Some (PInt128 v)) = Ret r /\
  ~ spec_transform start (Bucket n) TyDecimal (PInt128 v) r.
Proof.
  exists month_start, 16%N, (-1).
  destruct (apply_transform (Bucket 16) TyDecimal (Some (PInt128 (-1)))) as [|[[]|]] eqn:E; try (vm_compute in E; discriminate).
  eexists. split; [apply month_start_calendar|]. split; [clear; lia|]. split; [clear; by vm_compute|]. split; [reflexivity|].
  eapply bucket_decimal_differs; [apply (shortest_1 (-1) [255%N]); [by repeat constructor|done|by vm_compute]|exact E|].
  vm_compute in E. injection E as <-. by vm_compute.
Qed.
Lemma bucket_nanos_refuted : exists start n v r, calendar start /\
  spec_types (Bucket n) TyTsNs v /\
  apply_transform (Bucket n) TyTsNs (Some v) = Ret r /\ ~ spec_transform start (Bucket n) TyTsNs v r.
Proof.
  exists month_start, 1000%N, (PLong 1000).
  destruct (apply_transform (Bucket 1000) TyTsNs (Some (PLong 1000))) as [|[[]|]] eqn:E; try (vm_compute in E; discriminate).
  eexists. split; [apply month_start_calendar|]. split; [clear; by vm_compute|]. split; [reflexivity|].
  intros (b & (Hb & Hl & Hv) & [= Ez]).
  assert (b = [1; 0; 0; 0; 0; 0; 0; 0]%N) as ->.
  { apply le_val_inj; [done|by repeat constructor|done|]. rewrite Hv. by vm_compute. }
  rewrite Ez in E. by vm_compute in E.
Qed.
Lemma truncate_unchanged_refuted : exists start w,
  calendar start /\ exists v r, spec_types (Truncate w) TyDecimal v /\
    apply_transform (Truncate w) TyDecimal (Some v) = Ret r /\ ~ spec_transform start (Truncate w) TyDecimal v r /\
  exists v' r', spec_types (Truncate w) TyBinary v' /\
    apply_transform (Truncate w) TyBinary (Some v') = Ret r' /\ ~ spec_transform start (Truncate w) TyBinary v' r'.
Proof.
  exists month_start, 10%N. split; [apply month_start_calendar|].
  exists (PInt128 15), (Some (PInt128 15)).
  split; [split; [done|]; split; [done|]; by apply (bool_decide_unpack _)|]. split; [done|]. split.
  - intros (q & Hq & [= E]). lia.
  - exists (PBinary (repeat 0%N 11)), (Some (PBinary (repeat 0%N 11))).
    split; [split; [done|]; split; [done|]; by apply (bool_decide_unpack _)|]. split; [done|].
    by vm_compute.
Qed.
Lemma hour_range_refuted : exists start v r, calendar start /\ prim_ok v /\
  spec_types Hour TyTs v /\ apply_transform Hour TyTs (Some v) = Ret r /\
  r = Some (PInt (2 ^ 31 - 1)) /\ ~ spec_transform start Hour TyTs v r.
Proof.
  exists month_start, (PLong (- 2 ^ 63)), (Some (PInt (2 ^ 31 - 1))).
  split; [apply month_start_calendar|]. split; [by vm_compute|].
  split; [split; [done|]; by apply (bool_decide_unpack _)|]. split; [by vm_compute|]. split; [done|].
  cbn [spec_transform]. intros (q & Hq & [= <-]). revert Hq. unfold floor_of. lia.
Qed.
