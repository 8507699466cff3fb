(** C85: year, last_day and next_day are the right days, and filters on them keep the same rows after
    they are rewritten. *)
From Coq Require Import ZArith NArith ZifyBool Ascii String Lia.
From stdpp Require Import prelude list.
From Verif.Lib Require Import Text.
From Verif.Functions Require Import IntModel.
From Verif.Literal Require Import NumberModel.
From Verif.Datetime Require Import CalendarModel CalendarSpec CalendarProofs DatetimeModel DatetimeSpec DatetimeProofs DateFunModel.
Local Open Scope Z_scope.

(** ** Specification *)
(** [n] is the last day of the month of the day [d]. *)
Definition is_last_day (d n : Z) : Prop :=
  exists x, in_range x /\ day_number x d /\ day_number (Date (year x) (month x) (length_of_month (year x) (month x))) n.
(** The day of the week of a day, from Monday, which is 0, to Sunday. *)
Inductive day_of_week : Z -> Z -> Prop :=
| epoch_thursday : day_of_week 0 3
| next_weekday n w : day_of_week n w -> day_of_week (n + 1) (if decide (w = 6) then 0 else w + 1)
| previous_weekday n w : day_of_week n w -> day_of_week (n - 1) (if decide (w = 0) then 6 else w - 1).
(** [n] is the first day after [d] that is a [w]. *)
Definition is_next (d w n : Z) : Prop :=
  d < n /\ day_of_week n w /\ forall m, d < m < n -> ~ day_of_week m w.

(** The names of the days, and equality of texts up to the case of letters. *)
Definition english (w : Z) : option text :=
  if decide (w = 0) then Some (str "MONDAY") else if decide (w = 1) then Some (str "TUESDAY")
  else if decide (w = 2) then Some (str "WEDNESDAY") else if decide (w = 3) then Some (str "THURSDAY")
  else if decide (w = 4) then Some (str "FRIDAY") else if decide (w = 5) then Some (str "SATURDAY")
  else if decide (w = 6) then Some (str "SUNDAY") else None.
Definition same_letters (s capitals : text) : Prop :=
  Forall2 (fun c C => c = C \/ (c = C + 32 /\ 65 <= C <= 90))%N s capitals.

(** ** Proofs *)
Lemma subseteq_take {A} k (l : list A) x : x ∈ take k l -> x ∈ l.
Proof. intros H. rewrite <- (take_drop k l). apply elem_of_app. by left. Qed.
Lemma day_of_week_spec n w : day_of_week n w <-> w = weekday n.
Proof.
  unfold weekday. split.
  - induction 1 as [|n w _ ->|n w _ ->]; [done|case_decide; Z.to_euclidean_division_equations; lia..].
  - intros ->. destruct (Z.le_gt_cases 0 n) as [H|H].
    + replace n with (Z.of_nat (Z.to_nat n)) by lia. generalize (Z.to_nat n) as k. clear. induction k as [|k IH]; [apply epoch_thursday|].
      replace (Z.of_nat (S k)) with (Z.of_nat k + 1) by lia.
      replace ((Z.of_nat k + 1 + 3) mod 7) with (let w := (Z.of_nat k + 3) mod 7 in if decide (w = 6) then 0 else w + 1);
        [by apply next_weekday|]. cbv zeta. case_decide; Z.to_euclidean_division_equations; lia.
    + replace n with (- Z.of_nat (Z.to_nat (- n))) by lia. generalize (Z.to_nat (- n)) as k. clear. induction k as [|k IH]; [apply epoch_thursday|].
      replace (- Z.of_nat (S k)) with (- Z.of_nat k - 1) by lia.
      replace ((- Z.of_nat k - 1 + 3) mod 7) with (let w := (- Z.of_nat k + 3) mod 7 in if decide (w = 0) then 6 else w - 1);
        [by apply previous_weekday|]. cbv zeta. case_decide; Z.to_euclidean_division_equations; lia.
Qed.
(** Earlier dates have smaller numbers. *)
Lemma to_days_year x : is_date x ->
  days_before_year (year x) <= to_days x + 719162 < days_before_year (year x + 1).
Proof. intros H. by destruct (in_year x H) as [? _]. Qed.
Lemma year_start y : to_days (Date y 1 1) + 719162 = days_before_year y.
Proof. unfold to_days. cbn [year month day]. change (days_in_months (Z.to_nat (1 - 1)) y) with 0. lia. Qed.
Lemma days_before_year_lt y y' : y < y' -> days_before_year y < days_before_year y'.
Proof.
  intros H. pose proof (days_before_year_mono (y + 1) y' ltac:(lia)). rewrite year_days in *. destruct (is_leap y); lia.
Qed.
Lemma month_start y m : 1 <= m <= 12 ->
  to_days (Date y m (length_of_month y m)) + 1 = (if m =? 12 then to_days (Date (y + 1) 1 1) else to_days (Date y (m + 1) 1)).
Proof.
  intros Hm. assert (is_date (Date y m (length_of_month y m))) as Hd.
  { unfold is_date. cbn. split; [done|]. unfold length_of_month. repeat case_decide; lia. }
  destruct (tomorrow_spec _ Hd) as [_ <-]. unfold tomorrow. cbn [year month day]. rewrite decide_False by lia.
  destruct (Z.eqb_spec m 12) as [->|]; [by rewrite decide_False by lia|by rewrite decide_True by lia].
Qed.
Lemma month_days y m d : to_days (Date y m d) = to_days (Date y m 1) + d - 1.
Proof. unfold to_days. cbn [year month day]. lia. Qed.
Lemma in_month_bounds x : is_date x ->
  to_days (Date (year x) (month x) 1) <= to_days x <= to_days (Date (year x) (month x) (length_of_month (year x) (month x))).
Proof. destruct x as [y m d]. intros [Hm Hd]. cbn [year month day] in *. 
  pose proof (month_days y m d). pose proof (month_days y m (length_of_month y m)). lia. Qed.
Lemma length_pos y m : 28 <= length_of_month y m <= 31.
Proof. unfold length_of_month. repeat case_decide; lia. Qed.
Lemma from_ymd_Some y m d x : from_ymd y m d = Some x <-> x = Date y m d /\ in_range (Date y m d).
Proof.
  rewrite from_ymd_spec. unfold in_range, is_date. cbn [year month day]. case_bool_decide; naive_solver.
Qed.
Lemma last_day_spec d n x : of_days d = Some x ->
  last_day d = Some n <-> day_number (Date (year x) (month x) (length_of_month (year x) (month x))) n /\ ~ (year x = 262142 /\ month x = 12).
Proof.
  intros Hx. pose proof (to_days_of_days _ _ Hx) as [Hr _]. destruct Hr as [[Hm Hd] Hy].
  unfold last_day. rewrite Hx. cbn [mbind option_bind].
  pose proof (month_start (year x) (month x) Hm) as Hms. pose proof (length_pos (year x) (month x)) as Hlp.
  assert (in_range (Date (year x) (month x) (length_of_month (year x) (month x)))) as Hlr.
  { split; [|done]. unfold is_date. cbn [year month day]. split; [done|lia]. }
  rewrite day_number_spec by done. destruct (Z.eqb_spec (month x) 12) as [E|E].
  - destruct (from_ymd (year x + 1) 1 1) as [f|] eqn:Ef; cbn [mbind option_bind].
    + apply from_ymd_Some in Ef as [-> [_ Hf]]. cbn in Hf. split; [intros [= <-]; split; lia|]. intros [<- _]. f_equal. lia.
    + split; [done|]. intros [_ Hn]. exfalso. assert (from_ymd (year x + 1) 1 1 = Some (Date (year x + 1) 1 1)) as E'; [|congruence].
      apply from_ymd_Some. split; [done|]. split; [|cbn; lia]. unfold is_date. cbn [year month day]. pose proof (length_pos (year x + 1) 1). lia.
  - assert (from_ymd (year x) (month x + 1) 1 = Some (Date (year x) (month x + 1) 1)) as Ef.
    { apply from_ymd_Some. split; [done|]. split; [|done]. unfold is_date. cbn [year month day]. pose proof (length_pos (year x) (month x + 1)). lia. }
    rewrite Ef. cbn [mbind option_bind]. split; [intros [= <-]; split; lia|]. intros [<- _]. f_equal. lia.
Qed.

(** ** C85 *)
(** The last day of a month, except for the last month that chrono knows. *)
Theorem C85_last_day d n : last_day d = Some n <-> is_last_day d n /\ d < 95026206.
Proof.
  unfold is_last_day. split.
  - intros H. pose proof H as H'. unfold last_day in H'. destruct (of_days d) as [x|] eqn:E; [|done]. clear H'.
    destruct (proj1 (last_day_spec d n x E) H) as [H1 Hne]. pose proof (to_days_of_days _ _ E) as [Hr Hn]. split.
    + exists x. split; [done|]. split; [by apply day_number_of_days|done].
    + destruct (Z.lt_ge_cases d 95026206) as [|Hge]; [done|]. exfalso.
      assert (exists x, of_days d = Some x) as Hb%of_days_bounds by eauto. unfold LAST_DAY in Hb.
      assert (exists j : Z, 0 <= j <= 30 /\ d = 95026206 + j) as (j & Hj & ->) by (exists (d - 95026206); lia).
      assert (of_days (95026206 + j) = Some (Date 262142 12 (j + 1))) as E2.
      { assert (95026206 + j = to_days (Date 262142 12 (j + 1))) as ->.
        { rewrite (month_days 262142 12 (j + 1)). change (to_days (Date 262142 12 1)) with 95026206. lia. }
        apply of_days_to_days. split; [|cbn; lia]. unfold is_date. cbn [year month day].
        change (length_of_month 262142 12) with 31. lia. }
      rewrite E in E2. injection E2 as ->. by apply Hne.
  - intros [(x & Hr & Hd & Hn) Hlt]. apply (last_day_spec d n x); [by apply day_number_of_days|]. split; [done|].
    intros [E1 E2]. apply day_number_spec in Hd; [|done]. destruct x as [y m dd]. cbn [year month] in E1, E2. subst y m.
    rewrite month_days in Hd. change (to_days (Date 262142 12 1)) with 95026206 in Hd. destruct Hr as [[_ Hdd] _]. cbn in Hdd. lia.
Qed.
Print Assumptions C85_last_day.
Example C85_last_day_example : last_day 19755 = Some 19782 /\ of_days 19755 = Some (Date 2024 2 2) /\ of_days 19782 = Some (Date 2024 2 29).
Proof. split_and!; vm_compute; reflexivity. Qed.

(** The first later day with that name. *)
Theorem C85_next_day d w n : 0 <= w <= 6 -> next_day d w = Ok (Some n) -> is_next d w n.
Proof.
  intros Hw. unfold next_day. destruct (of_days d) as [x|]; [|done].
  destruct (of_days _) as [y|]; [|done]. intros [= <-]. unfold is_next. setoid_rewrite day_of_week_spec.
  unfold days_since, weekday. split_and!.
  - Z.to_euclidean_division_equations; lia.
  - Z.to_euclidean_division_equations; lia.
  - intros m Hm E. Z.to_euclidean_division_equations; lia.
Qed.
Print Assumptions C85_next_day.
(** It is NULL for no date that chrono knows, and panics within a week of the last one only. *)
Theorem C85_next_day_total d w x : 0 <= w <= 6 -> in_range x -> day_number x d -> d + 7 <= 95026236 ->
  exists n, next_day d w = Ok (Some n).
Proof.
  intros Hw Hr Hd Hl. apply day_number_of_days in Hd; [|done]. unfold next_day. rewrite Hd.
  assert (exists x, of_days d = Some x) as Hb%of_days_bounds by eauto.
  pose proof (Z.mod_pos_bound (weekday d - w) 7 ltac:(lia)) as Hm. unfold days_since.
  assert (exists y, of_days (d + (7 - (weekday d - w) mod 7)) = Some y) as [y ->].
  { apply of_days_bounds. unfold LAST_DAY, FIRST_DAY in *. lia. }
  eauto.
Qed.
Print Assumptions C85_next_day_total.
Theorem C85_next_day_panic_refuted : exists d w, 0 <= w <= 6 /\ next_day d w = Panic.
Proof. exists 95026236, 0. split; [lia|]. vm_compute. reflexivity. Qed.
Print Assumptions C85_next_day_panic_refuted.
(** A day is named by its English name or by its first two or three letters, in any case. *)
Theorem C85_day_names s w : parse_day_of_week s = Some w <->
  exists name, english w = Some name /\ (same_letters s (take 2 name) \/ same_letters s (take 3 name) \/ same_letters s name).
Proof.
  assert (forall a b, (forall c, c ∈ b -> (65 <= c <= 90)%N) -> same_letters a b <-> map upper a = b) as Hsl.
  { intros a b Hb. unfold same_letters. split.
    - induction 1 as [|x y a b [E|[E1 E2]] _ IH]; [done|..]; cbn [map]; (rewrite IH; [|intros c Hc; apply Hb; by right]); f_equal;
        unfold upper; specialize (Hb y ltac:(left)); destruct (N.leb_spec 97 x), (N.leb_spec x 122); cbn [andb]; lia.
    - intros <-. induction a as [|x a IH]; [constructor|]. cbn [map]. constructor; [|apply IH; intros c Hc; apply Hb; by right].
      specialize (Hb (upper x) ltac:(left)). revert Hb. unfold upper. destruct (N.leb_spec 97 x), (N.leb_spec x 122); cbn [andb]; lia. }
  assert (forall w name, english w = Some name -> forall c, c ∈ name -> (65 <= c <= 90)%N) as Hcap.
  { intros v name Hn. assert (Forall (fun c => (65 <= c <= 90)%N) name) as Hf; [|intros c Hc; by eapply list.Forall_forall in Hf].
    unfold english in Hn. repeat case_decide; try discriminate Hn; injection Hn as <-; by apply (bool_decide_unpack _); vm_compute. }
  assert (forall w name, english w = Some name -> same_letters s (take 2 name) \/ same_letters s (take 3 name) \/ same_letters s name <->
    map upper s ∈ [take 2 name; take 3 name; name]) as Hin.
  { intros v name Hn. pose proof (Hcap _ _ Hn) as Hc. rewrite !Hsl; [|done|..].
    - rewrite !elem_of_cons, elem_of_nil. tauto.
    - intros c Hcc. apply Hc. by eapply subseteq_take.
    - intros c Hcc. apply Hc. by eapply subseteq_take. }
  assert (parse_day_of_week s = Some w <-> exists name, english w = Some name /\ map upper s ∈ [take 2 name; take 3 name; name]) as ->.
  2:{ split; intros (name & Hn & H); exists name; (split; [done|]); by apply (Hin _ _ Hn). }
  clear. unfold parse_day_of_week. set (u := map upper s). clearbody u. unfold names. cbn [list_find].
  split.
  - repeat case_decide; cbn -[str]; intros E; try discriminate E; injection E as <-; eexists; (split; [reflexivity|]); assumption.
  - intros (name & Hn & H). unfold english in Hn.
    repeat (case_decide; [injection Hn as <-; subst w; rewrite !elem_of_cons, elem_of_nil in H; destruct H as [->|[->|[->|[]]]]; vm_compute; reflexivity|]).
    discriminate Hn.
Qed.
Print Assumptions C85_day_names.
Example C85_day_names_example :
  parse_day_of_week (str "tue") = Some 1 /\ parse_day_of_week (str "MON ") = None /\
  next_day_row false (Some 19782) (Some (str "Thursday")) = Ok (Some 19789) /\
  next_day_row true (Some 19782) (Some (str "Thurs")) = Err.
Proof. split_and!; vm_compute; reflexivity. Qed.

(** A filter that compares year(d) with a number keeps the same rows when it is rewritten. *)
Theorem C85_year_filter op lit range d y :
  year_range lit = Some range -> year_of_date d = Some y ->
  in_range_filter op range d = compare op y lit.
Proof.
  unfold year_range. destruct (checked 32 lit) as [l|] eqn:El; [|done]. cbn [mbind option_bind].
  unfold checked in El. destruct (fits 32 lit); [|done]. injection El as <-.
  destruct (from_ymd lit 1 1) as [a|] eqn:Ea; [|done]. destruct (from_ymd (lit + 1) 1 1) as [b|] eqn:Eb; [|done].
  apply from_ymd_Some in Ea as [-> _]. apply from_ymd_Some in Eb as [-> _]. cbn [mbind option_bind]. intros [= <-].
  unfold year_of_date. destruct (of_days d) as [x|] eqn:Ex; [|done]. intros [= <-].
  pose proof (to_days_of_days _ _ Ex) as [[Hd _] Hn]. pose proof (to_days_year x Hd) as Hy. rewrite Hn in Hy.
  pose proof (year_start lit) as S1. pose proof (year_start (lit + 1)) as S2. unfold in_range_filter, compare.
  destruct (Z.lt_trichotomy (year x) lit) as [L|[E|L]].
  - pose proof (days_before_year_mono (year x + 1) lit ltac:(lia)). pose proof (days_before_year_lt lit (lit + 1) ltac:(lia)). destruct op; lia.
  - rewrite E in *. destruct op; lia.
  - pose proof (days_before_year_mono (lit + 1) (year x) ltac:(lia)). pose proof (days_before_year_lt lit (lit + 1) ltac:(lia)). destruct op; lia.
Qed.
Print Assumptions C85_year_filter.
(** The same for last_day(d) and a date. *)
Theorem C85_last_day_filter op lit range d n :
  last_day_range lit = Some range -> last_day d = Some n ->
  in_range_filter op range d = compare op n lit.
Proof.
  unfold last_day_range. destruct (of_days lit) as [l|] eqn:El; [|done]. destruct (of_days (lit + 1)) as [l'|] eqn:El'; [|done].
  cbn [mbind option_bind]. destruct (Z.eqb_spec (day l') 1) as [E1|]; [|done]. cbn [negb].
  destruct (from_ymd (year l) (month l) 1) as [f|] eqn:Ef; [|done]. cbn [mbind option_bind]. intros [= <-] Hn.
  apply from_ymd_Some in Ef as [-> _]. pose proof (to_days_of_days _ _ El) as [Hl Hln]. pose proof (to_days_of_days _ _ El') as [Hl' Hln'].
  pose proof Hn as Hd. unfold last_day in Hd. destruct (of_days d) as [x|] eqn:Ex; [|done]. clear Hd.
  destruct (proj1 (last_day_spec d n x Ex) Hn) as [Hn1 _]. clear Hn. apply day_number_to_days in Hn1 as [Hnd Hn].
  pose proof (to_days_of_days _ _ Ex) as [[Hx _] Hxn].
  (* the literal is the last day of its month *)
  assert (lit = to_days (Date (year l) (month l) (length_of_month (year l) (month l)))) as Hlast.
  { destruct (tomorrow_spec l) as [T1 T2]; [apply Hl|]. assert (l' = tomorrow l) as ->.
    { apply to_days_inj; [apply Hl'|done|lia]. }
    unfold tomorrow in E1. destruct Hl as [[Hm Hdd] _]. case_decide as Hc.
    - cbn in E1. lia.
    - rewrite <- Hln. destruct l as [ly lm ld]. cbn [year month day] in *. assert (ld = length_of_month ly lm) as -> by lia. done. }
  pose proof (in_month_bounds x Hx) as Bx. rewrite Hxn, Hn in Bx.
  rewrite Hln'. set (first := to_days (Date (year l) (month l) 1)) in *.
  pose proof (month_days (year l) (month l) (length_of_month (year l) (month l))) as Ml. fold first in Ml. pose proof (length_pos (year l) (month l)) as Pl.
  pose proof (month_days (year x) (month x) (length_of_month (year x) (month x))) as Mx. pose proof (length_pos (year x) (month x)) as Px.
  (* months do not overlap *)
  assert (forall y m y' m', 1 <= m <= 12 -> 1 <= m' <= 12 -> y * 12 + m < y' * 12 + m' ->
    to_days (Date y m (length_of_month y m)) < to_days (Date y' m' 1)) as Hord.
  { intros y m y' m' Hm Hm' Hlt.
    assert (exists k : nat, y' = (y * 12 + m - 1 + (1 + Z.of_nat k)) / 12 /\ m' = (y * 12 + m - 1 + (1 + Z.of_nat k)) mod 12 + 1) as (k & -> & ->).
    { exists (Z.to_nat (y' * 12 + m' - (y * 12 + m) - 1)). split; Z.to_euclidean_division_equations; lia. }
    clear -Hm.
    assert (Hstep : forall i, to_days (Date (i / 12) (i mod 12 + 1) (length_of_month (i / 12) (i mod 12 + 1))) + 1 = to_days (Date ((i + 1) / 12) ((i + 1) mod 12 + 1) 1)).
    { intros i. rewrite month_start by (pose proof (Z.mod_pos_bound i 12 ltac:(lia)); lia).
      destruct (Z.eqb_spec (i mod 12 + 1) 12).
      - replace ((i + 1) / 12) with (i / 12 + 1) by (Z.to_euclidean_division_equations; lia).
        replace ((i + 1) mod 12 + 1) with 1 by (Z.to_euclidean_division_equations; lia). done.
      - replace ((i + 1) / 12) with (i / 12) by (Z.to_euclidean_division_equations; lia).
        replace ((i + 1) mod 12 + 1) with (i mod 12 + 1 + 1) by (Z.to_euclidean_division_equations; lia). done. }
    assert (exists i, y * 12 + m - 1 = i /\ y = i / 12 /\ m = i mod 12 + 1) as (i & -> & -> & ->).
    { exists (y * 12 + m - 1). split; [done|]. split; Z.to_euclidean_division_equations; lia. }
    induction k as [|k IH].
    - replace (i + (1 + Z.of_nat 0)) with (i + 1) by lia. rewrite <- Hstep. lia.
    - replace (i + (1 + Z.of_nat (S k))) with (i + (1 + Z.of_nat k) + 1) by lia. rewrite <- Hstep.
      set (j := i + (1 + Z.of_nat k)) in *. pose proof (month_days (j / 12) (j mod 12 + 1) (length_of_month (j / 12) (j mod 12 + 1))).
      pose proof (length_pos (j / 12) (j mod 12 + 1)). lia. }
  destruct Hl as [[Hlm _] _]. destruct Hx as [Hxm _].
  unfold in_range_filter, compare.
  destruct (Z.lt_trichotomy (year x * 12 + month x) (year l * 12 + month l)) as [L|[E|L]].
  - pose proof (Hord _ _ _ _ Hxm Hlm L) as Ho. fold first in Ho. destruct op; lia.
  - assert (year x = year l /\ month x = month l) as [Ey Em] by lia. rewrite Ey, Em in *. fold first in Bx. destruct op; lia.
  - pose proof (Hord _ _ _ _ Hlm Hxm L) as Ho. destruct op; lia.
Qed.
Print Assumptions C85_last_day_filter.
Example C85_filter_example :
  year_range 2024 = Some (19723, 20089) /\ year_range 262142 = None /\
  last_day_range 19782 = Some (19754, 19783) /\ last_day_range 19781 = None.
Proof. split_and!; vm_compute; reflexivity. Qed.
(** A number of days that is no date of the calendar gives NULL. *)
Theorem C85_next_day_unknown d w : (forall x, in_range x -> ~ day_number x d) -> next_day d w = Ok None.
Proof.
  intros H. unfold next_day. destruct (of_days d) as [x|] eqn:E; [|done]. exfalso. pose proof (to_days_of_days _ _ E) as [Hr _].
  apply (H x); [done|]. by apply day_number_of_days.
Qed.
Print Assumptions C85_next_day_unknown.
Example C85_next_day_unknown_example : next_day 95026237 0 = Ok None.
Proof. vm_compute. reflexivity. Qed.
(** The year of a date. *)
Theorem C85_year d y : year_of_date d = Some y <-> exists x, in_range x /\ day_number x d /\ year x = y.
Proof.
  unfold year_of_date. split.
  - destruct (of_days d) as [x|] eqn:E; [|done]. intros [= <-]. pose proof (to_days_of_days _ _ E) as [Hr _].
    exists x. split; [done|]. split; [by apply day_number_of_days|done].
  - intros (x & Hr & Hd & <-). apply day_number_of_days in Hd; [|done]. by rewrite Hd.
Qed.
Print Assumptions C85_year.
Example C85_year_example : year_of_date (-1) = Some 1969 /\ year_of_date 95026237 = None.
Proof. split; vm_compute; reflexivity. Qed.
(** Every date has a last day of its month, but last_day fails in the last month of chrono. *)
Theorem C85_last_day_refuted : exists d n, is_last_day d n /\ last_day d = None.
Proof.
  exists 95026206, 95026236. split; [|vm_compute; reflexivity]. exists (Date 262142 12 1). cbn [year month].
  assert (in_range (Date 262142 12 1) /\ in_range (Date 262142 12 31)) as [H1 H2] by (split; (split; [|cbn; lia]); by vm_compute).
  split; [done|]. change (length_of_month 262142 12) with 31. split; apply day_number_spec; try done; vm_compute; reflexivity.
Qed.
Print Assumptions C85_last_day_refuted.
(** A name that is not the name of a day makes the result NULL, or the query fail in ANSI mode; a NULL
    argument makes it NULL in both modes. *)
Theorem C85_next_day_row ansi days name :
  (days = None \/ name = None -> next_day_row ansi days name = Ok None) /\
  (forall d s, days = Some d -> name = Some s ->
    (parse_day_of_week s = None -> next_day_row ansi days name = if ansi then Err else Ok None) /\
    (forall w n, parse_day_of_week s = Some w -> next_day_row ansi days name = Ok (Some n) -> is_next d w n)) /\
  (next_day_row ansi days name = Err -> ansi = true).
Proof.
  split; [|split].
  - by intros [->| ->]; [|destruct days].
  - intros d s -> ->. cbn [next_day_row]. split; [by intros ->|]. intros w n Hp. rewrite Hp. apply C85_next_day.
    apply C85_day_names in Hp as (nm & Hn & _). unfold english in Hn. repeat case_decide; subst; try lia. done.
  - unfold next_day_row. destruct days as [d|], name as [s|]; try done. destruct (parse_day_of_week s); [|by destruct ansi].
    unfold next_day. destruct (of_days d); [|done]. by destruct (of_days _).
Qed.
Print Assumptions C85_next_day_row.
