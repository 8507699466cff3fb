(** C83: what interval literals mean, and whether shown intervals can be read back. *)
From Coq Require Import NArith ZArith ZifyN Ascii String Lia.
From stdpp Require Import prelude list strings.
From Verif Require Import Lib.Text Functions.IntModel Sql.LexModel Sql.LexSpec Literal.NumberModel Literal.NumberSpec
  Literal.IntervalModel Literal.IntervalSpec Literal.IntervalProofs Literal.IntervalDisplay Literal.IntervalMulti
  Literal.IntervalCalendarBack.
#[local] Open Scope Z_scope.

(** ASCII letters and digits only. *)
Definition ascii (c : N) : bool := is_letter c || is_digit c.
Lemma ascii_ok : ascii_alnum ascii.
Proof. by intros c _. Qed.

(** A literal with a qualifier is accepted exactly if its text shows the fields of the qualifier, each
    after the right separator, and what they add up to is in range; then it means just that. *)
Theorem C83_standard (k : kind) (negated : bool) (s : text) (v : ivalue) :
  parse_standard k negated s = Some v <->
  exists sign caps fraction, written k s sign caps fraction /\ in_range k caps fraction /\
    v = says k (xorb negated (is_minus sign)) caps fraction.
Proof. apply standard_exact. Qed.
Print Assumptions C83_standard.
Example C83_standard_ex :
  parse_standard DayToSecond true (str " -1  02:3:04.56 ") = Some (Micro 93784560000) /\
  written DayToSecond (str " -1  02:3:04.56 ") (str "-")
    [(FDay, str "1"); (FHour, str "02"); (FMinute, str "3"); (FSecond, str "04")] (Some (str "56")) /\
  in_range DayToSecond [(FDay, str "1"); (FHour, str "02"); (FMinute, str "3"); (FSecond, str "04")] (Some (str "56")) /\
  parse_standard YearToMonth false (str "178956970-7") = Some (YearMonth 2147483647) /\
  parse_standard YearToMonth false (str "178956970-8") = None /\
  parse_standard Hour false (str "1.5") = None.
Proof.
  split_and!; [by vm_compute| | |by vm_compute..].
  - apply regex_written. by vm_compute.
  - vm_compute. congruence.
Qed.

Lemma plain_value (bits : Z) (d : text) (n : Z) :
  forallb is_digit d = true -> d <> [] -> Z.of_N (dec_value d) = n -> fits bits n = true ->
  int_value bits (VNum d) n /\ int_value bits (VStr d) n.
Proof.
  intros Hd Hne <- Hf. assert (Hnum : number d) by (split; [by apply NumberProofs.forallb_all_digits|done]).
  split; [apply (iv_num bits [] d)|apply (iv_str bits [] d)]; first [done|by left].
Qed.
(** A literal with several units is the sum of its values, if it is accepted: nothing wraps when the
    values are numbers, and months and time alone get types of their own. *)
Theorem C83_multi (negated : bool) (items : list (value * unit)) (parts : list (Z * Z)) (v : ivalue) :
  Forall2 (fun i mt => item_says i mt.1 mt.2) items parts ->
  parse_multi negated items = Some v ->
  v = interval_of (opposite_if negated (sum (map fst parts))) (opposite_if negated (sum (map snd parts))).
Proof. apply multi_sound. Qed.
(** It is accepted if the sizes of its parts add up to no more than the types hold. Seconds are limited
    to 32 bits. *)
Theorem C83_multi_accepts (negated : bool) (items : list (value * unit)) (parts : list (Z * Z)) :
  Forall2 (fun i mt => item_says i mt.1 mt.2) items parts ->
  Forall2 (fun i (mt : Z * Z) => i.2 = USecond -> Z.abs mt.2 < 2 ^ 32 * 1000000) items parts ->
  sum (map Z.abs (map fst parts)) <= int_max 32 -> sum (map Z.abs (map snd parts)) <= int_max 64 ->
  is_Some (parse_multi negated items).
Proof. apply multi_accepts. Qed.
Print Assumptions C83_multi.
Print Assumptions C83_multi_accepts.
Example C83_multi_ex :
  let items := [(VStr (str "1"), UYear); (VNeg (VNum (str "2")), UMonth); (VNum (str "3"), UDay); (VNum (str "1.5"), USecond)] in
  let parts := [(12, 0); (-2, 0); (0, 259200000000); (0, 1500000)] in
  Forall2 (fun i mt => item_says i mt.1 mt.2) items parts /\
  parse_multi true items = Some (MonthDayNano (-10) (-3) (-1500000000)).
Proof.
  split.
  - apply Forall2_cons_2; [|apply Forall2_cons_2; [|apply Forall2_cons_2; [|apply Forall2_cons_2; [|constructor]]]]; cbn [fst snd item_says].
    + exists 1. split; [by apply (plain_value 32 (str "1"))|done].
    + split; [|done]. apply (iv_neg 32 _ 2); [by apply (plain_value 32 (str "2"))|done].
    + exists 3. split; [by apply (plain_value 64 (str "3"))|done].
    + split; [|done]. apply (sv_num (str "1.5") [] [(FSecond, str "1")] (Some (str "5"))). apply regex_written. by vm_compute.
  - by vm_compute.
Qed.
(** The opposite of a string that holds the smallest number is that number again. *)
Theorem C83_opposite_wraps_refuted :
  exists (v : value) (n : Z),
    int_value 32 v n /\ n <> 0 /\
    forall days, parse_multi false [(v, UMonth); (days, UDay)] = parse_multi false [(VNeg v, UMonth); (days, UDay)].
Proof.
  exists (VStr (str "-2147483648")), (-2147483648). split_and!; [|done|].
  - apply (iv_str 32 (str "-") (str "2147483648")); [by right; right| |by vm_compute].
    split; [|done]. repeat constructor.
  - intros days. reflexivity.
Qed.
Print Assumptions C83_opposite_wraps_refuted.

(** Year-month intervals are read back as they were, except for the smallest. *)
Theorem C83_year_month (alnum : N -> bool) (n : Z) :
  ascii_alnum alnum -> fits 32 n = true ->
  to_year_month alnum (show_year_month n) = if bool_decide (n = int_min 32) then None else Some n.
Proof.
  intros Ha Hn%fits_bounds. rewrite year_month_back by done. destruct i32_bounds as [E1 E2].
  destruct (Z.leb_spec (Z.abs n) (int_max 32)); case_bool_decide; [lia|done|done|lia].
Qed.
Print Assumptions C83_year_month.
Example C83_year_month_ex :
  ascii_alnum ascii /\ show_year_month (-14) = str "INTERVAL '-1-2' YEAR TO MONTH" /\
  show_year_month (-2) = str "INTERVAL '-0-2' YEAR TO MONTH" /\ to_year_month ascii (show_year_month (-2)) = Some (-2).
Proof. split; [exact ascii_ok|]. by vm_compute. Qed.
Theorem C83_year_month_min_refuted :
  exists n, fits 32 n = true /\ forall alnum, ascii_alnum alnum -> to_year_month alnum (show_year_month n) = None.
Proof. exists (int_min 32). split; [done|]. intros alnum Ha. rewrite C83_year_month by done. by rewrite bool_decide_true. Qed.
Print Assumptions C83_year_month_min_refuted.

(** Durations in seconds, milliseconds, microseconds or nanoseconds are read back as the same number of
    microseconds (those that are no whole number of them lose the rest), if that number fits. *)
Theorem C83_duration (alnum : N -> bool) (u : Z) (digits : nat) (n : Z) :
  ascii_alnum alnum -> (u, digits) ∈ [(1, 0%nat); (1000, 3%nat); (1000000, 6%nat); (1000000000, 9%nat)] ->
  to_day_time alnum (show_duration u digits n) =
    let us := Z.quot (n * 1000000) u in if Z.abs us <=? int_max 64 then Some us else None.
Proof. intros Ha Hu. by apply duration_back. Qed.
Print Assumptions C83_duration.
Example C83_duration_ex :
  show_duration 1000000 6 (-93784560000) = str "INTERVAL '-1 02:03:04.56' DAY TO SECOND" /\
  show_duration 1000000 6 (-50) = str "INTERVAL '-0 00:00:00.00005' DAY TO SECOND" /\
  to_day_time ascii (show_duration 1000000 6 (-50)) = Some (-50) /\
  to_day_time ascii (show_duration 1000000000 9 1999) = Some 1.
Proof. by vm_compute. Qed.

(** Intervals of days and milliseconds are read back if the two do not point in opposite directions. *)
Theorem C83_day_time (alnum : N -> bool) (days ms : Z) :
  ascii_alnum alnum -> same_sign [days; ms] -> fits 32 days = true -> fits 32 (days + Z.quot ms 86400000) = true ->
  to_day_time alnum (show_day_time days ms) =
    let us := days * 86400000000 + ms * 1000 in if Z.abs us <=? int_max 64 then Some us else None.
Proof. intros Ha Hs Hd Hf. by apply day_interval_back. Qed.
Print Assumptions C83_day_time.
Example C83_day_time_ex :
  show_day_time (-1) (-90061001) = str "INTERVAL '-2 01:01:01.001' DAY TO SECOND" /\
  to_day_time ascii (show_day_time (-1) (-90061001)) = Some (-176461001000).
Proof. by vm_compute. Qed.
(** One day less one hour is shown as one day and one hour. *)
Theorem C83_day_time_mixed_refuted :
  exists days ms, fits 32 days = true /\ fits 32 ms = true /\
    show_day_time days ms = show_day_time days (- ms) /\ ms <> - ms.
Proof. exists 1, (-3600000). split_and!; [done|done|by vm_compute|done]. Qed.
Print Assumptions C83_day_time_mixed_refuted.

(** Calendar intervals (months, days and nanoseconds), shown with units, are read back with the same
    months, and with the same time in whole microseconds divided anew into days and the rest of a day; or
    not at all, if there are no months and the time does not fit 64 bits, or if the days do not fit 32. *)
Theorem C83_calendar (alnum : N -> bool) (m d ns : Z) :
  ascii_alnum alnum -> fits 32 m = true -> fits 32 d = true -> fits 64 ns = true ->
  let t := d * 86400000000 + Z.quot ns 1000 in
  to_calendar alnum (show_calendar m d ns) =
    if bool_decide (m = 0) && negb (fits 64 t) then None
    else if fits 32 (Z.quot t 86400000000) then Some (m, Z.quot t 86400000000, Z.rem t 86400000000 * 1000) else None.
Proof. intros Ha Hm Hd Hn t. by apply calendar_back. Qed.
(** So they are read back as they were if days and time do not point in opposite directions, the time is
    less than a day and in whole microseconds. *)
Theorem C83_calendar_back_partial (alnum : N -> bool) (m d ns : Z) :
  ascii_alnum alnum -> fits 32 m = true -> fits 32 d = true ->
  same_sign [d; ns] -> Z.abs ns < 86400000000000 -> (1000 | ns) ->
  m <> 0 \/ fits 64 (d * 86400000000 + Z.quot ns 1000) = true ->
  to_calendar alnum (show_calendar m d ns) = Some (m, d, ns).
Proof.
  intros Ha Hm Hd Hs Hb [us ->] Hfit.
  assert (Hn : fits 64 (us * 1000) = true) by (apply fits_bounds; destruct i64_bounds; lia).
  rewrite C83_calendar by done. rewrite Z.quot_mul in * by done.
  assert (Hq : Z.quot (d * 86400000000 + us) 86400000000 = d /\ Z.rem (d * 86400000000 + us) 86400000000 = us).
  { assert (Hu : Z.quot us 86400000000 = 0 /\ Z.rem us 86400000000 = us).
    { pose proof (Z.quot_rem' us 86400000000) as Hqr.
      assert (Hr : Z.rem us 86400000000 = us) by (apply Z.rem_small_iff; lia). split; [lia|done]. }
    assert (Hsg : 0 <= us * (d * 86400000000)).
    { destruct Hs as [Hs|Hs]; apply Forall_cons_1 in Hs as [Hs1 Hs]; apply Forall_cons_1 in Hs as [Hs2 _].
      - apply Z.mul_nonneg_nonneg; lia.
      - apply Z.mul_nonpos_nonpos; lia. }
    destruct Hu as [H1 H2]. rewrite Z.add_comm. rewrite Z.quot_add, Z.rem_add by lia. rewrite H1, H2. lia. }
  destruct Hq as [-> ->]. rewrite Hd. destruct Hfit as [Hf | ->]; [by rewrite bool_decide_false|]. by rewrite andb_false_r.
Qed.
Print Assumptions C83_calendar.
Print Assumptions C83_calendar_back_partial.
Example C83_calendar_ex :
  show_calendar (-14) 3 (-5400000500000) = str "-1 years -2 months 3 days -1 hours -30 minutes -0.0005 seconds" /\
  to_calendar ascii (show_calendar (-14) 3 (-5400000500000)) = Some (-14, 2, 80999999500000) /\
  to_calendar ascii (show_calendar (-14) (-3) (-5400000500000)) = Some (-14, -3, -5400000500000) /\
  to_calendar ascii (show_calendar 0 0 0) = Some (0, 0, 0) /\
  to_calendar ascii (show_calendar 0 200000000 0) = None.
Proof. by vm_compute. Qed.
(** Twenty-four hours become a day, and nanoseconds are lost. *)
Theorem C83_calendar_back_refuted :
  exists m d ns, fits 32 m = true /\ fits 32 d = true /\ fits 64 ns = true /\
    forall alnum, ascii_alnum alnum -> to_calendar alnum (show_calendar m d ns) = Some (m, d + 1, 0).
Proof.
  exists 1, 0, 86400000000001. split_and!; [done|done|done|]. intros alnum Ha. rewrite C83_calendar by done. by vm_compute.
Qed.
Print Assumptions C83_calendar_back_refuted.
