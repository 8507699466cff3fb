(** C84: dates, times and timestamps that are shown as text are read back, and which texts are read as
    what. *)
From Coq Require Import NArith ZArith ZifyN ZifyBool Ascii String Lia.
From stdpp Require Import prelude list strings.
From Verif Require Import Lib.Text Literal.NumberModel Literal.NumberSpec.
From Verif.Datetime Require Import CalendarModel CalendarSpec CalendarProofs DatetimeModel DatetimeSpec DatetimeProofs.
#[local] Open Scope Z_scope.

(** ** The calendar: every day number belongs to one date, and the next number to the next day. *)
Theorem C84_calendar x n : in_range x ->
  (day_number x n <-> of_days n = Some x) /\ (day_number x n <-> to_days x = n).
Proof. intros H. split; [by apply day_number_of_days|by apply day_number_spec]. Qed.
Print Assumptions C84_calendar.
Example C84_calendar_example :
  in_range (Date 2024 2 29) /\ to_days (Date 2024 2 29) = 19782 /\ tomorrow (Date 2024 2 29) = Date 2024 3 1 /\
  of_days 19783 = Some (Date 2024 3 1) /\ of_days (-1) = Some (Date 1969 12 31).
Proof. split_and!; by vm_compute. Qed.

(** ** Dates *)
(** A text is read as a date if and only if it is the text of a date that exists, up to white space. *)
Theorem C84_date_texts s n : read_date s = Some n <->
  exists t r x, s = t ++ r /\ date_text t x /\ in_range x /\ day_number x n /\
    match r with c :: _ => c = 32%N \/ c = 9%N \/ c = 10%N \/ c = 12%N \/ c = 13%N | [] => True end.
Proof.
  rewrite read_date_iff. unfold then_blank.
  assert (forall c, is_ascii_ws c = true <-> c = 32%N \/ c = 9%N \/ c = 10%N \/ c = 12%N \/ c = 13%N) as Hw
    by (intros c; unfold is_ascii_ws; lia).
  split; intros (t & r & x & -> & Ht & Hx & Hn & Hr); exists t, r, x; split_and!; try done;
    (destruct r as [|c r]; [done|by apply Hw]).
Qed.
Print Assumptions C84_date_texts.
Theorem C84_date x n : in_range x -> day_number x n -> read_date (show_date n) = Some n.
Proof. intros Hr Hn. apply (read_show_date n x). by apply day_number_of_days. Qed.
Print Assumptions C84_date.
Example C84_date_example :
  show_date 19782 = str "2024-02-29" /\ read_date (str "2024-2-29 at noon") = Some 19782 /\
  read_date (str "2024") = Some 19723 /\ read_date (str "2023-02-29") = None /\ read_date (str "2024-02-29T") = None /\
  show_date (-719529) = str "-0001-12-31" /\ show_date 3000000 = str "+10183-09-21".
Proof. split_and!; vm_compute; reflexivity. Qed.

(** ** Times of the day *)
(** A text is read as a time if and only if it is the text of a time.  23:59:60 is allowed. *)
Theorem C84_time_texts s us : read_time s = Some us <-> exists h m sec nanos,
  time_text s h m sec nanos /\
  (clock_time h m sec /\ us = (h * 3600 + m * 60 + sec) * 1000000 + nanos / 1000 \/
   h = 23 /\ m = 59 /\ sec = 60 /\ us = 86399 * 1000000 + nanos / 1000).
Proof. apply read_time_iff. Qed.
Print Assumptions C84_time_texts.
Theorem C84_time us : 0 <= us < 86400000000 -> read_time (show_time us) = Some us.
Proof. apply read_show_time. Qed.
Print Assumptions C84_time.
Example C84_time_example :
  show_time 45296500000 = str "12:34:56.5" /\ read_time (str "12:34:56.5") = Some 45296500000 /\
  read_time (str "7") = Some 25200000000 /\ read_time (str "12.5") = Some 43200500000 /\
  read_time (str "24:00") = None /\ read_time (str "12:60:00") = None.
Proof. split_and!; vm_compute; reflexivity. Qed.

(** ** Timestamps *)
(** What a literal and a cast make of the text of a timestamp. *)
Theorem C84_timestamp_texts (zone : text -> option tz) session s l nanos name :
  timestamp_text s l nanos name ->
  (forall n z, zone n = Some z -> in_order (tz_changes z)) ->
  let us := nanos / 1000 in
  (* without a time zone, the local time counts *)
  cast_timestamp zone None s = Ok (l * 1000000 + us) /\
  (name = [] \/ (exists z, zone name = Some z) ->
   forall d, read_literal zone WithoutTimeZone d session s = Ok (l * 1000000 + us, false)) /\
  (name = [] -> read_literal zone Configured false session s = Ok (l * 1000000 + us, false)) /\
  (* with a time zone, the instant that the local time stands for *)
  forall z u, zone (if decide (name = []) then session else name) = Some z -> stands_for z l u ->
    cast_timestamp zone (Some session) s = Ok (u * 1000000 + us) /\
    (forall d, read_literal zone WithLocalTimeZone d session s = Ok (u * 1000000 + us, true)) /\
    read_literal zone Configured true session s = Ok (u * 1000000 + us, true).
Proof.
  intros Ht Hz us. destruct (parse_text _ _ _ _ Ht) as (v & Hv & H60 & Hi).
  unfold cast_timestamp, read_literal. rewrite Hv, Hi. rewrite (proj2 (Z.eqb_neq _ _)) by done.
  split; [done|]. split; [|split].
  - intros [->|[z Hn]] d; [done|]. rewrite Hn. by destruct (decide (name = [])).
  - intros ->. done.
  - intros z u Hn Hs. apply localize_spec in Hs; [|by eapply Hz]. destruct (decide (name = [])) as [->|Hne].
    + cbn [decide]. rewrite Hn, Hs. split_and!; [done|by intros []|done].
    + rewrite Hn. cbn [fmap option_fmap option_map]. rewrite Hs. split_and!; [done|by intros []|done].
Qed.
Print Assumptions C84_timestamp_texts.

Example C84_timestamp_text_example :
  timestamp_text (str "2024-07-04 12:34:56.5 Europe/Paris") 1720096496 500000000 (str "Europe/Paris").
Proof.
  apply (show_timestamp_text None 1720096496500000 (Date 2024 7 4) 1720096496 (str " Europe/Paris")); try done.
  right. exists 1%nat, 0%nat, (str "Europe/Paris"). split; [done|]. split; [by split_and!|]. right. right.
  split; [done|]. split; [done|]. split; [|done]. intros sign t _ E. discriminate E.
Qed.
(** A date alone is its midnight. *)
Theorem C84_date_only (zone : text -> option tz) session d x n k :
  date_text d x -> in_range x -> day_number x n ->
  (forall n z, zone n = Some z -> in_order (tz_changes z)) ->
  cast_timestamp zone None (d ++ blanks k) = Ok (n * 86400000000) /\
  (forall b, read_literal zone WithoutTimeZone b session (d ++ blanks k) = Ok (n * 86400000000, false)) /\
  forall z u, zone session = Some z -> stands_for z (n * 86400) u ->
    cast_timestamp zone (Some session) (d ++ blanks k) = Ok (u * 1000000) /\
    forall b, read_literal zone WithLocalTimeZone b session (d ++ blanks k) = Ok (u * 1000000, true).
Proof.
  intros Hd Hx Hn Ho. apply day_number_spec in Hn; [|done].
  assert (into_naive (TimestampValue (value_of x) (TimeValue 0 0 0 0) []) = Ok (n * 86400, 0, [])) as Hi.
  { rewrite into_naive_text; [|done|done]. do 3 f_equal. lia. }
  unfold cast_timestamp, read_literal. rewrite (parse_date_only d x k) by done. rewrite Hi.
  change (tv_second (ts_time _) =? 60) with false. lazy iota. rewrite !decide_True by done.
  assert (forall u, micros u 0 = u * 1000000) as Hm by (intros u; unfold micros; change (0 / 1000) with 0; lia).
  rewrite !Hm. split; [f_equal; lia|]. split; [intros b; do 2 f_equal; lia|].
  intros z u Hz Hs. apply localize_spec in Hs; [|by eapply Ho]. rewrite Hz, Hs, Hm. split; [done|]. by intros [].
Qed.
Print Assumptions C84_date_only.

(** A cast accepts nothing but a date followed by blanks, or by a separator, a time and a rest, and the
    rest names the time zone if there is one to name. *)
Theorem C84_cast_only (zone : text -> option tz) session s us :
  (forall n z, zone n = Some z -> in_order (tz_changes z)) ->
  cast_timestamp zone session s = Ok us -> exists d x n r l nanos name,
  s = d ++ r /\ date_text d x /\ in_range x /\ day_number x n /\
  ((exists k, r = blanks k) /\ l = n * 86400 /\ nanos = 0 /\ name = [] \/
   exists sep t h m sec rest, r = sep ++ t ++ rest /\ separates sep /\ time_text t h m sec nanos /\ clock_time h m sec /\
     names_zone rest name /\ l = n * 86400 + h * 3600 + m * 60 + sec) /\
  match session with
  | None => us = l * 1000000 + nanos / 1000
  | Some session => exists z u, zone (if decide (name = []) then session else name) = Some z /\
      stands_for z l u /\ us = u * 1000000 + nanos / 1000
  end.
Proof.
  intros Ho H. apply cast_inv in H as (d & x & n & r & l & nanos & name & H1 & H2 & H3 & H4 & H5 & H6).
  exists d, x, n, r, l, nanos, name. do 5 (split; [done|]). destruct session as [session|]; [|done].
  destruct H6 as (z & u & Hz & Hl & ->). exists z, u. split; [done|]. split; [|done].
  apply localize_spec; [by eapply Ho|done].
Qed.
Print Assumptions C84_cast_only.
Example C84_cast_only_example : exists us, cast_timestamp (fun _ => Some (Tz 3600 [])) (Some (str "CET")) (str "2024-07-04T12:34") = Ok us.
Proof. eexists. vm_compute. reflexivity. Qed.

(** Shown without a time zone, a timestamp is read back, as a literal and by a cast. *)
Theorem C84_timestamp_ntz zone session us x :
  in_range x -> day_number x (us / 1000000 / 86400) ->
  cast_timestamp zone None (show_timestamp None us) = Ok us /\
  forall d, read_literal zone WithoutTimeZone d session (show_timestamp None us) = Ok (us, false).
Proof.
  intros Hr Hn. apply day_number_of_days in Hn; [|done].
  pose proof (show_timestamp_text None us x _ [] [] eq_refl Hn I no_zone) as Ht. rewrite app_nil_r in Ht.
  destruct (parse_text _ _ _ _ Ht) as (v & Hv & H60 & Hi).
  unfold cast_timestamp, read_literal. rewrite Hv, Hi. rewrite (proj2 (Z.eqb_neq _ _)) by done. cbn [decide].
  rewrite micros_back. split; [done|]. by intros d.
Qed.
Print Assumptions C84_timestamp_ntz.
Example C84_timestamp_ntz_example :
  in_range (Date 1969 12 31) /\ of_days (-1 / 1000000 / 86400) = Some (Date 1969 12 31) /\
  show_timestamp None (-1) = str "1969-12-31 23:59:59.999999".
Proof. split; [by vm_compute|]. split; vm_compute; reflexivity. Qed.

(** Shown in the time zone of the session, a timestamp is read back as the first instant at which the
    clocks showed that time. *)
Theorem C84_timestamp_ltz (zone : text -> option tz) session z us l u x :
  zone session = Some z -> in_order (tz_changes z) ->
  shows z (us / 1000000) l -> first_shows z u l ->
  in_range x -> day_number x (l / 86400) ->
  let back := u * 1000000 + us mod 1000000 in
  cast_timestamp zone (Some session) (show_timestamp (Some z) us) = Ok back /\
  (forall d, read_literal zone WithLocalTimeZone d session (show_timestamp (Some z) us) = Ok (back, true)) /\
  (back = us <-> forall u', shows z u' l -> us / 1000000 <= u').
Proof.
  intros Hz Ho Hl Hu Hr Hn back. apply day_number_of_days in Hn; [|done].
  pose proof Hl as Hl'. apply shows_local in Hl'; [|done].
  pose proof (show_timestamp_text (Some z) us x l [] [] (eq_sym Hl') Hn I no_zone) as Ht. rewrite app_nil_r in Ht.
  destruct (parse_text _ _ _ _ Ht) as (v & Hv & H60 & Hi).
  unfold cast_timestamp, read_literal. rewrite Hv, Hi. rewrite (proj2 (Z.eqb_neq _ _)) by done. rewrite !decide_True by done.
  rewrite !Hz, (localize_first z l u) by done.
  assert (micros u (us mod 1000000 * 1000) = back) as -> by (unfold micros, back; rewrite Z.div_mul by lia; done).
  split; [done|]. split; [by intros []|].
  pose proof (Z.div_mod us 1000000 ltac:(lia)) as Hdm. unfold back. split.
  - intros E. assert (u = us / 1000000) as <- by lia. apply Hu.
  - intros Hf. destruct Hu as [Hu1 Hu2]. specialize (Hf u Hu1). specialize (Hu2 _ Hl). lia.
Qed.
Print Assumptions C84_timestamp_ltz.
(** There is always such an instant, so that the theorem above covers every timestamp shown. *)
Theorem C84_first_exists z u l : in_order (tz_changes z) -> shows z u l -> exists u0, first_shows z u0 l /\ u0 <= u.
Proof. intros Ho H. destruct (first_exists z u l Ho H) as [u0 H0]. exists u0. split; [done|]. by apply H0. Qed.
Print Assumptions C84_first_exists.

(** ** A concrete time zone: New York in 2024 *)
Definition new_york : tz := Tz (-18000) [(1710054000, -14400); (1730613600, -18000)].
Definition zones (n : text) : option tz :=
  if decide (n = str "America/New_York") then Some new_york
  else if decide (n = str "UTC") then Some (Tz 0 []) else if decide (n = str "+01:00") then Some (Tz 3600 []) else None.
Definition ny : text := str "America/New_York".
Example C84_zones_ordered : forall n z, zones n = Some z -> in_order (tz_changes z).
Proof. intros n z. unfold zones. repeat case_decide; by intros [= <-]. Qed.
Example C84_zone_example :
  cast_timestamp zones (Some ny) (str "2024-07-04 12:00:00") = Ok 1720108800000000 /\
  cast_timestamp zones (Some ny) (str "2024-07-04T12:00:00.25Z") = Ok 1720094400250000 /\
  cast_timestamp zones (Some ny) (str "2024-07-04 12:00 UTC+01:00") = Ok 1720090800000000 /\
  cast_timestamp zones (Some ny) (str "2024-07-04") = Ok 1720065600000000 /\
  show_timestamp (Some new_york) 1720108800250000 = str "2024-07-04 12:00:00.25".
Proof. split_and!; vm_compute; reflexivity. Qed.
(** 02:30 did not exist on 10 March; it is read as 03:30 summer time. *)
Example C84_gap_example :
  cast_timestamp zones (Some ny) (str "2024-03-10 02:30:00") = Ok 1710055800000000 /\
  show_timestamp (Some new_york) 1710055800000000 = str "2024-03-10 03:30:00".
Proof. split_and!; vm_compute; reflexivity. Qed.
Example C84_gap_hypotheses : never_shown new_york 1710037800 /\ first_shows new_york 1709969400 (1710037800 - 86400).
Proof.
  split; [apply resolve_none|apply resolve_some]; done || (vm_compute; reflexivity).
Qed.

(** An instant in the hour that the clocks show twice is not read back. *)
Theorem C84_timestamp_ltz_refuted : exists zone session z us,
  zone session = Some z /\ in_order (tz_changes z) /\
  cast_timestamp zone (Some session) (show_timestamp (Some z) us) <> Ok us /\
  read_literal zone WithLocalTimeZone true session (show_timestamp (Some z) us) <> Ok (us, true).
Proof.
  exists zones, ny, new_york, 1730615400000000. split; [reflexivity|]. split; [done|].
  split; intros H; vm_compute in H; discriminate H.
Qed.
Print Assumptions C84_timestamp_ltz_refuted.

(** ** Texts that are read in a surprising way *)
(** TIME '23:59:60' is the second before midnight, TIMESTAMP '… 23:59:60' is midnight, and the cast is
    an error. *)
Theorem C84_leap_second_refuted : exists day t,
  read_time t = Some 86399000000 /\
  (forall zone session, read_literal zone WithoutTimeZone true session (day ++ str " " ++ t) = Ok (86400000000, false)) /\
  (forall zone session, cast_timestamp zone session (day ++ str " " ++ t) = Err).
Proof. exists (str "1970-01-01"), (str "23:59:60"). split_and!; vm_compute; reflexivity. Qed.
Print Assumptions C84_leap_second_refuted.
(** A cast to a timestamp without time zone takes any rest of the text for a time zone and ignores it:
    digits too many, or words. *)
Theorem C84_ntz_rest zone day x n h m sec nanos t rest :
  date_text day x -> in_range x -> day_number x n -> time_text t h m sec nanos -> clock_time h m sec -> ends_time rest ->
  cast_timestamp zone None (day ++ str " " ++ t ++ rest) =
  Ok ((n * 86400 + h * 3600 + m * 60 + sec) * 1000000 + nanos / 1000).
Proof.
  intros Hd Hx Hn Ht Hc Hr. unfold cast_timestamp.
  rewrite (parse_timestamp_text day x (str " ") t h m sec nanos rest); [|done|apply blank_separates|done|done].
  cbn [ts_time tv_second]. rewrite (proj2 (Z.eqb_neq sec 60)) by (destruct Hc as (_ & _ & ?); lia).
  rewrite into_naive_text by done. apply day_number_spec in Hn; [|done]. unfold micros. do 2 f_equal. lia.
Qed.
Print Assumptions C84_ntz_rest.
Theorem C84_ntz_digits_refuted : exists s, forall zone,
  s = str "2024-07-04 12:34:567" /\ cast_timestamp zone None s = cast_timestamp zone None (str "2024-07-04 12:34:56") /\
  cast_timestamp zone None s = Ok 1720096496000000.
Proof. eexists. intros zone. split; [reflexivity|]. split; vm_compute; reflexivity. Qed.
Print Assumptions C84_ntz_digits_refuted.

(** ** Panics *)
(** A cast never panics. *)
Theorem C84_cast_no_panic zone session s : cast_timestamp zone session s <> Panic.
Proof.
  unfold cast_timestamp. destruct (parse_timestamp s) as [v|]; [|done].
  destruct (Z.eqb_spec (tv_second (ts_time v)) 60) as [|H60]; [done|].
  destruct (into_naive v) as [[[l nanos] name]| |] eqn:E; [| done|].
  - destruct session as [session|]; [|done]. destruct (zone _) as [z|]; [|done]. by destruct (localize z l).
  - unfold into_naive in E. destruct (naive_date (ts_date v)), (naive_time (ts_time v)) as [[a b]|]; try done.
    by rewrite (proj2 (Z.eqb_neq _ _)) in E by done.
Qed.
Print Assumptions C84_cast_no_panic.
(** A literal panics only for the leap second of the last day that chrono knows. *)
Theorem C84_literal_panic zone ty d session s : read_literal zone ty d session s = Panic ->
  exists day b t rest nanos, s = day ++ b ++ t ++ rest /\ date_text day (Date 262142 12 31) /\ separates b /\
    time_text t 23 59 60 nanos.
Proof.
  unfold read_literal. destruct (parse_timestamp s) as [v|] eqn:Ev; [|done].
  destruct (into_naive v) as [[[l nanos] name]| |] eqn:E; [| done|].
  - destruct (if decide (name = []) then _ else _) as [[z|]|]; [| |done].
    + destruct ty, d; try done; by destruct (localize z l).
    + destruct ty, d; try done; (destruct (zone session) as [z|]; [|done]); by destruct (localize z l).
  - intros _. apply parse_timestamp_inv in Ev as (dt & x & r & -> & Hd & Hv & Ht).
    apply into_naive_panic in E as (nanos & z & E).
    destruct Ht as [(Ht & _ & _)|(b & t & rest & h & m & sec & nn & -> & Hb & Htt & Ht & _)].
    + rewrite Ht in E. cbn in E. destruct E as [->|[?|[?|?]]]; [done|lia..].
    + pose proof (time_text_nonneg _ _ _ _ _ Htt) as (? & ? & ? & ?). rewrite Ht in E. cbn in E.
      destruct E as [->|[?|[?|?]]]; [|lia..]. cbn in Ht, Hv. injection Ht as <- <- <- <-.
      exists dt, b, t, rest, nanos. split_and!; try done. destruct x as [a1 a2 a3]. unfold value_of in Hv. cbn in Hv.
      by injection Hv as <- <- <-.
Qed.
Print Assumptions C84_literal_panic.
Theorem C84_panic_refuted : exists s, forall zone ty d session, read_literal zone ty d session s = Panic.
Proof. exists (str "262142-12-31 23:59:60"). intros. vm_compute. reflexivity. Qed.
Print Assumptions C84_panic_refuted.
