(** What texts of dates, times and timestamps mean. *)
From Coq Require Import NArith ZArith ZifyN Ascii String Lia.
From stdpp Require Import prelude list.
From Verif.Lib Require Import Text.
From Verif.Literal Require Import NumberSpec.
From Verif.Datetime Require Import CalendarModel CalendarSpec DatetimeModel.
Local Open Scope Z_scope.

(** Days are counted from 1970-01-01, forwards and backwards. *)
Inductive day_number : date -> Z -> Prop :=
| day_epoch : day_number epoch 0
| day_next x n : is_date x -> day_number x n -> day_number (tomorrow x) (n + 1)
| day_before x n : is_date x -> day_number (tomorrow x) (n + 1) -> day_number x n.

(** A number [n] with at least [lo] and at most [hi] digits. *)
Definition numeral (lo hi : nat) (s : text) (n : Z) : Prop :=
  all_digits s /\ (lo <= length s <= hi)%nat /\ n = Z.of_N (dec_value s).
(** A number of one or two digits after the character [c], or nothing, which stands for [missing]. *)
Definition part (c : N) (missing : Z) (s : text) (n : Z) : Prop :=
  (s = [] /\ n = missing) \/ exists d, s = c :: d /\ numeral 1 2 d n.
(** Year, month and day.  What is missing at the end is 1. *)
Definition date_text (s : text) (x : date) : Prop :=
  exists sign y m d n,
    s = sign ++ y ++ m ++ d /\
    numeral 4 7 y n /\
    ((sign = [] \/ sign = str "+") /\ year x = n \/ sign = str "-" /\ year x = - n) /\
    part 45 1 m (month x) /\ part 45 1 d (day x) /\ (m = [] -> d = []).
(** Hours, minutes, seconds and a decimal fraction of a second, counted in nanoseconds. *)
Definition time_text (s : text) (h m sec nanos : Z) : Prop :=
  exists ht mt st ft,
    s = ht ++ mt ++ st ++ ft /\
    numeral 1 2 ht h /\ part 58 0 mt m /\ part 58 0 st sec /\ (mt = [] -> st = []) /\
    ((ft = [] /\ nanos = 0) \/
     exists d, ft = 46%N :: d /\ all_digits d /\ (length d <= 9)%nat /\
       nanos = Z.of_N (dec_value d) * 10 ^ (9 - Z.of_nat (length d))).
(** A time of the day that clocks show. *)
Definition clock_time (h m sec : Z) : Prop := 0 <= h < 24 /\ 0 <= m < 60 /\ 0 <= sec < 60.

(** What may separate a date from a time: a T with blanks around it, or blanks. *)
Definition blanks (k : nat) : text := replicate k 32%N.
Definition separates (s : text) : Prop :=
  (exists a b c, s = blanks a ++ [c] ++ blanks b /\ (c = 84%N \/ c = 116%N)) \/
  (exists a, s = blanks (S a)).
(** What may stand after a time, so that the time surely ends there. *)
Definition ends_time (s : text) : Prop :=
  match s with c :: _ => is_digit c = false /\ c <> 58%N /\ c <> 46%N | [] => True end.
(** A name without blanks at its ends. *)
Definition trimmed (s : text) : Prop := s <> [] /\ head s <> Some 32%N /\ last s <> Some 32%N.
(** What stands after a time names a time zone, or nothing if it is blank: Z is UTC, and the offset in
    UTC+01:00 is +01:00. *)
Definition names_zone (s name : text) : Prop :=
  (exists k, s = blanks k /\ name = []) \/
  exists a b n, s = blanks a ++ n ++ blanks b /\ trimmed n /\
    ((n = str "Z" \/ n = str "z") /\ name = str "UTC" \/
     (exists sign t, (sign = str "+" \/ sign = str "-") /\ n = str "UTC" ++ sign ++ t /\ name = sign ++ t) \/
     (n <> str "Z" /\ n <> str "z" /\ (forall sign t, sign = str "+" \/ sign = str "-" -> n <> str "UTC" ++ sign ++ t) /\ name = n)).

(** ** Time zones: the changes of the offset are in order. *)
Fixpoint in_order (cs : list (Z * Z)) : Prop :=
  match cs with
  | (t, _) :: (((t', _) :: _) as cs') => t < t' /\ in_order cs'
  | _ => True
  end.
(** The offset in force at the instant [u] is that of the last change not after [u]. *)
Definition in_force (z : tz) (u off : Z) : Prop :=
  (exists t, (t, off) ∈ tz_changes z /\ t <= u /\ forall t' o', (t', o') ∈ tz_changes z -> t' <= u -> t' <= t) \/
  (off = tz_first z /\ forall t' o', (t', o') ∈ tz_changes z -> u < t').
(** The clocks in [z] show the local time [l] at the instant [u]. *)
Definition shows (z : tz) (u l : Z) : Prop := exists off, in_force z u off /\ l = u + off.
Definition first_shows (z : tz) (u l : Z) : Prop := shows z u l /\ forall u', shows z u' l -> u <= u'.
Definition never_shown (z : tz) (l : Z) : Prop := forall u, ~ shows z u l.

(** The instant that a local time stands for: the first one at which the clocks show it.  If they never
    do, a day later than the one that the same time on the day before stands for. *)
Definition stands_for (z : tz) (l u : Z) : Prop :=
  first_shows z u l \/ never_shown z l /\ first_shows z (u - 86400) (l - 86400).

(** The text of a timestamp: date, separator, time, time zone; its local time [l] in seconds since
    1970-01-01 00:00:00, its nanoseconds and the name of its time zone. *)
Definition timestamp_text (s : text) (l nanos : Z) (name : text) : Prop :=
  exists d x n sep t h m sec r,
    s = d ++ sep ++ t ++ r /\ date_text d x /\ in_range x /\ day_number x n /\ separates sep /\
    time_text t h m sec nanos /\ clock_time h m sec /\ ends_time r /\ names_zone r name /\
    l = n * 86400 + h * 3600 + m * 60 + sec.
