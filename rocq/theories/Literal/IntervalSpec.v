(** What an interval literal says, written down without looking at how it is parsed. *)
From Coq Require Import NArith ZArith ZifyN Ascii String Lia.
From stdpp Require Import prelude list strings.
From Verif Require Import Lib.Text Functions.IntModel Literal.NumberSpec Literal.IntervalModel.
#[local] Open Scope Z_scope.

(** ** Qualified literals: '...' A TO B *)

(** The fields from the largest to the smallest. *)
Definition rank (f : field) : nat :=
  match f with FYear => 0 | FMonth => 1 | FDay => 2 | FHour => 3 | FMinute => 4 | FSecond => 5 end%nat.
(** The fields that the qualifier names first and last. *)
Definition first_field (k : kind) : field :=
  match k with
  | Year | YearToMonth => FYear
  | Month => FMonth
  | Day | DayToHour | DayToMinute | DayToSecond => FDay
  | Hour | HourToMinute | HourToSecond => FHour
  | Minute | MinuteToSecond => FMinute
  | Second => FSecond
  end.
Definition last_field (k : kind) : field :=
  match k with
  | Year => FYear
  | YearToMonth | Month => FMonth
  | Day => FDay
  | DayToHour | Hour => FHour
  | DayToMinute | HourToMinute | Minute => FMinute
  | DayToSecond | HourToSecond | MinuteToSecond | Second => FSecond
  end.
(** All fields between the two. *)
Definition fields_of (k : kind) : list field :=
  List.filter (fun f => (rank (first_field k) <=? rank f)%nat && (rank f <=? rank (last_field k))%nat)
    [FYear; FMonth; FDay; FHour; FMinute; FSecond].

Definition blanks (s : text) : Prop := Forall (fun c => is_space c = true) s.
Definition number (s : text) : Prop := all_digits s /\ s <> [].
(** What stands before a field that is not the first: years-months, days hours:minutes:seconds. *)
Definition before (f : field) (s : text) : Prop :=
  match f with
  | FMonth => s = str "-"
  | FHour => blanks s /\ s <> []
  | _ => s = str ":"
  end.

(** [s] shows the numbers [caps] (each with its field), with what must stand between them. *)
Inductive shows_more : list (field * text) -> text -> Prop :=
  | shows_end : shows_more [] []
  | shows_next f d caps b s :
      number d -> before f b -> shows_more caps s -> shows_more ((f, d) :: caps) (b ++ d ++ s).
Inductive shows : list (field * text) -> text -> Prop :=
  | shows_first f d caps s : number d -> shows_more caps s -> shows ((f, d) :: caps) (d ++ s).
(** A fraction can follow the seconds: a point and digits, or a point alone. *)
Definition shows_fraction (k : kind) (fraction : option text) (s : text) : Prop :=
  match fraction with
  | None => s = [] \/ last_field k = FSecond /\ s = str "."
  | Some d => last_field k = FSecond /\ number d /\ s = str "." ++ d
  end.
(** The text of a qualified literal: the sign, the fields, the fraction, and blanks around it. *)
Definition written (k : kind) (s sign : text) (caps : list (field * text)) (fraction : option text) : Prop :=
  exists lead body frac trail,
    blanks lead /\ is_sign sign /\ map fst caps = fields_of k /\ shows caps body /\
    shows_fraction k fraction frac /\ blanks trail /\
    s = lead ++ sign ++ body ++ frac ++ trail.

(** What the fields are worth, in months and in microseconds. *)
Definition months_in (f : field) : Z := match f with FYear => 12 | FMonth => 1 | _ => 0 end.
Definition micros_in (f : field) : Z :=
  match f with
  | FDay => 86400000000 | FHour => 3600000000 | FMinute => 60000000 | FSecond => 1000000 | _ => 0
  end.
Definition sum (l : list Z) : Z := foldr Z.add 0 l.
Definition total (unit : field -> Z) (caps : list (field * text)) : Z :=
  sum (map (fun c => Z.of_N (dec_value c.2) * unit c.1) caps).
(** The whole microseconds in a fraction of a second. *)
Definition fraction_micros (fraction : option text) : Z :=
  match fraction with
  | Some d => Z.of_N (dec_value d) * 1000000 / 10 ^ Z.of_nat (length d)
  | None => 0
  end.
Definition is_minus (sign : text) : bool := bool_decide (sign = str "-").
Definition opposite_if (b : bool) (n : Z) : Z := if b then - n else n.
(** The interval it says, if it is in range. *)
Definition says (k : kind) (negated : bool) (caps : list (field * text)) (fraction : option text) : ivalue :=
  if (rank (last_field k) <=? 1)%nat then YearMonth (opposite_if negated (total months_in caps))
  else Micro (opposite_if negated (total micros_in caps + fraction_micros fraction)).
Definition in_range (k : kind) (caps : list (field * text)) (fraction : option text) : Prop :=
  if (rank (last_field k) <=? 1)%nat then total months_in caps <= int_max 32
  else total micros_in caps + fraction_micros fraction <= int_max 64.

(** ** Literals with several units *)

(** The whole number that an expression says: its text is a numeral that fits, and an opposite is only
    taken of numbers that have one. *)
Inductive int_value (bits : Z) : value -> Z -> Prop :=
  | iv_num sg d : is_sign sg -> number d -> fits bits (signed sg (dec_value d)) = true ->
      int_value bits (VNum (sg ++ d)) (signed sg (dec_value d))
  | iv_str sg d : is_sign sg -> number d -> fits bits (signed sg (dec_value d)) = true ->
      int_value bits (VStr (sg ++ d)) (signed sg (dec_value d))
  | iv_neg v n : int_value bits v n -> n <> int_min bits -> int_value bits (VNeg v) (- n).
(** The microseconds that a number of seconds says. *)
Inductive second_value : value -> Z -> Prop :=
  | sv_num s sign caps fraction : written Second s sign caps fraction ->
      second_value (VNum s) (opposite_if (is_minus sign) (total micros_in caps + fraction_micros fraction))
  | sv_str s sign caps fraction : written Second s sign caps fraction ->
      second_value (VStr s) (opposite_if (is_minus sign) (total micros_in caps + fraction_micros fraction))
  | sv_neg v n : second_value v n -> second_value (VNeg v) (- n).
(** The months and the microseconds of a value with its unit. *)
Definition item_says (i : value * unit) (m t : Z) : Prop :=
  let '(v, u) := i in
  match u with
  | UYear => exists n, int_value 32 v n /\ m = n * 12 /\ t = 0
  | UMonth => int_value 32 v m /\ t = 0
  | USecond => second_value v t /\ m = 0
  | UWeek => exists n, int_value 64 v n /\ m = 0 /\ t = n * 604800000000
  | UDay => exists n, int_value 64 v n /\ m = 0 /\ t = n * 86400000000
  | UHour => exists n, int_value 64 v n /\ m = 0 /\ t = n * 3600000000
  | UMinute => exists n, int_value 64 v n /\ m = 0 /\ t = n * 60000000
  | UMilli => exists n, int_value 64 v n /\ m = 0 /\ t = n * 1000
  | UMicro => int_value 64 v t /\ m = 0
  end.
(** The interval of months and microseconds: months and time alone have types of their own. *)
Definition interval_of (m t : Z) : ivalue :=
  if bool_decide (m = 0) then Micro t
  else if bool_decide (t = 0) then YearMonth m
  else MonthDayNano m (Z.quot t 86400000000) (Z.rem t 86400000000 * 1000).
(** The time and months of an interval. *)
Definition months_of (v : ivalue) : Z :=
  match v with YearMonth m => m | Micro _ => 0 | MonthDayNano m _ _ => m end.
Definition nanos_of (v : ivalue) : Z :=
  match v with YearMonth _ => 0 | Micro n => n * 1000 | MonthDayNano _ d n => d * 86400000000000 + n end.

(** ** Showing and reading back *)

(** No part is negative, or none is positive. *)
Definition same_sign (l : list Z) : Prop := Forall (fun n => 0 <= n) l \/ Forall (fun n => n <= 0) l.
