(** The calendar, day after day. *)
From Coq Require Import ZArith Lia.
From stdpp Require Import prelude.
From Verif.Datetime Require Import CalendarModel.
Local Open Scope Z_scope.

(** Every fourth year is a leap year, but of the full centuries only every fourth one. *)
Definition leap (y : Z) : Prop := (4 | y) /\ ((100 | y) -> (400 | y)).
#[global] Instance leap_dec y : Decision (leap y).
Proof.
  unfold leap. assert (forall a b, Decision (a | b)) as Hd
    by (intros a b; destruct (Znumtheory.Zdivide_dec a b); [left|right]; done).
  apply _.
Defined.
(** Thirty days have September, April, June and November. *)
Definition length_of_month (y m : Z) : Z :=
  if decide (m = 2) then (if decide (leap y) then 29 else 28)
  else if decide (m = 9 \/ m = 4 \/ m = 6 \/ m = 11) then 30 else 31.
Definition is_date (x : date) : Prop := 1 <= month x <= 12 /\ 1 <= day x <= length_of_month (year x) (month x).
Definition tomorrow (x : date) : date :=
  if decide (day x < length_of_month (year x) (month x)) then Date (year x) (month x) (day x + 1)
  else if decide (month x < 12) then Date (year x) (month x + 1) 1
  else Date (year x + 1) 1 1.
Definition epoch : date := Date 1970 1 1.
(** The dates that chrono can hold. *)
Definition in_range (x : date) : Prop := is_date x /\ -262143 <= year x <= 262142.
