(** What time windows are: the intervals [start + k * slide, start + k * slide + duration). *)
From Coq Require Import ZArith.
From stdpp Require Import prelude list.
#[local] Open Scope Z_scope.

(** [is_window d s st a b]: [a, b) is one of the windows of duration d that begin every s microseconds,
    counted from st. *)
Definition is_window (d s st a b : Z) : Prop := (exists k, a = st + k * s) /\ b = a + d.

(** The instant lies in the window: its start belongs to it, its end does not. *)
Definition inside (a b ts : Z) : Prop := a <= ts < b.

(** The durations make a legal window definition. *)
Definition legal (d s st : Z) : Prop := 0 < s <= d /\ - s < st < s /\ d <= 1000000 * s.

(** The instants around which the 64-bit arithmetic stays in range: a window of duration d and a slide s
    away from the ends of the 64-bit range. (All dates between the years 1 and 9999 and durations of a
    thousand years are far inside.) *)
Definition in_range (d s ts : Z) : Prop := - 2 ^ 63 <= ts - d - s /\ ts + d + s < 2 ^ 63.
