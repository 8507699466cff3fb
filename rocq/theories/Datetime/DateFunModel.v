(** The functions year, last_day and next_day, and the rewriting of filters on the first two. *)
From Coq Require Import ZArith NArith Ascii String Lia.
From stdpp Require Import prelude list.
From Verif.Lib Require Import Text.
From Verif.Functions Require Import IntModel.
From Verif.Literal Require Import NumberModel.
From Verif.Datetime Require Import CalendarModel.
Local Open Scope Z_scope.

(** crates/sail-function/src/scalar/datetime/spark_year.rs:138-143 [date32_to_year]; an error outside
    the years of chrono. *)
Definition year_of_date (days : Z) : option Z := x ← of_days days; Some (year x).

(** crates/sail-function/src/scalar/datetime/spark_last_day.rs:156-178 [spark_last_day] *)
Definition last_day (days : Z) : option Z :=
  x ← of_days days;
  let '(next_year, next_month) := if month x =? 12 then (year x + 1, 1) else (year x, month x + 1) in
  first ← from_ymd next_year next_month 1;
  Some (to_days first - 1).

(** crates/sail-function/src/scalar/datetime/spark_next_day.rs:273-278 [spark_next_day].  Days of the
    week are counted from Monday, which is 0; 1970-01-01 was a Thursday.  NULL for a date that chrono
    does not know; the addition panics after the last date of chrono. *)
Definition weekday (days : Z) : Z := (days + 3) mod 7.
Definition days_since (d target : Z) : Z := (d - target) mod 7.
Definition next_day (days target : Z) : outcome (option Z) :=
  match of_days days with
  | None => Ok None
  | Some _ =>
    let next := days + (7 - days_since (weekday days) target) in
    match of_days next with Some _ => Ok (Some next) | None => Panic end
  end.
(** spark_next_day.rs:252-264 [parse_day_of_week], for ASCII names (to_uppercase is Unicode-aware). *)
Definition upper (c : N) : N := if ((97 <=? c) && (c <=? 122))%N then (c - 32)%N else c.
Definition names : list (list text) :=
  [[str "MO"; str "MON"; str "MONDAY"]; [str "TU"; str "TUE"; str "TUESDAY"]; [str "WE"; str "WED"; str "WEDNESDAY"];
   [str "TH"; str "THU"; str "THURSDAY"]; [str "FR"; str "FRI"; str "FRIDAY"]; [str "SA"; str "SAT"; str "SATURDAY"];
   [str "SU"; str "SUN"; str "SUNDAY"]].
Definition parse_day_of_week (s : text) : option Z :=
  let u := map upper s in
  '(i, _) ← list_find (fun l => u ∈ l) names; Some (Z.of_nat i).
(** One row of next_day: NULL for a wrong name, or an error in ANSI mode (spark_next_day.rs:220-243). *)
Definition next_day_row (ansi : bool) (days : option Z) (name : option text) : outcome (option Z) :=
  match days, name with
  | Some d, Some s =>
    match parse_day_of_week s with
    | Some w => next_day d w
    | None => if ansi then Err else Ok None
    end
  | _, _ => Ok None
  end.

(** ** Rewriting of filters.  [None]: the filter is not rewritten.  Otherwise the days from the first
    number up to, but not with, the second one. *)
(** spark_year.rs:100-136 [preimage, lit_as_year]: the literal is an int or a bigint. *)
Definition year_range (lit : Z) : option (Z * Z) :=
  y ← checked 32 lit;
  a ← from_ymd y 1 1;
  b ← from_ymd (y + 1) 1 1;
  Some (to_days a, to_days b).
(** spark_last_day.rs:110-147 [preimage]: the literal is a date.  [checked_add_signed] is [None] after
    the last date of chrono. *)
Definition last_day_range (lit : Z) : option (Z * Z) :=
  x ← of_days lit;
  next ← of_days (lit + 1);
  if negb (day next =? 1) then None
  else
    first ← from_ymd (year x) (month x) 1;
    Some (to_days first, to_days next).

(** How DataFusion compares [f(x)] with a literal, and what it puts in place of the comparison when [f]
    gives it a range (a dependency: datafusion_optimizer's rewrite_with_preimage). *)
Inductive cmp := Lt | LtEq | Gt | GtEq | Eq | NotEq.
Definition compare (op : cmp) (a b : Z) : bool :=
  match op with
  | Lt => a <? b | LtEq => a <=? b | Gt => b <? a | GtEq => b <=? a | Eq => a =? b | NotEq => negb (a =? b)
  end.
Definition in_range_filter (op : cmp) (range : Z * Z) (x : Z) : bool :=
  let '(lo, hi) := range in
  match op with
  | Lt => x <? lo | LtEq => x <? hi | Gt => hi <=? x | GtEq => lo <=? x
  | Eq => (lo <=? x) && (x <? hi) | NotEq => (x <? lo) || (hi <=? x)
  end.
