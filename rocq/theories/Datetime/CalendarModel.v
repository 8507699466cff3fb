(** The calendar of chrono's [NaiveDate] (a dependency, modelled from its documentation): the
    proleptic Gregorian calendar, and the number of days since 1970-01-01 that arrow's [Date32Type]
    holds.  sail uses it through [NaiveDate::from_ymd_opt], [Date32Type::from_naive_date] and
    [date32_to_datetime] (crates/sail-sql-analyzer/src/literal/datetime.rs:17-24,
    crates/sail-plan/src/resolver/expression/literal.rs:36-46,
    crates/sail-common-datafusion/src/formatter.rs:146-158). *)
From Coq Require Import ZArith Lia.
From stdpp Require Import prelude.
Local Open Scope Z_scope.

Record date := Date { year : Z; month : Z; day : Z }.
#[global] Instance date_eq_dec : EqDecision date.
Proof. solve_decision. Defined.

Definition is_leap (y : Z) : bool := (y mod 4 =? 0) && (negb (y mod 100 =? 0) || (y mod 400 =? 0)).
Definition month_length (y m : Z) : Z :=
  if m =? 2 then if is_leap y then 29 else 28
  else if (m =? 4) || (m =? 6) || (m =? 9) || (m =? 11) then 30 else 31.

(** The first and the last year of [NaiveDate]: [NaiveDate::MIN] and [MAX]. *)
Definition MIN_YEAR : Z := -262143.
Definition MAX_YEAR : Z := 262142.

(** NaiveDate::from_ymd_opt *)
Definition from_ymd (y m d : Z) : option date :=
  if (MIN_YEAR <=? y) && (y <=? MAX_YEAR) && (1 <=? m) && (m <=? 12) && (1 <=? d) && (d <=? month_length y m)
  then Some (Date y m d) else None.

(** Date32Type::from_naive_date: days since the epoch.  719162 days lie between 0001-01-01 and
    1970-01-01. *)
Definition days_before_year (y : Z) : Z := let p := y - 1 in 365 * p + p / 4 - p / 100 + p / 400.
Fixpoint days_in_months (k : nat) (y : Z) : Z :=
  match k with O => 0 | S k' => days_in_months k' y + month_length y (Z.of_nat k) end.
Definition to_days (x : date) : Z :=
  days_before_year (year x) + days_in_months (Z.to_nat (month x - 1)) (year x) + (day x - 1) - 719162.

(** date32_to_datetime: the date of a number of days; [None] outside the years of chrono. *)
Definition year_of (n : Z) : Z :=
  let y := n * 400 / 146097 + 1 in
  if n <? days_before_year y then y - 1
  else if days_before_year (y + 1) <=? n then y + 1 else y.
Fixpoint month_of (k : nat) (y n : Z) : Z * Z :=
  match k with
  | O => (1, n)
  | S k' => if days_in_months k y <=? n then (Z.of_nat (S k), n - days_in_months k y) else month_of k' y n
  end.
Definition of_days (days : Z) : option date :=
  let n := days + 719162 in
  let y := year_of n in
  let '(m, d) := month_of 11 y (n - days_before_year y) in
  if (MIN_YEAR <=? y) && (y <=? MAX_YEAR) then Some (Date y m (d + 1)) else None.
