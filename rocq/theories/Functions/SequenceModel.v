(** The function sequence(start, stop [, step]) on integers. *)
From Coq Require Import ZArith Lia.
From stdpp Require Import prelude list numbers.
From Verif Require Import Functions.IntModel.
#[local] Open Scope Z_scope.

(** MAX_ROUNDED_ARRAY_LENGTH (crates/sail-function/src/scalar/array/spark_sequence.rs:33). *)
Definition max_rounded_array_length : Z := int_max 32 - 15.

(** valid_boundaries (spark_sequence.rs:501-503). *)
Definition valid_boundaries (start stop step : Z) : bool :=
  ((0 <? step) && (start <=? stop)) || ((step <? 0) && (stop <=? start)) || ((step =? 0) && (start =? stop)).

(** sequence_length (spark_sequence.rs:515-553): [None] is an error. The three numbers are i64; the
    length is computed in i128, where nothing overflows. Rust's / truncates. *)
Definition sequence_length (start stop step : Z) : option nat :=
  if negb (valid_boundaries start stop step) then None
  else if start =? stop then Some 1%nat
  else
    let '(length, overflowed) :=
      match checked 64 (stop - start) with
      | Some delta =>
          if negb ((delta =? int_min 64) && (step =? -1)) then (1 + Z.quot delta step, false)
          else (1 + Z.quot (stop - start) step, true)
      | None => (1 + Z.quot (stop - start) step, true)
      end in
    if max_rounded_array_length <? length then None
    else if overflowed then None
    else if length <? 0 then None
    else Some (Z.to_nat length).

(** extend_integral_values (spark_sequence.rs:647-661) for the type with [bits] bits: the elements in
    i128, each converted back with try_from, which may fail. *)
Definition integral_values (bits start step : Z) (length : nat) : option (list Z) :=
  mapM (fun i => checked bits (start + step * Z.of_nat i)) (seq 0 length).

(** One iteration of the first loop of gen_sequence_i8 to gen_sequence_i64 (spark_sequence.rs:679-706):
    the step that is used, and the length. *)
Definition row_plan (start stop : Z) (step : option Z) : option (Z * Z * nat) :=
  let step := default (if start <=? stop then 1 else -1) step in
  n ← sequence_length start stop step; Some (start, step, n).

(** checked_batch_length (spark_sequence.rs:555-562): all elements of a batch must be countable in i32. *)
Definition checked_batch_length (current additional : Z) : option Z := checked 32 (current + additional).

(** The two loops (spark_sequence.rs:675-735). A row is [None] if one of its arguments is NULL. The list
    array is given row by row. Running out of memory is not modelled. *)
Fixpoint plan_rows (rows : list (option (Z * Z * option Z))) (total : Z) :
    option (list (option (Z * Z * nat))) :=
  match rows with
  | [] => Some []
  | None :: rows => ps ← plan_rows rows total; Some (None :: ps)
  | Some (start, stop, step) :: rows =>
      p ← row_plan start stop step;
      total ← checked_batch_length total (Z.of_nat p.2);
      ps ← plan_rows rows total;
      Some (Some p :: ps)
  end.
Definition gen_sequence (bits : Z) (rows : list (option (Z * Z * option Z))) :
    option (list (option (list Z))) :=
  ps ← plan_rows rows 0;
  mapM (fun p => match p with
                 | None => Some None
                 | Some (start, step, n) => l ← integral_values bits start step n; Some (Some l)
                 end) ps.
