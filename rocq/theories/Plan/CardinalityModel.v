(** The run-time check that MERGE matches every target row at most once. *)
From stdpp Require Import prelude list.

(** A row of the join as the check sees it: the target row id and the two presence flags, all of
    which can be NULL. *)
Record row (D : Type) := Row {
  row_id : option nat;
  row_target : option bool;
  row_source : option bool;
  row_data : D;
}.
Arguments Row {D} _ _ _ _. Arguments row_id {D} _. Arguments row_target {D} _.
Arguments row_source {D} _. Arguments row_data {D} _.

(** One batch in MergeCardinalityCheckStream::poll_next
    (crates/sail-physical-plan/src/merge_cardinality_check.rs:220-241): the ids seen so far are
    updated; [None] is the cardinality error. *)
Definition matched {D} (r : row D) : bool :=
  default false (row_target r) && default false (row_source r).
Fixpoint check_batch {D} (seen : list nat) (rows : list (row D)) : option (list nat) :=
  match rows with
  | [] => Some seen
  | r :: rest =>
    if matched r then
      match row_id r with
      | None => check_batch seen rest
      | Some i => if decide (i ∈ seen) then None else check_batch (i :: seen) rest
      end
    else check_batch seen rest
  end.

(** The stream over one partition (merge_cardinality_check.rs:180-244): batches are passed on; an
    error ends the query ([None]). The set of ids is kept between batches. *)
Fixpoint check_stream {D} (seen : list nat) (batches : list (list (row D)))
  : option (list (list (row D))) :=
  match batches with
  | [] => Some []
  | b :: rest =>
    match check_batch seen b with
    | None => None
    | Some seen' =>
      match check_stream seen' rest with
      | None => None
      | Some out => Some (b :: out)
      end
    end
  end.

(** Every partition has its own set (merge_cardinality_check.rs:128-160). *)
Definition check_exec {D} (parts : list (list (list (row D))))
  : option (list (list (list (row D)))) :=
  mapM (check_stream []) parts.
