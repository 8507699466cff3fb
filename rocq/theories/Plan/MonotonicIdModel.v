(** monotonically_increasing_id(). *)
From Coq Require Import ZArith Lia.
From stdpp Require Import prelude list numbers.
From Verif.Plan Require Import RangeModel.
#[local] Open Scope Z_scope.

(** Rust's u64 arithmetic. *)
Definition u64 (z : Z) : Z := z mod 2 ^ 64.

(** MonotonicIdStream::make_ids (crates/sail-physical-plan/src/monotonic_id.rs:172-187): the ids
    of a batch of [len] rows and the next offset; [None] is an error. *)
Definition make_ids (partition : nat) (offset : Z) (len : nat) : option (list Z * Z) :=
  let base := u64 (Z.of_nat partition * 2 ^ 33) in
  if 2 ^ 33 <? u64 (offset + Z.of_nat len) then None
  else Some (map (fun i => wrap64 (base + offset + Z.of_nat i)) (seq 0 len),
             u64 (offset + Z.of_nat len)).

(** MonotonicIdStream::poll_next (monotonic_id.rs:199-227) over the batches of one partition: the
    id column is added to each batch; an error ends the query ([None]). *)
Fixpoint id_stream {A} (partition : nat) (offset : Z) (batches : list (list A))
  : option (list (list (A * Z))) :=
  match batches with
  | [] => Some []
  | b :: rest =>
    match make_ids partition offset (length b) with
    | None => None
    | Some (ids, offset') =>
      match id_stream partition offset' rest with
      | None => None
      | Some out => Some (zip b ids :: out)
      end
    end
  end.

(** MonotonicIdExec::execute (monotonic_id.rs:112-124): every partition starts at offset 0. *)
Definition id_exec {A} (inputs : list (list (list A))) : option (list (list (list (A * Z)))) :=
  mapM (fun '(p, batches) => id_stream p 0 batches) (zip (seq 0 (length inputs)) inputs).
