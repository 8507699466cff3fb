(** Model of row round-robin repartitioning and of the shuffle writer.
    Sources: crates/sail-physical-plan/src/repartition.rs:29-85, 246-259,
             crates/sail-execution/src/plan/shuffle_write.rs:212-253. *)
From stdpp Require Import prelude list.

(** repartition.rs:29-32, [RowRoundRobinPartitioner]. *)
Record rr := RR { rr_n : nat; rr_next : nat }.

(** repartition.rs:35-50, [new]; [None] is the error. *)
Definition rr_new (n input inputs : nat) : option rr :=
  if decide (n = 0) then None
  else if decide (inputs = 0) then None
  else Some (RR n (input * n / inputs)).

(** repartition.rs:63-67: bucket the row indices ([row_index as u32]: batches are
    assumed to have fewer than 2^32 rows). *)
Definition rr_indices (s : rr) (rows : nat) : list (list nat) :=
  foldl (fun ind i => alter (fun l => l ++ [i]) ((rr_next s + i) mod rr_n s) ind)
        (replicate (rr_n s) []) (seq 0 rows).

(** Arrow [take]: the rows at the given indices. *)
Definition take_rows {A} (batch : list A) (ix : list nat) : list A := omap (fun i => batch !! i) ix.

(** repartition.rs:52-85, [partition]: the calls made to the callback, in order. *)
Definition rr_partition {A} (s : rr) (batch : list A) : rr * list (nat * list A) :=
  if decide (length batch = 0) then (s, [])
  else if decide (rr_n s = 1) then (s, [(0, batch)])
  else
    (RR (rr_n s) ((rr_next s + length batch) mod rr_n s),
     omap (fun pi : nat * list nat =>
             match pi.2 with [] => None | _ => Some (pi.1, take_rows batch pi.2) end)
          (imap pair (rr_indices s (length batch)))).

(** A partitioner as the shuffle writer sees it: a state and the callback calls
    for one batch (shuffle_write.rs:19-22, 83-96). *)
Definition partitioner (S A : Type) := S -> list A -> S * list (nat * list A).

(** shuffle_write.rs:225-241 and repartition.rs:246-259: the calls for one batch
    are stored per channel (a second call for the same channel would overwrite the
    first), then the channels are written in order.  [streams] is what has been
    written to each channel; the sinks stay open (an early stop by all consumers
    is not modelled here). *)
Definition store_calls {A} (channels : nat) (calls : list (nat * list A)) : list (option (list A)) :=
  foldl (fun acc (c : nat * list A) => <[c.1 := Some c.2]> acc) (replicate channels None) calls.
Definition write_channels {A} (streams : list (list (list A))) (stored : list (option (list A))) :
  list (list (list A)) :=
  zip_with (fun st o => match o with Some b => st ++ [b] | None => st end) streams stored.
Definition shuffle_batch {S A} (part : partitioner S A) (channels : nat)
  (acc : S * list (list (list A))) (batch : list A) : S * list (list (list A)) :=
  let '(s', calls) := part acc.1 batch in
  (s', write_channels acc.2 (store_calls channels calls)).
(** shuffle_write.rs:212-253: the batches written to each channel by one task. *)
Definition shuffle_write {S A} (part : partitioner S A) (channels : nat) (s : S)
  (batches : list (list A)) : list (list (list A)) :=
  (foldl (shuffle_batch part channels) (s, replicate channels []) batches).2.

(** Hash partitioning (the partitioner comes from DataFusion): rows of a batch
    grouped by [h row], empty groups skipped. *)
Definition hash_partition {A} (h : A -> nat) (n : nat) : partitioner unit A :=
  fun s batch =>
    (s, omap (fun c => match filter (fun r => h r = c) batch with [] => None | l => Some (c, l) end)
             (seq 0 n)).
