(** spark.range: splitting an integer range into partitions and yielding its rows in batches. *)
From Coq Require Import ZArith Lia.
From stdpp Require Import prelude list numbers.
#[local] Open Scope Z_scope.

Definition i64_min : Z := - 2 ^ 63.
Definition i64_max : Z := 2 ^ 63 - 1.
(** Rust's [as i64]. *)
Definition wrap64 (z : Z) : Z := (z + 2 ^ 63) mod 2 ^ 64 - 2 ^ 63.

(** Range (crates/sail-logical-plan/src/range.rs:12-17). *)
Record range := Range { r_start : Z; r_end : Z; r_step : Z }.

(** The number of elements computed by Range::partition (range.rs:24-30), in i128. *)
Definition num_elements (r : range) : Z :=
  let '(Range s e st) := r in
  if negb (Bool.eqb (s <? e) (0 <? st)) then 0
  else
    let diff := Z.abs (e - s) in
    let st' := Z.abs st in
    diff / st' + (if diff mod st' =? 0 then 0 else 1).

(** Range::partition (range.rs:20-40). The i128 products cannot overflow: the number of
    partitions of a request is a 32-bit number. *)
Definition partition (r : range) (p np : nat) : range :=
  let n := num_elements r in
  Range
    (wrap64 (Z.of_nat p * n / Z.of_nat np * r_step r + r_start r))
    (wrap64 ((Z.of_nat p + 1) * n / Z.of_nat np * r_step r + r_start r))
    (wrap64 (r_step r)).

(** RangeIterator (range.rs:56-59) and its next (range.rs:64-76). *)
Record iter := Iter { it_range : range; it_current : Z }.
Definition into_iter (r : range) : iter := Iter r (r_start r).
Definition checked_add (a b : Z) : option Z :=
  if (i64_min <=? a + b) && (a + b <=? i64_max) then Some (a + b) else None.
Definition next (it : iter) : option (Z * iter) :=
  let r := it_range it in
  let c := it_current it in
  if ((0 <? r_step r) && (c <? r_end r)) || ((r_step r <? 0) && (r_end r <? c)) then
    Some (c, Iter r (default (r_end r) (checked_add c (r_step r))))
  else None.

(** [iter.by_ref().take(n).collect()]. *)
Fixpoint take (n : nat) (it : iter) : list Z * iter :=
  match n with
  | O => ([], it)
  | S n' =>
    match next it with
    | None => ([], it)
    | Some (x, it') => let '(xs, it'') := take n' it' in (x :: xs, it'')
    end
  end.

(** RANGE_BATCH_SIZE (crates/sail-physical-plan/src/range.rs:14). *)
Definition batch_size : nat := 1024.

(** The batches of a partition (RangeExec::execute, sail-physical-plan/src/range.rs:103-147):
    batches are taken until one is empty.  A relation, since the number of rows is not bounded. *)
Inductive batches : iter -> list (list Z) -> Prop :=
| batches_done it it' : take batch_size it = ([], it') -> batches it []
| batches_more it x xs it' bs :
    take batch_size it = (x :: xs, it') -> batches it' bs -> batches it ((x :: xs) :: bs).

(** RangeNode::try_new (range.rs:87-101) and RangeExec::execute: [None] is an error. *)
Definition try_new (s e st : Z) (np : nat) : option range :=
  if (st =? 0) || bool_decide (np = 0%nat) then None else Some (Range s e st).
Definition execute (r : range) (np p : nat) : option iter :=
  if decide (p < np)%nat then Some (into_iter (partition r p np)) else None.
