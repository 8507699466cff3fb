(** DataFrame.coalesce(n): concatenating adjacent input partitions. *)
From stdpp Require Import prelude list numbers.

(** An input stream as the answers it will give when polled: [None] is [Pending], [Some x] an
    item (a batch or an error).  After the last answer the stream says it is finished. *)
Notation stream A := (list (option A)).
Inductive poll (A : Type) := Pending | Finished | Item (x : A).
Arguments Pending {A}. Arguments Finished {A}. Arguments Item {A} _.

(** CoalesceStream::poll_next (crates/sail-physical-plan/src/coalesce.rs:169-189). *)
Fixpoint poll_next {A} (inputs : list (stream A)) : poll A * list (stream A) :=
  match inputs with
  | [] => (Finished, [])
  | [] :: rest => poll_next rest
  | (None :: s) :: rest => (Pending, s :: rest)
  | (Some x :: s) :: rest => (Item x, s :: rest)
  end.

(** The items seen by a consumer that polls until the stream is finished. *)
Inductive drains {A} : list (stream A) -> list A -> Prop :=
| drains_finished q q' : poll_next q = (Finished, q') -> drains q []
| drains_pending q q' l : poll_next q = (Pending, q') -> drains q' l -> drains q l
| drains_item q q' x l : poll_next q = (Item x, q') -> drains q' l -> drains q (x :: l).

(** coalesced_input_range (coalesce.rs:145-153). *)
Definition input_range (p inputs outputs : nat) : nat * nat :=
  (p * inputs / outputs, (p + 1) * inputs / outputs).

(** CoalesceExec::execute (coalesce.rs:95-127): the input streams of one output partition;
    [None] is an error. *)
Definition execute {A} (inputs : list (stream A)) (outputs p : nat) : option (list (stream A)) :=
  if decide (outputs <= p) then None
  else if decide (length inputs < outputs) then None
  else
    let '(a, b) := input_range p (length inputs) outputs in
    Some (take (b - a) (drop a inputs)).

(** plan_explicit_partitioning for coalesce (crates/sail-session/src/planner.rs:619-625): the
    number of partitions asked for is checked and capped when the plan is made; [None] is an
    error. *)
Definition plan_count (n inputs : nat) : option nat :=
  if decide (n = 0) then None else Some (n `min` inputs).

(** RewriteExplicitRepartition::optimize for coalesce
    (crates/sail-physical-optimizer/src/explicit_repartition.rs:43-56). *)
Inductive node := KeepInput | MergeAll | CoalesceTo (n : nat).
Definition rewrite (n inputs : nat) : node :=
  if decide (inputs <= n) then KeepInput
  else if decide (n = 1) then MergeAll
  else CoalesceTo n.

(** The items of each output partition.  MergeAll is DataFusion's CoalescePartitionsExec, which
    interleaves the items of all inputs in any order. *)
Definition items {A} (s : stream A) : list A := omap id s.
Inductive interleaves {A} : list (list A) -> list A -> Prop :=
| interleaves_nil ls : Forall (fun l => l = []) ls -> interleaves ls []
| interleaves_cons ls1 x l ls2 out :
    interleaves (ls1 ++ l :: ls2) out -> interleaves (ls1 ++ (x :: l) :: ls2) (x :: out).
Definition output {A} (k : node) (inputs : list (stream A)) (outs : list (list A)) : Prop :=
  match k with
  | KeepInput => outs = map items inputs
  | MergeAll => exists out, outs = [out] /\ interleaves (map items inputs) out
  | CoalesceTo n =>
      Forall2 (fun p out => exists q, execute inputs n p = Some q /\ drains q out) (seq 0 n) outs
  end.
