(** Model of identifier generation. Source: crates/sail-execution/src/id.rs:5-95. *)
From stdpp Require Import prelude list.
From Coq Require Import NArith.
Open Scope N_scope.

(** The largest u64. *)
Definition u64_max : N := 2 ^ 64 - 1.
(** id.rs:13-15 *)
Definition first_id : N := 1.
(** id.rs:17-20: [checked_add(1)]. *)
Definition next_id (v : N) : option N := if v <? u64_max then Some (v + 1) else None.
(** id.rs:83-87, [generate]: on overflow the error leaves the generator unchanged. *)
Definition generate (next : N) : N * option N :=
  match next_id next with
  | Some n => (n, Some next)
  | None => (next, None)
  end.
(** A history of [k] requests to a new generator: what each returned, in order. *)
Fixpoint requests (next : N) (k : nat) : list (option N) :=
  match k with
  | O => []
  | S k => let '(next', r) := generate next in r :: requests next' k
  end.
