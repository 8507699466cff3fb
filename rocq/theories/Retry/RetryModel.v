(** Retries of remote calls: crates/sail-common/src/utils/retry.rs.  Driver and
    workers make their calls to each other and to Kubernetes through it. *)

From Coq Require Import NArith.
From stdpp Require Import list numbers.

Open Scope N_scope.

(** retry.rs:10-22 [RetryStrategy].  Durations are whole seconds, as the
    configuration gives them (89-114). *)
Inductive strategy :=
  | Fixed (max_count : nat) (delay : N)
  | Backoff (max_count : nat) (initial_delay max_delay factor : N).

(** Seconds of a [Duration] are 64-bit numbers. *)
Definition SECONDS : N := 2 ^ 64.

(** [Duration * u32], which panics if the seconds do not fit. *)
Definition times (d factor : N) : option N :=
  let p := d * factor in if p <? SECONDS then Some p else None.

(** The iterator over the delays: how many are left ([repeat_n] and [take],
    retry.rs:69-86), the next one, and how it goes on. *)
Record delays := Delays { remaining : nat; current : N; growth : option (N * N) }.

Definition delay (s : strategy) : delays :=
  match s with
  | Fixed n d => Delays n d None
  | Backoff n d m f => Delays n d (Some (m, f))
  end.

(** [Iterator::next]: no more delay, a panic, or a delay and the rest
    (retry.rs:30-38; the delay after this one is computed at once). *)
Inductive item := Finished | Panics | Next (d : N) (rest : delays).

Definition next (i : delays) : item :=
  match remaining i with
  | O => Finished
  | S n =>
      match growth i with
      | None => Next (current i) (Delays n (current i) None)
      | Some (m, f) =>
          match times (current i) f with
          | Some p => Next (current i) (Delays n (N.min p m) (Some (m, f)))
          | None => Panics
          end
      end
  end.

(** What is done: the operation is called, or time passes. *)
Inductive action := Call | Sleep (d : N).

(** How [run] ends: with the result of a call, or with a panic. *)
Inductive ending (T E : Type) := Value (t : T) | Error (e : E) | Panicked.
Arguments Value {T E}.
Arguments Error {T E}.
Arguments Panicked {T E}.

(** The loop of [run] (retry.rs:50-66); the result of each call is given by
    its number, from 0.  [fuel] bounds the recursion; it is one more than the
    delays that are left, which is what the loop can use. *)
Fixpoint run_loop {T E} (fuel : nat) (f : nat -> T + E) (attempt : nat) (i : delays)
    : list action * ending T E :=
  match f attempt with
  | inl t => ([Call], Value t)
  | inr e =>
      match next i with
      | Finished => ([Call], Error e)
      | Panics => ([Call], Panicked)
      | Next d i' =>
          match fuel with
          | O => ([Call], Panicked)
          | S fuel' =>
              let r := run_loop fuel' f (S attempt) i' in
              (Call :: Sleep d :: r.1, r.2)
          end
      end
  end.

(** [run] (retry.rs:41-67) *)
Definition run {T E} (s : strategy) (f : nat -> T + E) : list action * ending T E :=
  run_loop (remaining (delay s)) f 0 (delay s).
