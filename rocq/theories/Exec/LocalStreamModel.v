(** Model of one local (in-memory) task stream.
    Sources: crates/sail-execution/src/stream/local/core.rs,
             crates/sail-execution/src/stream/local/memory.rs.
    The manager keeps one state per stream key and every method touches one key, so
    one key is modelled.  Removal of a finished job's streams (core.rs:120-127) is
    not modelled.  Bounded channels (tokio mpsc) are queues with a capacity; a
    receiver sees the end of the stream when the queue is empty and the sender is
    gone. *)
From stdpp Require Import prelude list.

Section model.
Context {B : Type}.

(** What travels in a channel: [TaskStreamResult<RecordBatch>]. *)
Inductive item := Data (b : B) | Failure.

(** The receiving end: still in the pool of replicas, held by a consumer, or dropped. *)
Inductive rx_state := RxPool | RxHeld | RxDropped.
Global Instance rx_state_eqdec : EqDecision rx_state.
Proof. solve_decision. Defined.

(** One replica: the channel, its sender with the overflow buffer (memory.rs:63-71)
    and what its consumer has received so far ([rp_eof]: it saw the end). *)
Record replica := Replica {
  rp_buf : list item;
  rp_tx : bool;
  rp_overflow : list item;
  rp_rx : rx_state;
  rp_got : list item;
  rp_eof : bool;
}.
Definition new_replica (rx : rx_state) : replica := Replica [] true [] rx [] false.

(** The life of the sink: writing, committing, or gone ([SClosed ok]: after a
    commit, [ok = true], or otherwise). *)
Inductive sink_state := SNone | SWriting | SCommitting | SClosed (ok : bool).

(** core.rs and local/mod.rs [LocalStreamState]; [LCreated pool]: the receivers not
    handed out yet, the last one is handed out first. *)
Inductive stream_state := LVacant | LPending | LCreated (pool : list nat) | LFailed.

Record lstream := LStream {
  ls_state : stream_state;
  ls_replicas : list replica;
  ls_sink : sink_state;
}.
Definition ls_init : lstream := LStream LVacant [] SNone.

(** core.rs:82-118, [fetch_stream]: the replica handed to the caller, or an error.
    memory.rs:52-57, [subscribe]. *)
Definition fetch (s : lstream) : lstream * option nat :=
  match ls_state s with
  | LCreated pool =>
      match last pool with
      | Some i =>
          (LStream (LCreated (take (length pool - 1) pool))
                   (alter (fun r => Replica (rp_buf r) (rp_tx r) (rp_overflow r) RxHeld (rp_got r) (rp_eof r))
                          i (ls_replicas s))
                   (ls_sink s), Some i)
      | None => (s, None)
      end
  | LPending | LVacant =>
      (LStream LPending (ls_replicas s ++ [new_replica RxHeld]) (ls_sink s),
       Some (length (ls_replicas s)))
  | LFailed => (s, None)
  end.

(** core.rs:31-80, [create_stream] with memory.rs:25-44 [MemoryStream::new]: the
    pending senders come first, then enough new replicas to reach [replicas]. *)
Definition create (replicas : nat) (s : lstream) : lstream * bool :=
  match ls_state s with
  | LCreated _ | LFailed => (s, false)
  | LPending | LVacant =>
      let n := length (ls_replicas s) in
      let extra := Nat.max replicas n - n in
      (LStream (LCreated (seq n extra)) (ls_replicas s ++ replicate extra (new_replica RxPool)) SWriting,
       true)
  end.

(** core.rs:129-140, [fail_stream_if_pending]: the waiting consumers get an error
    and their senders are dropped. *)
Definition fail_if_pending (s : lstream) : lstream :=
  match ls_state s with
  | LPending =>
      LStream LFailed
        (map (fun r => Replica (rp_buf r ++ [Failure]) false (rp_overflow r) (rp_rx r) (rp_got r) (rp_eof r))
             (ls_replicas s))
        (ls_sink s)
  | _ => s
  end.

(** memory.rs:83-97: move what fits from the overflow buffer to the channel. *)
Definition flush (cap : nat) (r : replica) : replica :=
  let k := cap - length (rp_buf r) in
  Replica (rp_buf r ++ take k (rp_overflow r)) (rp_tx r) (drop k (rp_overflow r))
          (rp_rx r) (rp_got r) (rp_eof r).
(** memory.rs:103-107: the receiver is gone. *)
Definition cut (r : replica) : replica :=
  Replica (rp_buf r) false [] (rp_rx r) (rp_got r) (rp_eof r).
Definition rx_gone (r : replica) : bool := bool_decide (rp_rx r = RxDropped).

(** memory.rs:74-137, [write], for one replica. *)
Definition write_replica (cap : nat) (b : B) (r : replica) : replica :=
  if rp_tx r then
    if rx_gone r then cut r
    else
      let r1 := flush cap r in
      match rp_overflow r1 with
      | [] =>
          if decide (length (rp_buf r1) < cap) then
            Replica (rp_buf r1 ++ [Data b]) true [] (rp_rx r1) (rp_got r1) (rp_eof r1)
          else Replica (rp_buf r1) true [Data b] (rp_rx r1) (rp_got r1) (rp_eof r1)
      | o => Replica (rp_buf r1) true (o ++ [Data b]) (rp_rx r1) (rp_got r1) (rp_eof r1)
      end
  else r.
(** The sink is dropped: every sender goes. *)
Definition drop_tx (r : replica) : replica :=
  Replica (rp_buf r) false (rp_overflow r) (rp_rx r) (rp_got r) (rp_eof r).

(** memory.rs:74-137, [write]; when no replica is left the channel is closed and the
    writer drops the sink (accessor.rs:471-487). *)
Definition write (cap : nat) (b : B) (s : lstream) : lstream :=
  match ls_sink s with
  | SWriting =>
      let rs := map (write_replica cap b) (ls_replicas s) in
      if existsb rp_tx rs then LStream (ls_state s) rs SWriting
      else LStream (ls_state s) (map drop_tx rs) (SClosed false)
  | _ => s
  end.

(** memory.rs:139-166, [commit]: the overflow buffers are sent one replica after the
    other with blocking sends.  One step sends what fits for the first replica that
    still has something to send (or drops it if its receiver is gone); with nothing
    left the sink is dropped. *)
Definition to_flush (r : replica) : bool :=
  rp_tx r && match rp_overflow r with [] => false | _ => true end.
Definition commit_step (cap : nat) (s : lstream) : lstream :=
  match ls_sink s with
  | SCommitting =>
      match list_find (fun r => to_flush r = true) (ls_replicas s) with
      | Some (i, _) =>
          LStream (ls_state s)
            (alter (fun r => if rx_gone r then cut r else flush cap r) i (ls_replicas s)) SCommitting
      | None => LStream (ls_state s) (map drop_tx (ls_replicas s)) (SClosed true)
      end
  | _ => s
  end.
Definition start_commit (s : lstream) : lstream :=
  match ls_sink s with
  | SWriting => LStream (ls_state s) (ls_replicas s) SCommitting
  | _ => s
  end.
(** memory.rs:168-170, [abort]: the sink is simply dropped. *)
Definition abort (s : lstream) : lstream :=
  match ls_sink s with
  | SWriting => LStream (ls_state s) (map drop_tx (ls_replicas s)) (SClosed false)
  | _ => s
  end.

(** A consumer polls its receiver: the next item, the end, or nothing yet. *)
Definition recv_replica (r : replica) : replica :=
  match rp_rx r with
  | RxHeld =>
      match rp_buf r with
      | x :: rest => Replica rest (rp_tx r) (rp_overflow r) RxHeld (rp_got r ++ [x]) (rp_eof r)
      | [] => if rp_tx r then r
              else Replica [] false (rp_overflow r) RxHeld (rp_got r) true
      end
  | _ => r
  end.
Definition on_replica (f : replica -> replica) (i : nat) (s : lstream) : lstream :=
  LStream (ls_state s) (alter f i (ls_replicas s)) (ls_sink s).
(** A consumer stops early (a LIMIT, for example) and drops its receiver. *)
Definition drop_rx (r : replica) : replica :=
  match rp_rx r with
  | RxHeld => Replica [] (rp_tx r) (rp_overflow r) RxDropped (rp_got r) (rp_eof r)
  | _ => r
  end.

Inductive op :=
| Fetch | Create (replicas : nat) | Timeout | Write (b : B)
| Commit | CommitStep | Abort | Recv (i : nat) | DropRx (i : nat).

Definition step (cap : nat) (s : lstream) (o : op) : lstream :=
  match o with
  | Fetch => (fetch s).1
  | Create n => (create n s).1
  | Timeout => fail_if_pending s
  | Write b => write cap b s
  | Commit => start_commit s
  | CommitStep => commit_step cap s
  | Abort => abort s
  | Recv i => on_replica recv_replica i s
  | DropRx i => on_replica drop_rx i s
  end.
Definition run (cap : nat) (ops : list op) : lstream := foldl (step cap) ls_init ops.
End model.
Arguments item : clear implicits.
Arguments replica : clear implicits.
Arguments lstream : clear implicits.
Arguments op : clear implicits.
