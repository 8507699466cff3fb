(** Model of the execution of one reattachable operation and of its client.
    Sources: crates/sail-spark-connect/src/executor.rs,
             crates/sail-spark-connect/src/service/plan_executor.rs.
    The task, the network, and the requests of the client interleave in any order.  Only
    what happens between two points where the code can be suspended is one step. *)
From Coq Require Import List Arith Bool.
Import ListNotations.

(** executor.rs:31-42 [ExecutorBatch] and :44-60 [ExecutorOutput].  A batch of rows is a
    list; the results of commands are numbers; response ids, which are fresh UUIDs, are
    counted. *)
Inductive body := BSchema | BRows (rows : list nat) | BHeartbeat | BResult (r : nat) | BComplete.
Record output := Output { o_id : nat; o_body : body }.

(** executor.rs:71 *)
Definition capacity : nat := 128.

(** executor.rs:81-89 [ExecutorBuffer::add] *)
Definition buffer_add (b : list output) (o : output) : list output :=
  (if capacity <=? length b then tl b else b) ++ [o].

(** executor.rs:91-96 [ExecutorBuffer::remove_until] *)
Fixpoint after_id (id : nat) (b : list output) : option (list output) :=
  match b with
  | [] => None
  | o :: b' => if o_id o =? id then Some b' else after_id id b'
  end.
Definition remove_until (id : nat) (b : list output) : list output :=
  match after_id id b with Some b' => b' | None => b end.

(** executor.rs:164-170 [ExecutorTaskState]; the completion handler of a command may
    produce a result, and can be called once. *)
Inductive tstate := TQuery | TCommand (batches : list (list nat)) (completion : option (list (list nat) -> option nat)).

(** executor.rs:134-139 [ExecutorTaskContext]: the batches the stream has yet to yield
    and whether it fails after them.  A stream that has ended stays ended. *)
Record context := Context { x_source : list (list nat); x_fails : bool; x_state : tstate; x_buffer : list output }.

(** executor.rs:141-147 [ExecutorMode], :216-246 [Executor::new] *)
Inductive mode := MQuery | MCommand (completion : list (list nat) -> option nat).
Definition new_context (m : mode) (source : list (list nat)) (fails : bool) : context :=
  Context source fails (match m with MQuery => TQuery | MCommand f => TCommand [] (Some f) end) [].

(** Where [run_internal] (executor.rs:248-357) is suspended: repeating buffered
    responses; before the schema; in the loop over the stream (with the flag [empty]);
    after the loop; after the result, before [Complete]; at the end. *)
Inductive pc := PResend (l : list output) | PSchema | PLoop (empty : bool) | PAfter (empty : bool) | PFinish | PEnd.

(** A task: its context, where it is, and the response that is in the buffer and not yet
    sent (executor.rs:195-206 [send_output]); or its result, executor.rs:209-213. *)
Inductive task :=
  | Active (x : context) (p : pc) (pending : option output)
  | Paused (x : context)
  | Completed
  | TaskFailed.

(** executor.rs:114-126 [ExecutorState]; [Run false] is Running, [Run true] is Pausing.
    [Abandoned] is Pausing when the request that paused the task was dropped while it
    waited for the task (executor.rs:443). *)
Inductive estate := Idle | Pending (x : context) | Run (pausing : bool) (t : task) | Abandoned | Failed.

(** The operation, the responses on their way to the client, whether the task is sending
    to the stream the client reads, what the client has received, and the next id. *)
Record world := World { w_state : estate; w_wire : list output; w_conn : bool; w_recv : list output; w_next : nat }.

Definition initial (m : mode) (source : list (list nat)) (fails : bool) : world :=
  World (Pending (new_context m source fails)) [] false [] 0.

Definition set_state (e : estate) (w : world) : world := World e (w_wire w) (w_conn w) (w_recv w) (w_next w).

(** executor.rs:195-206 [send_output], first half: a new response is put in the buffer. *)
Definition emit (g : bool) (x : context) (p : pc) (b : body) (w : world) : world :=
  let o := Output (w_next w) b in
  World (Run g (Active (Context (x_source x) (x_fails x) (x_state x) (buffer_add (x_buffer x) o)) p (Some o)))
    (w_wire w) (w_conn w) (w_recv w) (S (w_next w)).

(** Second half, executor.rs:204 (and :259 for repeated responses): [tx.send].  If the
    client is gone the response is either lost on the way or refused; a refused response
    ends the task (executor.rs:369). *)
Definition send (g : bool) (x : context) (p : pc) (o : output) (refused : bool) (w : world) : world :=
  if w_conn w then World (Run g (Active x p None)) (w_wire w ++ [o]) (w_conn w) (w_recv w) (w_next w)
  else if refused then set_state (Run g (Paused x)) w
  else set_state (Run g (Active x p None)) w.

Definition with_source (x : context) (s : list (list nat)) : context := Context s (x_fails x) (x_state x) (x_buffer x).
Definition with_state (x : context) (s : tstate) : context := Context (x_source x) (x_fails x) s (x_buffer x).
Definition with_buffer (x : context) (b : list output) : context := Context (x_source x) (x_fails x) (x_state x) b.

(** executor.rs:248-357 [run_internal], :359-380 [run]: one step of the task.  [late]:
    the heartbeat interval passes before the stream yields (executor.rs:186-191). *)
Definition task_step (g : bool) (x : context) (p : pc) (pending : option output) (late refused : bool) (w : world) : world :=
  match pending with
  | Some o => send g x p o refused w
  | None =>
    match p with
    | PResend (o :: l) => send g x (PResend l) o refused w
    | PResend [] => set_state (Run g (Active x (match x_state x with TQuery => PSchema | _ => PLoop true end) None)) w
    | PSchema => emit g x (PLoop true) BSchema w
    | PLoop empty =>
      if late then emit g x (PLoop empty) BHeartbeat w
      else match x_source x with
      | rows :: s =>
        match x_state x with
        | TQuery => emit g (with_source x s) (PLoop false) (BRows rows) w
        | TCommand bs f => set_state (Run g (Active (with_state (with_source x s) (TCommand (bs ++ [rows]) f)) (PLoop empty) None)) w
        end
      | [] =>
        if x_fails x then set_state (Run g TaskFailed) w
        else set_state (Run g (Active x (PAfter empty) None)) w
      end
    | PAfter empty =>
      match x_state x with
      | TQuery => if empty then emit g x PFinish (BRows []) w else set_state (Run g (Active x PFinish None)) w
      | TCommand bs None => set_state (Run g (Active x PFinish None)) w
      | TCommand bs (Some f) =>
        match f bs with
        | Some r => emit g (with_state x (TCommand [] None)) PFinish (BResult r) w
        | None => set_state (Run g (Active (with_state x (TCommand [] None)) PFinish None)) w
        end
      end
    | PFinish => emit g x PEnd BComplete w
    | PEnd => set_state (Run g Completed) w
    end
  end.

(** executor.rs:452-463 [release] *)
Definition release (id : nat) (e : estate) : estate :=
  match e with
  | Run false (Active x p o) => Run false (Active (with_buffer x (remove_until id (x_buffer x))) p o)
  | Run false (Paused x) => Run false (Paused (with_buffer x (remove_until id (x_buffer x))))
  | Pending x => Pending (with_buffer x (remove_until id (x_buffer x)))
  | _ => e
  end.

(** The id of the last of the first [n] responses. *)
Definition last_id (n : nat) (l : list output) : option nat := match n with 0 => None | S k => option_map o_id (nth_error l k) end.
Definition release_last (n : nat) (w : world) : world :=
  match last_id n (w_recv w) with Some id => set_state (release id (w_state w)) w | None => w end.

(** What can happen.
    - [TaskStep late refused]: the task goes on.
    - [Receive]: the client gets the next response.
    - [Disconnect]: the client loses the stream it reads and what is on its way.
    - [Release n]: plan_executor.rs:626-644 [handle_release_execute] for the last of the
      first [n] responses the client has received.
    - [Pause], [PauseEnd], [PauseDropped]: executor.rs:428-450 [pause_if_running] up to
      the [await], after it, and dropped while it waits.
    - [Start n heard]: plan_executor.rs:600-624 [handle_reattach_execute] after the
      pause: the client gives the last of the first [n] responses it has received.
      [heard]: the client is reading the new stream (then it has received nothing since
      it sent the request). *)
Inductive op :=
  | TaskStep (late refused : bool) | Receive | Disconnect | Release (n : nat)
  | Pause | PauseEnd | PauseDropped | Start (n : nat) (heard : bool).

(** executor.rs:382-426 [start] *)
Definition start (heard : bool) (w : world) : world :=
  match w_state w with
  | Pending x =>
    let t := Active x (PResend (x_buffer x)) None in
    if heard then World (Run false t) [] true (w_recv w) (w_next w)
    else World (Run false t) (w_wire w) false (w_recv w) (w_next w)
  | _ => if heard then World (w_state w) [] false (w_recv w) (w_next w) else w
  end.

Definition step (w : world) (a : op) : world :=
  match a with
  | TaskStep late refused =>
    match w_state w with
    | Run g (Active x p pending) => task_step g x p pending late refused w
    | _ => w
    end
  | Receive =>
    match w_wire w with
    | o :: l => World (w_state w) l (w_conn w) (w_recv w ++ [o]) (w_next w)
    | [] => w
    end
  | Disconnect => World (w_state w) [] false (w_recv w) (w_next w)
  | Release n => if n <=? length (w_recv w) then release_last n w else w
  | Pause => match w_state w with Run false t => set_state (Run true t) w | _ => w end
  | PauseEnd =>
    match w_state w with
    | Run true (Active x _ _) | Run true (Paused x) => World (Pending x) (w_wire w) false (w_recv w) (w_next w)
    | Run true Completed => World Idle (w_wire w) false (w_recv w) (w_next w)
    | Run true TaskFailed => World Failed (w_wire w) false (w_recv w) (w_next w)
    | _ => w
    end
  | PauseDropped =>
    match w_state w with
    | Run true _ => World Abandoned (w_wire w) false (w_recv w) (w_next w)
    | _ => w
    end
  | Start n heard =>
    if (n <=? length (w_recv w)) && (negb heard || (n =? length (w_recv w)))
    then start heard (release_last n w) else w
  end.
Definition run (w : world) (l : list op) : world := fold_left step l w.
