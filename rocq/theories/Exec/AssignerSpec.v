(** What the task assigner is supposed to do, told from the sequence of calls made
    to it and the launches it answered, without its slots or tables. *)
From stdpp Require Import prelude list.
From Verif.Exec Require Import GraphModel AssignerModel.

(** A history as seen from outside: each call with the launches it answered. *)
Definition event := (a_op * list (task_set * place))%type.

(** The task keys a call puts in the waiting queue. *)
Definition region_keys (r : region) : list key := flat_map (fun ps => set_tasks ps.2) r.
Definition op_keys (op : a_op) : list key :=
  match op with AEnqueue r => region_keys r | _ => [] end.
(** Every task attempt is enqueued at most once. *)
Definition fresh_keys (ops : list a_op) : Prop := NoDup (flat_map op_keys ops).

(** The task sets on workers: launched, not all of their tasks reported finished,
    and their worker not given up.  An entry is worker, slot, unfinished tasks. *)
Definition live_set := (nat * nat * list key)%type.
Definition unfinished (x : live_set) : Prop := x.2 <> [].
Global Instance unfinished_dec x : Decision (unfinished x).
Proof. unfold unfinished. solve_decision. Defined.
Definition launched_on_worker (x : task_set * place) : option live_set :=
  match x.2 with ToWorker w n => Some (w, n, set_tasks x.1) | ToDriver => None end.
Definition live_step (l : list live_set) (e : event) : list live_set :=
  filter unfinished
    match e.1 with
    | ARun => l ++ omap launched_on_worker e.2
    | AUnassign k => map (fun x => (x.1, filter (fun k' => k' <> k) x.2)) l
    | ADeactivate w => filter (fun x => x.1.1 <> w) l
    | _ => l
    end.
Definition live_sets (es : list event) : list live_set := foldl live_step [] es.

(** The locally kept streams a worker still has to serve: those of launched tasks,
    until their job or stage is cleaned up or the worker given up. *)
Definition stream_of (x : task_set * place) : list (nat * key) :=
  match x.2 with
  | ToWorker w _ => map (pair w) (set_streams OLocal x.1)
  | ToDriver => []
  end.
Definition cleaned (job : nat) (stage : option nat) (k : key) : Prop :=
  k_job k = job /\ match stage with Some s => k_stage k = s | None => True end.
Global Instance cleaned_dec job stage k : Decision (cleaned job stage k).
Proof. unfold cleaned. destruct stage; solve_decision. Defined.
Definition stream_step (l : list (nat * key)) (e : event) : list (nat * key) :=
  match e.1 with
  | ARun => l ++ flat_map stream_of e.2
  | AUntrack job stage => filter (fun x => ~ cleaned job stage x.2) l
  | ADeactivate w => filter (fun x => x.1 <> w) l
  | _ => l
  end.
Definition held_streams (es : list event) : list (nat * key) := foldl stream_step [] es.

(** A slot that can take a task set: an existing, empty slot of an active worker. *)
Definition slot_free (a : assigner) (w n : nat) : Prop :=
  exists sl st, (w, Active sl st) ∈ a_workers a /\ sl !! n = Some [].
Definition all_free (a : assigner) : nat := sum_list_with (fun ix => vacant_slots ix.2) (a_workers a).

Definition worker_place (x : task_set * place) : option (nat * nat) :=
  match x.2 with ToWorker w n => Some (w, n) | ToDriver => None end.

(** The history of a run of the assigner. *)
Fixpoint a_history (o : a_options) (a : assigner) (ops : list a_op) : list event :=
  match ops with
  | [] => []
  | op :: r => let '(a', outs) := a_step o a op in (op, outs) :: a_history o a' r
  end.
Definition history (o : a_options) (ops : list a_op) : list event := a_history o a_new ops.

(** The task sets a call puts in the waiting queue, and those a history launched. *)
Definition op_sets (op : a_op) : list task_set :=
  match op with AEnqueue r => map snd r | _ => [] end.
Definition launched (es : list event) : list task_set := flat_map (fun e => map fst e.2) es.
Definition waiting (a : assigner) : list task_set := flat_map (map snd) (a_queue a).

(** Workers that run or are being started. *)
Definition workers_in (st : w_state) (d : driver) : nat :=
  length (filter (fun ix => ix.2 = st) (d_pool d)).
Definition workers_up (d : driver) : nat := workers_in WPending d + workers_in WRunning d.
