(** DataFrame.repartition(n): dealing the rows of all inputs out to n outputs, one task for
    each input, a bounded channel for each output.
    Source: crates/sail-physical-plan/src/repartition.rs.
    Each step of a task up to the next await is one step here, and the steps of the tasks and
    of the readers interleave in any order.  Inputs always have their next item ready. *)
From stdpp Require Import prelude list numbers.
From Verif.Plan Require Import CoalesceModel.

Section model.
Context {A : Type}.

(** What an input yields, and what goes through a channel. *)
Inductive item := Rows (b : list A) | Fail.
Inductive message := Batch (b : list A) | Error.

(** ** Dealing out a batch *)
(** RowRoundRobinPartitioner::new (repartition.rs:37-53): where an input begins. *)
Definition first_output (n p inputs : nat) : nat := (p * n) / inputs.
(** repartition.rs:67-71: the row numbers for each output. *)
Definition indices (n next rows : nat) : list (list nat) :=
  foldl (fun v row => alter (fun l => l ++ [row]) ((next + row) mod n) v) (replicate n []) (seq 0 rows).
(** RowRoundRobinPartitioner::partition (repartition.rs:55-85) and partition_round_robin_batch
    (repartition.rs:248-259): the next output, and what goes to each output. *)
Definition partition (n next : nat) (b : list A) : nat * list (option (list A)) :=
  if length b =? 0 then (next, replicate n None)
  else if n =? 1 then (next, [Some b])
  else ((next + length b) mod n,
        map (fun l => match l with [] => None | _ => Some (omap (fun i => b !! i) l) end) (indices n next (length b))).

(** ** Tasks and channels *)
(** What a task does next: prune its senders and take an item; send the rest of a batch,
    beginning with output [k]; tell the outputs from [k] on about an error; nothing. *)
Inductive phase := PNext | PSend (k : nat) (rest : list (option (list A))) (active : nat) | PFail (k : nat) | PDone.
(** [t_senders] says which senders the task still has. *)
Record task := Task { t_input : list item; t_next : nat; t_senders : list bool; t_phase : phase }.
(** The messages in a channel with the inputs they come from, whether the reader is still
    there, and what it was given. *)
Record chan := Chan { c_queue : list (nat * message); c_open : bool; c_got : list (nat * message) }.
Record world := World { w_cap : nat; w_tasks : list task; w_chans : list chan }.

(** initialize_round_robin (repartition.rs:163-209) *)
Definition start (cap n : nat) (inputs : list (list item)) : world :=
  World cap
    (imap (fun i input => Task input (first_output n i (length inputs)) (replicate n true) PNext) inputs)
    (replicate n (Chan [] true [])).

Definition chan_open (w : world) (k : nat) : bool := from_option c_open false (w_chans w !! k).
Definition set_task (i : nat) (t : task) (w : world) : world := World (w_cap w) (<[i := t]> (w_tasks w)) (w_chans w).
Definition set_chan (k : nat) (c : chan) (w : world) : world := World (w_cap w) (w_tasks w) (<[k := c]> (w_chans w)).
(** prune_closed_round_robin_senders (repartition.rs:261-274) *)
Definition prune (w : world) (senders : list bool) : list bool := imap (fun k (s : bool) => s && chan_open w k) senders.
(** Sending waits until there is room; [None] while there is none. *)
Definition push (w : world) (i k : nat) (m : message) : option world :=
  c ← w_chans w !! k;
  if length (c_queue c) <? w_cap w then Some (set_chan k (Chan (c_queue c ++ [(i, m)]) (c_open c) (c_got c)) w)
  else None.

(** One step of the task of input [i]; [None] while it waits.
    execute_round_robin_input_partition (repartition.rs:323-391),
    send_round_robin_partitions (repartition.rs:276-309),
    broadcast_round_robin_error (repartition.rs:393-413). *)
Definition produce (w : world) (i : nat) : option world :=
  t ← w_tasks w !! i;
  let n := length (w_chans w) in
  let goto ph := Task (t_input t) (t_next t) (t_senders t) ph in
  let drop_sender k ph := Task (t_input t) (t_next t) (<[k := false]> (t_senders t)) ph in
  match t_phase t with
  | PNext =>
      let senders := prune w (t_senders t) in
      if existsb id senders then
        Some (set_task i match t_input t with
          | [] => Task [] (t_next t) senders PDone
          | Rows b :: input => let '(next, parts) := partition n (t_next t) b in Task input next senders (PSend 0 parts 0)
          | Fail :: input => Task input (t_next t) senders (PFail 0)
          end w)
      else Some (set_task i (Task (t_input t) (t_next t) senders PDone) w)
  | PSend k [] active => Some (set_task i (goto (if 0 <? active then PNext else PDone)) w)
  | PSend k (x :: rest) active =>
      if default false (t_senders t !! k) then
        if chan_open w k then
          match x with
          | None => Some (set_task i (goto (PSend (S k) rest (S active))) w)
          | Some b => w' ← push w i k (Batch b); Some (set_task i (goto (PSend (S k) rest (S active))) w')
          end
        else Some (set_task i (drop_sender k (PSend (S k) rest active)) w)
      else Some (set_task i (goto (PSend (S k) rest active)) w)
  | PFail k =>
      if n <=? k then Some (set_task i (goto PDone) w)
      else if default false (t_senders t !! k) then
        if chan_open w k then w' ← push w i k Error; Some (set_task i (goto (PFail (S k))) w')
        else Some (set_task i (drop_sender k (PFail (S k))) w)
      else Some (set_task i (goto (PFail (S k))) w)
  | PDone => None
  end.

(** The reader of output [k] takes the next message (RoundRobinReceiverStream::poll_next,
    repartition.rs:93-99); [None] while there is none. *)
Definition receive (w : world) (k : nat) : option world :=
  c ← w_chans w !! k;
  match c_queue c with
  | m :: q => if c_open c then Some (set_chan k (Chan q true (c_got c ++ [m])) w) else None
  | [] => None
  end.
(** The reader of output [k] goes away (repartition.rs:101-115). *)
Definition close (w : world) (k : nat) : option world :=
  c ← w_chans w !! k;
  if c_open c then Some (set_chan k (Chan [] false (c_got c)) w) else None.

(** The reader of output [k] is told that there is nothing more: the channel is empty and no
    task has a sender for it. *)
Definition has_sender (k : nat) (t : task) : bool :=
  match t_phase t with PDone => false | _ => default false (t_senders t !! k) end.
Definition ended (w : world) (k : nat) : bool :=
  match w_chans w !! k with
  | Some c => c_open c && bool_decide (length (c_queue c) = 0) && forallb (fun t => negb (has_sender k t)) (w_tasks w)
  | None => false
  end.

(** ** Runs *)
Inductive action := Produce (i : nat) | Receive (k : nat) | Close (k : nat).
Definition step (w : world) (a : action) : option world :=
  match a with Produce i => produce w i | Receive k => receive w k | Close k => close w k end.
Fixpoint run (w : world) (l : list action) : option world :=
  match l with [] => Some w | a :: l => w' ← step w a; run w' l end.

(** ** Readers that take one output after the other *)
(** CoalesceStream::poll_next (crates/sail-physical-plan/src/coalesce.rs:169-189) over the [n]
    outputs, for coalesce to [m]: an output is read when those before it in the same range have
    ended. *)
Definition in_turn (n m : nat) (w : world) (a : action) : bool :=
  match a with
  | Receive k =>
      forallb (fun p =>
        let '(first, last) := input_range p n m in
        negb ((first <=? k) && (k <? last)) || forallb (ended w) (seq first (k - first))) (seq 0 m)
  | _ => true
  end.
Fixpoint run_in_turn (n m : nat) (w : world) (l : list action) : option world :=
  match l with
  | [] => Some w
  | a :: l => if in_turn n m w a then w' ← step w a; run_in_turn n m w' l else None
  end.
End model.
Global Arguments item : clear implicits.
Global Arguments message : clear implicits.
Global Arguments world : clear implicits.
