(** Barriers between the preconditions of a plan and the plan, and overwriting the files of a table. *)
From stdpp Require Import prelude list gmap.

(** ** What plans do *)
(** Files are numbers, their contents lists of numbers.  [Command] stands for a catalog command and for
    any other action that does not touch the files; [Fail] for an action that fails by itself. *)
Inductive action := Delete (f : nat) | Write (f : nat) (rows : list nat) | Read (f : nat) | Command (n : nat) | Fail.
#[global] Instance action_eq_dec : EqDecision action.
Proof. solve_decision. Defined.
Notation store := (gmap nat (list nat)).
(** Reading a file that is not there fails (object_store's NotFound); deleting one does not (crates/sail-data-source/src/listing/delete.rs:90-97
    deletes what it has listed). *)
Definition perform (a : action) (s : store) : option store :=
  match a with
  | Delete f => Some (delete f s)
  | Write f rows => Some (<[f := rows]> s)
  | Read f => match s !! f with Some _ => Some s | None => None end
  | Command _ => Some s
  | Fail => None
  end.
(** The partitions of a physical plan, each with its actions. *)
Notation node := (list (list action)).

(** ** Matching the partitions *)
(** crates/sail-physical-optimizer/src/barrier.rs:40-84 [EnforceBarrierPartitioning::optimize], for a
    precondition with [k] partitions. *)
Inductive wrap := Direct | Coalesced | RoundRobin (n : nat).
Definition enforce (target k : nat) : wrap :=
  if (k =? 1) && (target =? 1) then Direct
  else if target =? 1 then Coalesced
  else RoundRobin target.

(** ** Execution *)
(** What is left to do for each partition of a precondition; [None] after a failure. *)
Record pre := Pre { how : wrap; todo_pre : list (option (list action)) }.
(** One partition of crates/sail-physical-plan/src/barrier.rs:96-131 [BarrierExec::execute]: how many
    streams of preconditions it has exhausted, what is left of the plan, and whether it has failed. *)
Record part := Part { waited : nat; todo : list action; broken : bool }.
Inductive event := OfPre (i j : nat) (a : action) | OfPlan (p : nat) (a : action).
#[global] Instance event_eq_dec : EqDecision event.
Proof. solve_decision. Defined.
Record state := State { files : store; pres : list pre; parts : list part; trace : list event }.

Definition start_with (w : nat -> nat -> wrap) (s : store) (ps : list node) (plan : node) : state :=
  State s (map (fun n => Pre (w (length plan) (length n)) (map Some n)) ps) (map (fun l => Part 0 l false) plan) [].
(** After the optimizer rule. *)
Definition start := start_with enforce.
(** Without the rule. *)
Definition start_unmatched := start_with (fun _ _ => Direct).

(** What partition [p] of a precondition's stream gives next: [Some true] at the end, [Some false] for an
    error, [None] while there is more to do.  A repartitioned or coalesced stream ends when all its input
    partitions have ended, and gets the errors of all of them (DataFusion's RepartitionExec and
    CoalescePartitionsExec; the batches themselves are discarded by the barrier and left out). *)
Definition is_done (o : option (list action)) : bool := match o with Some [] => true | _ => false end.
Definition is_failed (o : option (list action)) : bool := match o with None => true | _ => false end.
Definition ended (q : pre) (p : nat) : option bool :=
  match how q with
  | Direct =>
    match todo_pre q !! p with
    | None | Some None => Some false
    | Some (Some []) => Some true
    | Some (Some _) => None
    end
  | Coalesced | RoundRobin _ =>
    if existsb is_failed (todo_pre q) then Some false
    else if forallb is_done (todo_pre q) then Some true else None
  end.
(** Input partition [j] of precondition [i] can be running: a coalesced stream starts its inputs when it is
    created, a repartitioned one when one of its outputs is polled, any other one when it is polled itself.
    Partition [p] of the barrier polls stream [i] when it has exhausted the streams before. *)
Definition started (s : state) (i j : nat) (w : wrap) : bool :=
  match w with
  | Coalesced => true
  | RoundRobin _ => existsb (fun x => i <=? waited x) (parts s)
  | Direct => match parts s !! j with Some x => i <=? waited x | None => false end
  end.

Inductive op := RunPre (i j : nat) | Poll (p : nat).
Definition step (s : state) (o : op) : state :=
  match o with
  | RunPre i j =>
    match pres s !! i with
    | Some q =>
      match todo_pre q !! j with
      | Some (Some (a :: l)) =>
        if started s i j (how q) then
          match perform a (files s) with
          | Some f => State f (<[i := Pre (how q) (<[j := Some l]> (todo_pre q))]> (pres s)) (parts s) (trace s ++ [OfPre i j a])
          | None => State (files s) (<[i := Pre (how q) (<[j := None]> (todo_pre q))]> (pres s)) (parts s) (trace s)
          end
        else s
      | _ => s
      end
    | None => s
    end
  | Poll p =>
    match parts s !! p with
    | Some x =>
      if broken x then s
      else
        let put y := State (files s) (pres s) (<[p := y]> (parts s)) (trace s) in
        match pres s !! waited x with
        | Some q =>
          match ended q p with
          | Some true => put (Part (S (waited x)) (todo x) false)
          | Some false => put (Part (waited x) (todo x) true)
          | None => s
          end
        | None =>
          match todo x with
          | a :: l =>
            match perform a (files s) with
            | Some f => State f (pres s) (<[p := Part (waited x) l false]> (parts s)) (trace s ++ [OfPlan p a])
            | None => put (Part (waited x) (todo x) true)
            end
          | [] => s
          end
        end
    | None => s
    end
  end.
Definition run (s : state) (ops : list op) : state := foldl step s ops.
(** All partitions have delivered all their output. *)
Definition finished (s : state) : bool :=
  forallb (fun x => negb (broken x) && (length (pres s) <=? waited x) && match todo x with [] => true | _ => false end) (parts s).

(** ** Overwriting *)
(** crates/sail-data-source/src/listing/planner.rs:245-251 [plan_file_write] and delete.rs:75-104
    [FileDeleteExec::execute]: one partition deletes the files of the table, [old]; then the sink, which
    has one partition, writes.  The listing is taken before the first deletion. *)
Definition start_overwrite (s : store) (old : list nat) (sink : list action) : state :=
  start s [[map Delete old]] [sink].
