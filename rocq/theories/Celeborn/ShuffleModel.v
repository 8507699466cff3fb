(** The Celeborn shuffle: clients of the task runners, the lifecycle manager of the driver, and the
    shuffle files of the workers, for one shuffle. *)
From Coq Require Import Lia.
From stdpp Require Import prelude list gmap.

(** A place where a partition is written: PartitionLocation (crates/sail-celeborn/src/common.rs:
    231-242), known by partition and epoch as in unique_id (:245-247).  Which worker owns the place
    does not matter here: the manager asks the master for one place per partition, and a
    replacement gets a new epoch.  Replicas are not modelled (sail registers shuffles without). *)
Notation loc := (nat * nat)%type.

(** A batch as it is stored: the header of push_data (protocol/transport.rs:284-288) and the
    payload.  [f_push] numbers the pushes of the history; the program does not have it. *)
Record frame := Frame {
  f_push : nat; f_part : nat; f_map : nat; f_attempt : nat; f_batch : nat; f_data : nat
}.
#[export] Instance frame_eq_dec : EqDecision frame.
Proof. solve_decision. Defined.

(** The state of a client that matters for one shuffle: [locations], [location_history] and
    [batch_ids] of ShuffleClientActor (shuffle/actor/core.rs). *)
Record client := Client {
  c_latest : gmap nat nat;
  c_history : list loc;
  c_batch : gmap (nat * nat) nat;
}.
Definition client0 : client := Client ∅ [] ∅.

(** Where a spawned push is (shuffle/actor/handler.rs:182-253): waiting for the first answer,
    waiting for the manager ([stored] if the answer was SoftSplit), waiting for the second answer,
    or about to send PushDataComplete with a new place and the result. *)
Inductive phase :=
| Pushing (l : loc)
| Reviving (l : loc) (stored : bool)
| Waiting (l : loc) (stored : bool)
| Retrying (l : loc)
| Completing (l : option loc) (ok : bool).
Record push := Push { p_client : nat; p_frame : frame; p_phase : phase }.

(** A reply of the lifecycle manager to register_shuffle that is on its way to a client: the places
    of the reservation when it was answered; [s_read] if it was asked for to read a partition. *)
Record reply := Reply { s_client : nat; s_read : option nat; s_locs : list loc }.

(** The commit of a shuffle: not begun, files are being committed on the workers (with the places
    to commit and the attempt that waits for the answer), failed, done. *)
Inductive commit :=
| NotYet
| Committing (ls : list loc) (waits : nat * nat)
| CommitFailed (ls : list loc)
| Committed (ls : list loc).

(** The manager (lifecycle/actor/mod.rs:45-62): [current] and [known] are primary_locations and the
    primary places of worker_locations of the reservation ([None] before the shuffle is
    registered; registered_shuffles holds the same places), [revives] is pending_revives,
    [attempts] is mapper_attempts.  The workers: what is [stored] at each place, and the places
    whose files are [closed] by a commit.  For the statements: [acked] batches whose push was
    answered with success, [broken] attempts that saw a failed push, [ends] and [ok_ends] the
    attempts that called mapper_end and that got an answer that it succeeded. *)
Record state := State {
  registered : bool;
  current : gmap nat nat;
  known : list loc;
  revives : gmap nat (list nat);
  attempts : list (option nat);
  com : commit;
  stored : list (loc * frame);
  closed : list loc;
  clients : gmap nat client;
  pushes : gmap nat push;
  replies : gmap nat reply;
  next : nat;
  acked : list frame;
  broken : list (nat * nat);
  ends : list (nat * nat);
  ok_ends : list (nat * nat);
}.
Definition init (mappers : nat) : state :=
  State false ∅ [] ∅ (replicate mappers None) NotYet [] [] ∅ ∅ ∅ 0 [] [] [] [].

(** What a worker answers to a push (transport.rs:298-311) or what the client sees instead:
    success (also under congestion), success because the mapper has ended (MapEnded), SoftSplit,
    another status, an I/O error or a timeout (push_failure_cause, handler.rs:479-486), or another
    error. *)
Inductive answer := AOk | AMapEnded | ASoftSplit | AFailure | AError.

Inductive op :=
| AskRegister (c : nat) (ok : bool)
| AskRead (c p : nat)
| ReplyArrives (i : nat)
| StartPush (c p m a d : nat)
| Answer (i : nat) (is_stored : bool) (ans : answer)
| AskRevive (i : nat)
| ReviveDone (p : nat) (ok : bool)
| PushCompletes (i : nat)
| MapperEnd (m a : nat)
| CloseFile (l : loc)
| CommitDone (ok : bool).

Inductive out := None' | Ok' | Err' | Batches (fs : list frame).

(** update_partition_location (shuffle/actor/handler.rs:458-476) *)
Fixpoint insert_by_epoch (l : loc) (h : list loc) : list loc :=
  match h with
  | [] => [l]
  | x :: rest => if decide (x.2 <= l.2) then x :: insert_by_epoch l rest else l :: x :: rest
  end.
(** The history is kept per partition in the program; here the places of all partitions are in one
    list, and a reader takes those of its partition. *)
Definition update_location (k : client) (l : loc) : client :=
  let history := if decide (l ∈ c_history k) then c_history k else insert_by_epoch l (c_history k) in
  let latest :=
    match c_latest k !! l.1 with
    | Some e => if decide (e <= l.2) then <[l.1 := l.2]> (c_latest k) else c_latest k
    | None => <[l.1 := l.2]> (c_latest k)
    end in
  Client latest history (c_batch k).
Definition client_of (st : state) (c : nat) : client := default client0 (clients st !! c).

Definition with_clients (st : state) (x : gmap nat client) : state :=
  State (registered st) (current st) (known st) (revives st) (attempts st) (com st) (stored st)
        (closed st) x (pushes st) (replies st) (next st) (acked st) (broken st) (ends st) (ok_ends st).
Definition with_pushes (st : state) (x : gmap nat push) : state :=
  State (registered st) (current st) (known st) (revives st) (attempts st) (com st) (stored st)
        (closed st) (clients st) x (replies st) (next st) (acked st) (broken st) (ends st) (ok_ends st).
Definition with_replies (st : state) (x : gmap nat reply) : state :=
  State (registered st) (current st) (known st) (revives st) (attempts st) (com st) (stored st)
        (closed st) (clients st) (pushes st) x (next st) (acked st) (broken st) (ends st) (ok_ends st).
Definition with_next (st : state) (x : nat) : state :=
  State (registered st) (current st) (known st) (revives st) (attempts st) (com st) (stored st)
        (closed st) (clients st) (pushes st) (replies st) x (acked st) (broken st) (ends st) (ok_ends st).
Definition with_stored (st : state) (x : list (loc * frame)) : state :=
  State (registered st) (current st) (known st) (revives st) (attempts st) (com st) x
        (closed st) (clients st) (pushes st) (replies st) (next st) (acked st) (broken st) (ends st) (ok_ends st).
Definition with_revives (st : state) (x : gmap nat (list nat)) : state :=
  State (registered st) (current st) (known st) x (attempts st) (com st) (stored st)
        (closed st) (clients st) (pushes st) (replies st) (next st) (acked st) (broken st) (ends st) (ok_ends st).
Definition with_places (st : state) (r : bool) (cur : gmap nat nat) (k : list loc) : state :=
  State r cur k (revives st) (attempts st) (com st) (stored st)
        (closed st) (clients st) (pushes st) (replies st) (next st) (acked st) (broken st) (ends st) (ok_ends st).
Definition with_commit (st : state) (x : commit) (cl : list loc) : state :=
  State (registered st) (current st) (known st) (revives st) (attempts st) x (stored st)
        cl (clients st) (pushes st) (replies st) (next st) (acked st) (broken st) (ends st) (ok_ends st).
Definition with_attempts (st : state) (x : list (option nat)) : state :=
  State (registered st) (current st) (known st) (revives st) x (com st) (stored st)
        (closed st) (clients st) (pushes st) (replies st) (next st) (acked st) (broken st) (ends st) (ok_ends st).
Definition with_log (st : state) (ack : list frame) (br en ok : list (nat * nat)) : state :=
  State (registered st) (current st) (known st) (revives st) (attempts st) (com st) (stored st)
        (closed st) (clients st) (pushes st) (replies st) (next st) ack br en ok.

Definition update_client (st : state) (c : nat) (ls : list loc) : state :=
  with_clients st (<[c := fold_left update_location ls (client_of st c)]> (clients st)).

(** handle_register_shuffle and handle_register_shuffle_complete of the manager
    (lifecycle/actor/handler.rs:97-197) in one step: the first request reserves a place with epoch 0
    for every channel (create_stream of crates/sail-execution/src/stream/celeborn/core.rs:61-87
    names them all; [ok] says if master and workers agree), later ones get the reservation. *)
Definition ask_register (channels : nat) (st : state) (c : nat) (ok : bool) : state * out :=
  if registered st then
    (with_next (with_replies st (<[next st := Reply c None (known st)]> (replies st))) (S (next st)), None')
  else if ok then
    let ls := map (fun p => (p, 0)) (seq 0 channels) in
    let st1 := with_places st true (list_to_map ls) ls in
    (with_next (with_replies st1 (<[next st := Reply c None ls]> (replies st1))) (S (next st)), None')
  else (st, Err').

(** handle_read_partition_stream (shuffle/actor/handler.rs:342-377) *)
Definition ask_read (st : state) (c p : nat) : state * out :=
  if decide (Exists (fun l => l.1 = p) (c_history (client_of st c))) then
    (with_next (with_replies st (<[next st := Reply c (Some p) (known st)]> (replies st))) (S (next st)), None')
  else (st, Err').

(** What is read from one place (worker/client.rs:220-284): the batches of the file, in the order
    in which they were stored; the header with map, attempt and batch number is dropped
    (take_batch, :515-540).  A place whose file is not committed cannot be opened. *)
Definition read_place (st : state) (l : loc) : option (list frame) :=
  if decide (l ∈ closed st) then
    Some (omap (fun x => if decide (x.1 = l) then Some x.2 else None) (stored st))
  else None.
Definition read_partition (st : state) (k : client) (p : nat) : option (list frame) :=
  option_map (@concat frame) (mapM (read_place st) (filter (fun l => l.1 = p) (c_history k))).

(** handle_register_shuffle_complete (shuffle/actor/handler.rs:132-154) and
    handle_read_partition_stream_complete (:379-449) of the client, and reading the stream to its
    end. *)
Definition reply_arrives (st : state) (i : nat) : state * out :=
  match replies st !! i with
  | None => (st, None')
  | Some r =>
    let st1 := with_replies st (delete i (replies st)) in
    match s_read r with
    | None => (update_client st1 (s_client r) (s_locs r), Ok')
    | Some p =>
      let st2 := update_client st1 (s_client r) (filter (fun l => l.1 = p) (s_locs r)) in
      match read_partition st2 (client_of st2 (s_client r)) p with
      | Some fs => (st2, Batches fs)
      | None => (st2, Err')
      end
    end
  end.

(** handle_push_data up to the spawn (shuffle/actor/handler.rs:156-181).  An attempt that has called
    mapper_end or has seen a failed push writes no more
    (crates/sail-execution/src/plan/shuffle_write.rs:236-256). *)
Definition start_push (st : state) (c p m a d : nat) : state * out :=
  if decide ((m, a) ∈ ends st \/ (m, a) ∈ broken st) then (st, None')
  else
    let k := client_of st c in
    match c_latest k !! p with
    | None => (with_log st (acked st) ((m, a) :: broken st) (ends st) (ok_ends st), Err')
    | Some e =>
      let b := default 0 (c_batch k !! (m, a)) in
      let k' := Client (c_latest k) (c_history k) (<[(m, a) := S b]> (c_batch k)) in
      let i := next st in
      let st1 := with_clients st (<[c := k']> (clients st)) in
      let st2 := with_pushes st1 (<[i := Push c (Frame i p m a b d) (Pushing (p, e))]> (pushes st1)) in
      (with_next st2 (S i), None')
    end.

Definition set_phase (st : state) (i : nat) (x : push) (ph : phase) : state :=
  with_pushes st (<[i := Push (p_client x) (p_frame x) ph]> (pushes st)).

(** The answer of the worker.  What the worker promises: success and SoftSplit mean that the batch
    is stored; MapEnded is answered, without storing, only when the file is closed by a commit;
    nothing is stored in a closed file.  Other answers say nothing about the batch. *)
Definition may_answer (st : state) (l : loc) (is_stored : bool) (ans : answer) : bool :=
  match ans with
  | AOk | ASoftSplit => is_stored && bool_decide (l ∉ closed st)
  | AMapEnded => negb is_stored && bool_decide (l ∈ closed st)
  | AFailure | AError => negb is_stored || bool_decide (l ∉ closed st)
  end.
(** handle_push_data, the spawned part (shuffle/actor/handler.rs:182-253) *)
Definition receive_answer (st : state) (i : nat) (is_stored : bool) (ans : answer) : state * out :=
  match pushes st !! i with
  | Some x =>
    match p_phase x with
    | Pushing l =>
      if may_answer st l is_stored ans then
        let st1 := if is_stored then with_stored st (stored st ++ [(l, p_frame x)]) else st in
        (set_phase st1 i x (match ans with
                            | AOk | AMapEnded => Completing None true
                            | ASoftSplit => Reviving l true
                            | AFailure => Reviving l false
                            | AError => Completing None false
                            end), None')
      else (st, None')
    | Retrying l =>
      if may_answer st l is_stored ans then
        let st1 := if is_stored then with_stored st (stored st ++ [(l, p_frame x)]) else st in
        (set_phase st1 i x (Completing (Some l) match ans with AOk | AMapEnded => true | _ => false end),
         None')
      else (st, None')
    | _ => (st, None')
    end
  | None => (st, None')
  end.

(** What the push does with the place it gets from revive. *)
Definition revived (l : loc) (is_stored : bool) : phase :=
  if is_stored then Completing (Some l) true else Retrying l.

(** handle_revive (lifecycle/actor/handler.rs:199-250); the list of excluded workers is not
    modelled. *)
Definition ask_revive (st : state) (i : nat) : state * out :=
  match pushes st !! i with
  | Some x =>
    match p_phase x with
    | Reviving l s =>
      match com st with
      | Committing _ _ | Committed _ => (set_phase st i x (Completing None false), None')
      | _ =>
        match current st !! l.1 with
        | None => (set_phase st i x (Completing None false), None')
        | Some e =>
          if decide (l.2 < e) then (set_phase st i x (revived (l.1, e) s), None')
          else if decide (e = l.2) then
            let waiting := default [] (revives st !! l.1) in
            (with_revives (set_phase st i x (Waiting l s)) (<[l.1 := waiting ++ [i]]> (revives st)), None')
          else (set_phase st i x (Completing None false), None')
        end
      end
    | _ => (st, None')
    end
  | None => (st, None')
  end.

Definition wake (answer : option loc) (x : push) : push :=
  match p_phase x with
  | Waiting _ s =>
      Push (p_client x) (p_frame x)
           (match answer with Some l => revived l s | None => Completing None false end)
  | _ => x
  end.
(** handle_revive_complete (lifecycle/actor/handler.rs:288-356): the replacement has the next epoch
    and is added to the places of the reservation. *)
Definition revive_done (st : state) (p : nat) (ok : bool) : state * out :=
  match revives st !! p, current st !! p with
  | Some waiting, Some e =>
    let st1 := with_revives st (delete p (revives st)) in
    let answer := if ok then Some (p, S e) else None in
    let st2 := if ok then with_places st1 (registered st1) (<[p := S e]> (current st1))
                                      (known st1 ++ [(p, S e)]) else st1 in
    (with_pushes st2 (fold_left (fun m i => alter (wake answer) i m) waiting (pushes st2)), None')
  | _, _ => (st, None')
  end.

(** handle_push_data_complete (shuffle/actor/handler.rs:255-269) *)
Definition push_completes (st : state) (i : nat) : state * out :=
  match pushes st !! i with
  | Some x =>
    match p_phase x with
    | Completing l ok =>
      let st1 := with_pushes st (delete i (pushes st)) in
      let st2 := match l with Some l => update_client st1 (p_client x) [l] | None => st1 end in
      let f := p_frame x in
      if ok then (with_log st2 (acked st2 ++ [f]) (broken st2) (ends st2) (ok_ends st2), Ok')
      else (with_log st2 (acked st2) ((f_map f, f_attempt f) :: broken st2) (ends st2) (ok_ends st2), Err')
    | _ => (st, None')
    end
  | None => (st, None')
  end.

(** handle_mapper_end (lifecycle/actor/handler.rs:394-497).  The task calls it after its last
    write has succeeded, and once. *)
Definition ready_to_end (st : state) (m a : nat) : bool :=
  bool_decide ((m, a) ∉ broken st) && bool_decide ((m, a) ∉ ends st) &&
  bool_decide (map_Forall (fun _ x => (f_map (p_frame x), f_attempt (p_frame x)) <> (m, a)) (pushes st)).
Definition end_ok (st : state) (m a : nat) : state * out :=
  (with_log st (acked st) (broken st) ((m, a) :: ends st) ((m, a) :: ok_ends st), Ok').
Definition end_err (st : state) (m a : nat) : state * out :=
  (with_log st (acked st) (broken st) ((m, a) :: ends st) (ok_ends st), Err').
Definition mapper_end (st : state) (m a : nat) : state * out :=
  if negb (ready_to_end st m a) then (st, None')
  else if decide (length (attempts st) <= m) then end_err st m a
  else
    match com st with
    | Committed _ => end_ok st m a
    | _ =>
      if registered st then
        match attempts st !! m with
        | Some (Some _) => end_ok st m a
        | _ =>
          let st1 := with_attempts st (<[m := Some a]> (attempts st)) in
          if decide (None ∈ attempts st1) then end_ok st1 m a
          else
            let st2 := with_commit st1 (Committing (known st1) (m, a)) (closed st1) in
            (with_log st2 (acked st2) (broken st2) ((m, a) :: ends st2) (ok_ends st2), None')
        end
      else end_err st m a
    end.

(** commit_files on the workers, place by place (lifecycle/actor/handler.rs:458-490), and
    handle_mapper_end_complete (:499-517). *)
Definition close_file (st : state) (l : loc) : state * out :=
  match com st with
  | Committing ls w =>
      if decide (l ∈ ls) then (with_commit st (com st) (l :: closed st), None') else (st, None')
  | _ => (st, None')
  end.
Definition commit_done (st : state) (ok : bool) : state * out :=
  match com st with
  | Committing ls w =>
    if ok then
      if decide (Forall (fun l => l ∈ closed st) ls) then
        let st1 := with_commit st (Committed ls) (closed st) in
        (with_log st1 (acked st1) (broken st1) (ends st1) (w :: ok_ends st1), Ok')
      else (st, None')
    else (with_commit st (CommitFailed ls) (closed st), Err')
  | _ => (st, None')
  end.

Definition step (channels : nat) (st : state) (o : op) : state * out :=
  match o with
  | AskRegister c ok => ask_register channels st c ok
  | AskRead c p => ask_read st c p
  | ReplyArrives i => reply_arrives st i
  | StartPush c p m a d => start_push st c p m a d
  | Answer i s ans => receive_answer st i s ans
  | AskRevive i => ask_revive st i
  | ReviveDone p ok => revive_done st p ok
  | PushCompletes i => push_completes st i
  | MapperEnd m a => mapper_end st m a
  | CloseFile l => close_file st l
  | CommitDone ok => commit_done st ok
  end.
Fixpoint run (channels : nat) (st : state) (ops : list op) : state :=
  match ops with
  | [] => st
  | o :: rest => run channels (step channels st o).1 rest
  end.
