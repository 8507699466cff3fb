(** The session manager: sessions, drivers, activity and idle probes. *)
From Coq Require Import Lia.
From stdpp Require Import prelude list gmap.

(** ServerSessionState (crates/sail-session/src/session_manager/session.rs:8-15).  A context is
    known by a number; the time of last activity lives in the context (ActivityTracker,
    crates/sail-common-datafusion/src/session/activity.rs:8-42).  [s_user] is the user the context
    was created for. *)
Inductive session :=
| Running (context : nat) (user : nat) (driver : option nat) (active_at : nat)
| Deleted
| Failed.

(** A delayed ProbeIdleSession message. *)
Record probe := Probe { p_due : nat; p_session : nat; p_instant : nat }.

(** SessionManagerActor (session_manager/actor/mod.rs:15-26).  [clock] is the time, [probes] the
    delayed messages that have not been handled, [busy] the sessions with a query that runs (the
    actor does not know them). *)
Record state := State {
  sessions : gmap nat session;
  drivers : gset nat;
  next_driver : nat;
  next_context : nat;
  clock : nat;
  probes : list probe;
  busy : list nat;
}.
Definition init : state := State ∅ ∅ 1 0 0 [] [].

(** What the job runner factory gives: an error, a local runner, or a runner with a driver. *)
Inductive runner := RunnerError | LocalRunner | ClusterRunner.

Inductive op :=
| Request (sid user : nat) (r : runner) (factory_ok : bool)
| Tick (d : nat)
| HandleProbe (i : nat)
| DeleteSession (sid : nat)
| SetFailure (sid : nat)
| QueryStarts (sid : nat)
| QueryEnds (sid : nat).

Inductive out := Context (c : nat) | Error | Done.

Definition set_session (st : state) (sid : nat) (s : session) : state :=
  State (<[sid := s]> (sessions st)) (drivers st) (next_driver st) (next_context st) (clock st)
        (probes st) (busy st).
Definition set_drivers (st : state) (d : gset nat) : state :=
  State (sessions st) d (next_driver st) (next_context st) (clock st) (probes st) (busy st).
Definition remove_driver (st : state) (d : option nat) : state :=
  match d with Some d => set_drivers st (drivers st ∖ {[d]}) | None => st end.

(** The success path at the end of handle_get_or_create_session (handler.rs:165-178): the
    activity is recorded and a probe is sent to be handled after the timeout. *)
Definition touch (timeout : nat) (st : state) (sid : nat) : state :=
  match sessions st !! sid with
  | Some (Running c u d _) =>
      State (<[sid := Running c u d (clock st)]> (sessions st)) (drivers st) (next_driver st)
            (next_context st) (clock st)
            (probes st ++ [Probe (clock st + timeout) sid (clock st)]) (busy st)
  | _ => st
  end.

(** Creating a session (handler.rs:48-163).  The id generator and the registry cannot fail here:
    ids are not reused and the counter has 64 bits. *)
Definition create (st : state) (sid user : nat) (r : runner) (factory_ok : bool) : state * out :=
  let d := next_driver st in
  let st1 := State (sessions st) (drivers st) (S d) (next_context st) (clock st) (probes st) (busy st) in
  match r with
  | RunnerError => (st1, Error)
  | _ =>
    let registered := match r with ClusterRunner => Some d | _ => None end in
    let st2 := match registered with
               | Some d => set_drivers st1 (drivers st1 ∪ {[d]})
               | None => st1
               end in
    if factory_ok then
      let c := next_context st2 in
      let st3 := State (<[sid := Running c user registered (clock st2)]> (sessions st2))
                       (drivers st2) (next_driver st2) (S c) (clock st2) (probes st2) (busy st2) in
      (st3, Context c)
    else (set_session (remove_driver st2 registered) sid Failed, Error)
  end.

(** handle_get_or_create_session (handler.rs:34-180). The user of the request is not compared
    with the user of the session. *)
Definition request (timeout : nat) (st : state) (sid user : nat) (r : runner) (factory_ok : bool)
  : state * out :=
  match sessions st !! sid with
  | Some (Running c _ _ _) => (touch timeout st sid, Context c)
  | Some _ => (st, Error)
  | None =>
    match create st sid user r factory_ok with
    | (st', Context c) => (touch timeout st' sid, Context c)
    | (st', o) => (st', o)
    end
  end.

(** handle_probe_idle_session (handler.rs:182-210), for the [i]-th delayed message once it is due. *)
Definition handle_probe (st : state) (i : nat) : state :=
  match probes st !! i with
  | None => st
  | Some p =>
    if decide (clock st < p_due p) then st
    else
      let st1 := State (sessions st) (drivers st) (next_driver st) (next_context st) (clock st)
                       (take i (probes st) ++ drop (S i) (probes st)) (busy st) in
      match sessions st1 !! p_session p with
      | Some (Running c u d active_at) =>
          if decide (active_at <= p_instant p) then
            set_session (remove_driver st1 d) (p_session p) Deleted
          else st1
      | _ => st1
      end
  end.

(** handle_delete_session (handler.rs:212-246) *)
Definition delete_session (st : state) (sid : nat) : state * out :=
  match sessions st !! sid with
  | Some (Running c u d _) => (set_session (remove_driver st d) sid Deleted, Done)
  | _ => (st, Error)
  end.

(** handle_set_session_failure (handler.rs:248-278) *)
Definition set_failure (st : state) (sid : nat) : state :=
  match sessions st !! sid with
  | None => st
  | Some (Running c u d _) => set_session (remove_driver st d) sid Failed
  | Some _ => set_session st sid Failed
  end.

Definition step (timeout : nat) (st : state) (o : op) : state * out :=
  match o with
  | Request sid user r ok => request timeout st sid user r ok
  | Tick d => (State (sessions st) (drivers st) (next_driver st) (next_context st) (clock st + d)
                     (probes st) (busy st), Done)
  | HandleProbe i => (handle_probe st i, Done)
  | DeleteSession sid => delete_session st sid
  | SetFailure sid => (set_failure st sid, Done)
  | QueryStarts sid => (State (sessions st) (drivers st) (next_driver st) (next_context st)
                              (clock st) (probes st) (sid :: busy st), Done)
  | QueryEnds sid => (State (sessions st) (drivers st) (next_driver st) (next_context st)
                            (clock st) (probes st) (List.remove Nat.eq_dec sid (busy st)), Done)
  end.

(** A history: every operation with the state before it, its answer and the state after it. *)
Record entry := Entry { h_before : state; h_op : op; h_out : out; h_after : state }.
Fixpoint history (timeout : nat) (st : state) (ops : list op) : list entry :=
  match ops with
  | [] => []
  | o :: rest =>
    let '(st', r) := step timeout st o in Entry st o r st' :: history timeout st' rest
  end.
Fixpoint run (timeout : nat) (st : state) (ops : list op) : state :=
  match ops with
  | [] => st
  | o :: rest => run timeout (step timeout st o).1 rest
  end.
