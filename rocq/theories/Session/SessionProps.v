(** Property C63: sessions. *)
From Coq Require Import Lia.
From stdpp Require Import prelude list gmap.
From Verif.Session Require Import SessionModel SessionSpec SessionProofs.

(** Two answered requests get the same context exactly if they name the same session. *)
Theorem C63_one_context_per_session timeout ops i j e1 e2 s1 u1 r1 ok1 c1 s2 u2 r2 ok2 c2 :
  history timeout init ops !! i = Some e1 -> history timeout init ops !! j = Some e2 ->
  h_op e1 = Request s1 u1 r1 ok1 -> h_out e1 = Context c1 ->
  h_op e2 = Request s2 u2 r2 ok2 -> h_out e2 = Context c2 ->
  c1 = c2 <-> s1 = s2.
Proof. exact (same_context timeout ops i j e1 e2 s1 u1 r1 ok1 c1 s2 u2 r2 ok2 c2). Qed.
Print Assumptions C63_one_context_per_session.

Example C63_one_context_per_session_ex :
  map h_out (history 10 init [Request 7 1 ClusterRunner true; Request 8 1 LocalRunner true;
                              Tick 5; Request 7 1 RunnerError false]) =
  [Context 0; Context 1; Done; Context 0].
Proof. by vm_compute. Qed.

(** A session that is deleted or has failed stays so, and requests for it fail and change nothing. *)
Theorem C63_closed_for_good timeout ops1 ops2 sid u r ok :
  is_closed (run timeout init ops1) sid ->
  is_closed (run timeout init (ops1 ++ ops2)) sid /\
  step timeout (run timeout init (ops1 ++ ops2)) (Request sid u r ok) =
    (run timeout init (ops1 ++ ops2), Error).
Proof.
  intros Hc. assert (is_closed (run timeout init (ops1 ++ ops2)) sid).
  { rewrite run_app. apply closed_run; [apply inv_run, inv_init|done]. }
  split; [done|]. by apply closed_request.
Qed.
Print Assumptions C63_closed_for_good.

Example C63_closed_for_good_ex :
  is_closed (run 10 init [Request 7 1 ClusterRunner true; DeleteSession 7]) 7 /\
  is_closed (run 10 init [Request 7 1 ClusterRunner false]) 7.
Proof. by split; [left|right]; vm_compute. Qed.

(** The idle check closes a session only when its last answered request is at least the timeout
    ago. *)
Theorem C63_no_early_close timeout ops i e k sid :
  history timeout init ops !! i = Some e -> h_op e = HandleProbe k -> removes e sid ->
  exists t, last_request sid (take i (history timeout init ops)) = Some t /\
    t + timeout <= clock (h_before e).
Proof. exact (idle_removed_late timeout ops i e k sid). Qed.
Print Assumptions C63_no_early_close.

Definition keep_alive : list op :=
  [Request 7 1 ClusterRunner true; Tick 8; Request 7 1 ClusterRunner true; Tick 4; HandleProbe 0;
   Tick 6; HandleProbe 0].
Example C63_no_early_close_ex :
  map (fun e => match sessions (h_after e) !! 7 with Some Deleted => true | _ => false end)
      (history 10 init keep_alive) = [false; false; false; false; false; false; true].
Proof. by vm_compute. Qed.

(** Every running session has a check pending that is due when the timeout after its last answered
    request is over, and that check closes it. *)
Theorem C63_idle_closed timeout ops sid :
  let st := run timeout init ops in
  is_running st sid ->
  exists t, last_request sid (history timeout init ops) = Some t /\ t <= clock st /\
    exists i p, probes st !! i = Some p /\ p_due p = t + timeout /\
      (t + timeout <= clock st -> is_closed (step timeout st (HandleProbe i)).1 sid).
Proof. exact (idle_pending timeout ops sid). Qed.
Print Assumptions C63_idle_closed.

Example C63_idle_closed_ex :
  is_running (run 10 init (take 6 keep_alive)) 7 /\
  last_request 7 (history 10 init (take 6 keep_alive)) = Some 8 /\
  clock (run 10 init (take 6 keep_alive)) = 18.
Proof. split_and!; [|by vm_compute..]. exists 0, 1, (Some 1), 8. by vm_compute. Qed.

(** The registered drivers are the drivers of the sessions that run, and no two sessions share one. *)
Theorem C63_drivers timeout ops :
  let st := run timeout init ops in
  (forall d, d ∈ drivers st <-> exists sid c u a, sessions st !! sid = Some (Running c u (Some d) a)) /\
  (forall s1 s2 c1 u1 a1 c2 u2 a2 d,
    sessions st !! s1 = Some (Running c1 u1 (Some d) a1) ->
    sessions st !! s2 = Some (Running c2 u2 (Some d) a2) -> s1 = s2).
Proof.
  intros st. assert (HI : inv timeout st) by apply inv_run, inv_init.
  split; [apply (inv_driver _ _ HI)|apply (inv_driver_inj _ _ HI)].
Qed.
Print Assumptions C63_drivers.

Example C63_drivers_ex :
  let st := run 10 init [Request 7 1 ClusterRunner true; Request 8 1 ClusterRunner true;
                         Request 9 1 ClusterRunner false; SetFailure 7] in
  sessions st !! 8 = Some (Running 1 1 (Some 2) 0) /\ elements (drivers st) = [2].
Proof. by vm_compute. Qed.

(** Not true: a session belongs to the user it was made for.  A request of user 2 that names
    session 7 of user 1 gets its context. *)
Theorem C63_user_refuted :
  exists timeout ops i j e1 e2 sid u1 u2 r1 r2 ok1 ok2 c,
    history timeout init ops !! i = Some e1 /\ history timeout init ops !! j = Some e2 /\
    h_op e1 = Request sid u1 r1 ok1 /\ h_op e2 = Request sid u2 r2 ok2 /\ u1 <> u2 /\
    h_out e1 = Context c /\ h_out e2 = Context c.
Proof.
  exists 10, [Request 7 1 LocalRunner true; Request 7 2 LocalRunner true], 0, 1.
  eexists _, _, 7, 1, 2, _, _, _, _, 0. split_and!; by vm_compute.
Qed.
Print Assumptions C63_user_refuted.

(** Not true: a session with a query that runs is not closed as idle.  Only requests for the
    session count as activity; a query that runs longer than the timeout does not. *)
Theorem C63_running_query_refuted :
  exists timeout ops i e k sid,
    history timeout init ops !! i = Some e /\ h_op e = HandleProbe k /\ removes e sid /\
    sid ∈ busy (h_before e).
Proof.
  exists 10, [Request 7 1 ClusterRunner true; QueryStarts 7; Tick 10; HandleProbe 0], 3.
  eexists _, 0, 7. split_and!; [by vm_compute|by vm_compute| |by apply elem_of_list_here].
  split; [by exists 0, 1, (Some 1), 0|]. intros (c & u & d & a & H). by vm_compute in H.
Qed.
Print Assumptions C63_running_query_refuted.

(** Not true: a session that a user deleted is reported as deleted.  A late failure report of its
    driver relabels it. *)
Theorem C63_deleted_refuted :
  exists timeout ops sid,
    sessions (run timeout init ops) !! sid = Some Deleted /\
    sessions (step timeout (run timeout init ops) (SetFailure sid)).1 !! sid = Some Failed.
Proof. exists 10, [Request 7 1 ClusterRunner true; DeleteSession 7], 7. by vm_compute. Qed.
Print Assumptions C63_deleted_refuted.
