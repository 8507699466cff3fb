(** C36: reattaching to an operation. *)
From Coq Require Import Lia.
From stdpp Require Import prelude list sorting.
From Verif.Connect Require Import ExecutorModel ExecutorSpec ExecutorProofs.

(** Whatever is lost on the way, whenever the client reattaches and releases responses,
    and however often: what it has received are the first results of the operation, in
    order, each once; when it is told that the operation is complete, it has them all;
    and the schema of a query comes first.  Provided that no response is dropped from a
    full buffer before the client has received it. *)
Theorem C36_results_partial : forall m source fails l,
  keeps_up (initial m source fails) l = true ->
  let r := w_recv (run (initial m source fails) l) in
  results r `prefix_of` expected m source /\
  (complete r = true -> results r = expected m source /\ fails = false) /\
  (m = MQuery -> match r with [] => True | o :: _ => o_body o = BSchema end).
Proof. exact received_results. Qed.
Print Assumptions C36_results_partial.

(** No response arrives twice or out of order, even if some are dropped. *)
Theorem C36_order : forall m source fails l,
  StronglySorted lt (map o_id (w_recv (run (initial m source fails) l))).
Proof. exact received_order. Qed.
Print Assumptions C36_order.

(** As long as the task has not ended, the client can still get everything. *)
Theorem C36_resume : forall m source l,
  keeps_up (initial m source false) l = true ->
  unfinished (w_state (run (initial m source false) l)) = true ->
  exists l', keeps_up (initial m source false) (l ++ l') = true /\
  complete (w_recv (run (initial m source false) (l ++ l'))) = true.
Proof. exact resume. Qed.
Print Assumptions C36_resume.

(** Two batches; the connection is lost while the second is on its way, and a heartbeat
    is sent in vain. *)
Definition query : world := initial MQuery [[1; 2]; [3]] false.
Definition tasks (n : nat) : list op := repeat (TaskStep false false) n.
Definition reattach (n : nat) : list op := [Pause; PauseEnd; Start n true].
Definition trip : list op :=
  Start 0 true :: tasks 5 ++ [Receive; Receive] ++ tasks 2 ++ [Disconnect; Release 1; TaskStep true false; TaskStep false true] ++ reattach 2 ++
  tasks 10 ++ repeat Receive 9.
Example trip_case : keeps_up query trip = true /\
  map o_body (w_recv (run query trip)) = [BSchema; BRows [1; 2]; BRows [3]; BHeartbeat; BSchema; BRows []; BComplete] /\
  expected MQuery [[1; 2]; [3]] = [RRows [1; 2]; RRows [3]].
Proof. by vm_compute. Qed.
(** A command whose result is lost with the connection. *)
Definition command : world := initial (MCommand (fun bs => Some (length bs))) [[1; 2]; [3]] false.
Definition command_trip : list op := Start 0 true :: tasks 6 ++ [Disconnect] ++ reattach 0 ++ tasks 8 ++ repeat Receive 5.
Example command_case : keeps_up command command_trip = true /\ map o_body (w_recv (run command command_trip)) = [BResult 2; BComplete].
Proof. by vm_compute. Qed.
Example resume_case : keeps_up query (Start 0 true :: tasks 9) = true /\ unfinished (w_state (run query (Start 0 true :: tasks 9))) = true.
Proof. by vm_compute. Qed.

(** A client that is more than 128 responses behind when it reattaches is not told that
    some are gone: it gets the rest and is told that the operation is complete. *)
Theorem C36_overflow_refuted : exists source l,
  let r := w_recv (run (initial MQuery source false) l) in
  complete r = true /\ ~ results r `prefix_of` expected MQuery source.
Proof.
  exists (map (fun n => [n]) (seq 0 140)), (Start 0 true :: tasks 20 ++ repeat Receive 3 ++ tasks 250 ++ [Disconnect] ++ reattach 3 ++ tasks 170 ++ repeat Receive 170).
  split; [by vm_compute|]. intros [k H]. apply (f_equal (fun l => l !! 2)) in H. vm_compute in H. discriminate.
Qed.
Print Assumptions C36_overflow_refuted.

(** A connection that is lost after the task has ended cannot be resumed, although the
    server has produced no more responses than it can keep. *)
Theorem C36_completed_refuted : exists source l,
  keeps_up (initial MQuery source false) l = true /\
  w_next (run (initial MQuery source false) l) <= capacity /\
  forall l', complete (w_recv (run (initial MQuery source false) (l ++ [Disconnect; Pause; PauseEnd] ++ l'))) = false.
Proof.
  exists [[1]], (Start 0 true :: tasks 10). split; [by vm_compute|]. split; [apply (bool_decide_unpack _); by vm_compute|].
  intros l'. unfold run. rewrite !fold_left_app. change (fold_left step l' ?w) with (run w l'). rewrite lost_forever; by vm_compute.
Qed.
Print Assumptions C36_completed_refuted.
Example completed_missing : results (w_recv (run (initial MQuery [[1]] false) (Start 0 true :: tasks 10))) = [] /\
  w_state (run (initial MQuery [[1]] false) (Start 0 true :: tasks 10)) = Run false Completed.
Proof. by vm_compute. Qed.

(** If the request that reattaches is dropped while it waits for the task to pause, no
    later request succeeds. *)
Theorem C36_dropped_refuted : exists source l,
  keeps_up (initial MQuery source false) l = true /\ unfinished (w_state (run (initial MQuery source false) l)) = true /\
  forall l', complete (w_recv (run (initial MQuery source false) (l ++ [Disconnect; Pause; PauseDropped] ++ l'))) = false.
Proof.
  exists [[1]], (Start 0 true :: tasks 2). split; [by vm_compute|]. split; [by vm_compute|].
  intros l'. unfold run. rewrite !fold_left_app. change (fold_left step l' ?w) with (run w l'). rewrite lost_forever; by vm_compute.
Qed.
Print Assumptions C36_dropped_refuted.
