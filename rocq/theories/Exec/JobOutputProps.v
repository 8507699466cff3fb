(** * C13: a job's result has every final task's output exactly once *)
From stdpp Require Import prelude list.
From Coq Require Import Lia.
From Verif.Exec Require Import TaskStateModel GraphModel GraphSpec GraphProps JobModel JobSpec JobProps JobOutputModel JobOutputSpec JobOutputProofs.

(** What is missing for the full property is that a replacement always arrives in
    time; the two [_refuted] theorems below show that it does not. *)
Theorem C13_each_slot_exactly_once_partial :
  forall {A} (es : list (out_event A)),
    closed_last es -> retries_in_time es -> clean_end es ->
    forall x, received_for x (out_run out_init es).2 = expected_for x es.
Proof. exact @exactly_once. Qed.
Print Assumptions C13_each_slot_exactly_once_partial.

Theorem C13_all_rows_exactly_once_partial :
  forall {A} (es : list (out_event A)),
    closed_last es -> retries_in_time es -> clean_end es ->
    all_received (out_run out_init es).2
      ≡ₚ flat_map (fun x => expected_for x es) (remove_dups (slots es)).
Proof. exact @all_rows. Qed.
Print Assumptions C13_all_rows_exactly_once_partial.

(** Without retries the property holds as stated. *)
Theorem C13_exactly_once_without_retry :
  forall {A} (es : list (out_event A)),
    closed_last es -> no_retry es -> clean_end es ->
    all_received (out_run out_init es).2 ≡ₚ flat_map (fun x => expected_for x es) (slots es).
Proof. exact @all_rows_no_retry. Qed.
Print Assumptions C13_exactly_once_without_retry.

(** A replacement that arrives while the earlier attempt has already delivered rows
    and is still being read stops the output with an error. *)
Theorem C13_late_replacement_is_an_error :
  forall {A} (es : list (out_event A)) k c es',
    closed_last (es ++ [EStream k c]) -> retries_in_time es ->
    RError ∉ (out_run out_init es).2 ->
    received_for (slot_of k) (out_run out_init es).2 <> [] ->
    received_for (slot_of k) (out_run out_init es).2 <> expected_for (slot_of k) es ->
    RError ∈ (out_run out_init (es ++ EStream k c :: es')).2 /\
    forall x, received_for x (out_run out_init (es ++ EStream k c :: es')).2
            = received_for x (out_run out_init es).2.
Proof. exact @late_replacement. Qed.
Print Assumptions C13_late_replacement_is_an_error.

Definition key (p a : nat) : stream_key := StreamKey (TaskKey 3 p a) 0.

(** Two final tasks; the first attempt of one of them is replaced before any of its
    rows has been read. *)
Definition replaced_in_time : list (out_event nat) :=
  [EStream (key 0 0) [Batch [1]; Batch [2]]; EStream (key 1 0) [Batch [7]; Fault];
   EPoll 0; EStream (key 1 1) [Batch [8; 9]]; EPoll 1; EPoll 1; EPoll 0; EClose; EPoll 1; EPoll 0; EPoll 0; EFinish].
Example C13_replaced_in_time :
  closed_last replaced_in_time /\ retries_in_time replaced_in_time /\ clean_end replaced_in_time /\
  all_received (out_run out_init replaced_in_time).2 = [1; 8; 9; 2].
Proof.
  split_and!.
  - intros es1 es2 H. do 12 (destruct es1 as [|? es1]; [cbn in H; first [discriminate|by injection H as <-]|injection H as <- H]); by destruct es1.
  - intros es1 k c es2 H.
    do 12 (destruct es1 as [|? es1];
      [cbn in H; first [discriminate|injection H as <- <- <-; cbn; intros c0 Hc0; first [discriminate|injection Hc0 as <-; by right]]
      |injection H as <- H]).
    by destruct es1.
  - split; [done|]. vm_compute. set_solver.
  - done.
Qed.

(** The same with the replacement arriving after the first row: an error. *)
Example C13_late_replacement :
  RError ∈ (out_run out_init [EStream (key 1 0) [Batch [7]; Batch [8]]; EPoll 0; EStream (key 1 1) [Batch [7; 8]]]).2.
Proof. vm_compute. set_solver. Qed.

(** The property is false once an attempt whose output has been read to its end is
    replaced: its rows come twice and the result ends normally. *)
Theorem C13_each_slot_exactly_once_refuted :
  exists (es : list (out_event nat)) x,
    closed_last es /\ clean_end es /\
    received_for x (out_run out_init es).2 = expected_for x es ++ expected_for x es /\
    expected_for x es <> [].
Proof.
  exists [EStream (key 0 0) [Batch [1; 2]]; EPoll 0; EPoll 0; EStream (key 0 1) [Batch [1; 2]];
    EPoll 0; EPoll 0; EClose; EFinish], (3, 0, 0).
  split_and!; try done.
  - intros es1 es2 H. do 8 (destruct es1 as [|? es1]; [cbn in H; first [discriminate|by injection H as <-]|injection H as <- H]); by destruct es1.
  - split; [done|]. vm_compute. set_solver.
Qed.
Print Assumptions C13_each_slot_exactly_once_refuted.

(** And the scheduler does ask for such a replacement: task (3,0) succeeds and its
    output is handed over; then (3,1) fails, both run again, and the output of the
    second attempt of (3,0) is handed over too, in a job that succeeds. *)
Definition replaced_after_success : list job_op :=
  take 11 premature_removal ++
  [ok 3 0 0; OpRefresh; OpUpdate (TaskKey 3 1 0) TFailed (Some 7); OpRefresh;
   ok 2 0 1; ok 2 1 1; ok 2 2 1; ok 3 0 1; ok 3 1 1; OpRefresh; OpRefresh; OpCleanUp].
Theorem C13_output_handed_over_twice_refuted :
  exists max g j0 ops1 ops2 c,
    topological g /\ planner_shaped g /\ new_job g = Some j0 /\
    newest (run_job max j0 ops1) (3, 0) TSucceeded /\
    ExtendJobOutput (StreamKey (TaskKey 3 0 0) c) ∈ run_actions max j0 ops1 /\
    ExtendJobOutput (StreamKey (TaskKey 3 0 1) c) ∈ run_actions max (run_job max j0 ops1) ops2 /\
    jb_state (run_job max j0 (ops1 ++ ops2)) = JSucceeded.
Proof.
  destruct (new_job storage_job) as [j0|] eqn:E; [|by vm_compute in E].
  exists 3, storage_job, j0, (take 13 replaced_after_success), (drop 13 replaced_after_success), 0.
  destruct C07_storage_job_hypotheses as [H1 H2].
  injection E as <-. split_and!; try done.
  - apply JobInvariants.last_state_newest. by vm_compute.
  - apply elem_of_list_In. vm_compute. repeat (first [left; reflexivity | right]).
  - apply elem_of_list_In. vm_compute. repeat (first [left; reflexivity | right]).
Qed.
Print Assumptions C13_output_handed_over_twice_refuted.
