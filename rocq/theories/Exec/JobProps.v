(** Properties of the job scheduler: C02-C06 and C45-C48. *)
From stdpp Require Import prelude list.
From Verif.Exec Require Import TaskStateModel GraphModel GraphSpec GraphProps JobModel JobSpec.
From Verif.Exec Require Import JobProofs JobInvariants JobTheorems HandoverProofs.

(** * C02: attempts are bounded, and running out of them fails the job *)

Theorem C02_attempts_bounded :
  forall max g j t, 1 <= max -> reachable max g j -> length (attempts j t) <= max.
Proof. exact attempts_bounded. Qed.
Print Assumptions C02_attempts_bounded.

Theorem C02_last_attempt_failed_fails_job :
  forall max g j t,
    reachable max g j -> jb_state j = JRunning -> out_of_attempts max j t ->
    jb_state (refresh_job max j).1 = JFailed /\ exists c, FailJobOutput c ∈ (refresh_job max j).2.
Proof. exact exhausted_fails. Qed.
Print Assumptions C02_last_attempt_failed_fails_job.

Theorem C02_failed_task_is_retried :
  forall max g j t,
    reachable max g j -> jb_state j = JRunning -> newest j t TFailed ->
    jb_state (refresh_job max j).1 = JFailed \/
    (jb_state (refresh_job max j).1 = JRunning /\
     length (attempts (refresh_job max j).1 t) = S (length (attempts j t)) /\
     newest (refresh_job max j).1 t TCreated).
Proof. exact failed_is_retried. Qed.
Print Assumptions C02_failed_task_is_retried.

(** * C03: inputs first *)

Theorem C03_inputs_done_or_launched_together :
  forall max g j k t',
    reachable max g j -> launches (refresh_job max j).2 k ->
    reads g (tk_stage k, tk_partition k) t' ->
    newest j t' TSucceeded \/
    (together j (tk_stage k, tk_partition k) t' /\
     launches (refresh_job max j).2 (TaskKey t'.1 t'.2 (length (attempts j t')))).
Proof. exact launch_inputs. Qed.
Print Assumptions C03_inputs_done_or_launched_together.

Theorem C03_blocking_inputs_done :
  forall max g j k t',
    reachable max g j -> topological g -> planner_shaped g -> launches (refresh_job max j).2 k ->
    reads g (tk_stage k, tk_partition k) t' -> blocking g t'.1 -> newest j t' TSucceeded.
Proof. exact launch_blocking_inputs. Qed.
Print Assumptions C03_blocking_inputs_done.

(** * C04: one live attempt per task *)

Theorem C04_only_newest_attempt_live :
  forall max g j t i a,
    reachable max g j -> attempts j t !! i = Some a -> live a -> S i = length (attempts j t).
Proof.
  intros max g j t i a Hr Hi Hl. pose proof (ji_old _ _ _ (reachable_inv _ _ _ Hr) t i a Hi) as H.
  apply live_not_terminal in Hl. pose proof (lookup_lt_Some _ _ _ Hi).
  destruct (decide (S i < length (attempts j t))); [rewrite H in Hl; done|lia].
Qed.
Print Assumptions C04_only_newest_attempt_live.

Theorem C04_new_attempt_after_region_ended :
  forall max g j k t i a,
    reachable max g j -> launches (refresh_job max j).2 k ->
    together j (tk_stage k, tk_partition k) t ->
    attempts (refresh_job max j).1 t !! i = Some a -> i < length (attempts j t) -> ~ live a.
Proof. exact launch_after_end. Qed.
Print Assumptions C04_new_attempt_after_region_ended.

(** * C05: when a job ends *)

Theorem C05_finished_means_all_succeeded :
  forall max g j t,
    reachable max g j -> jb_state j = JDraining \/ jb_state j = JSucceeded ->
    is_task g t -> newest j t TSucceeded.
Proof.
  intros max g j t Hr Hs Ht. apply last_state_newest.
  exact (ji_done _ _ _ (reachable_inv _ _ _ Hr) Hs t Ht).
Qed.
Print Assumptions C05_finished_means_all_succeeded.

Theorem C05_failed_means_out_of_attempts :
  forall max g j, reachable max g j -> jb_state j = JFailed -> exists t, is_task g t /\ out_of_attempts max j t.
Proof. intros max g j Hr. exact (ji_failed _ _ _ (reachable_inv _ _ _ Hr)). Qed.
Print Assumptions C05_failed_means_out_of_attempts.

Theorem C05_all_succeeded_finishes :
  forall max g j,
    reachable max g j -> jb_state j = JRunning -> (forall t, is_task g t -> newest j t TSucceeded) ->
    jb_state (refresh_job max j).1 = JDraining.
Proof. exact all_succeeded_finishes. Qed.
Print Assumptions C05_all_succeeded_finishes.

(** The failure reported to the client is the most recent one of a task that has
    failed most often; there is none only if no task recorded a cause. *)
Theorem C05_reported_cause :
  forall max g j c,
    reachable max g j -> FailJobOutput c ∈ (refresh_job max j).2 ->
    let j' := (refresh_job max j).1 in
    jb_state j' = JFailed /\
    match c with
    | Some x => exists t, is_task g t /\ last (failures j' t) = Some x /\
        forall t', is_task g t' -> length (failures j' t') <= length (failures j' t)
    | None => forall t, is_task g t -> failures j' t = []
    end.
Proof. exact fail_output_cause. Qed.
Print Assumptions C05_reported_cause.

(** * C06: removal of intermediate data *)

Theorem C06_removed_exactly_when_consumers_succeeded :
  forall max g j s,
    reachable max g j -> jb_state j = JRunning ->
    (CleanUpJob (Some s) ∈ (refresh_job max j).2 <->
     stage_active j s = true /\ (exists c m, feeds g s m c) /\
     (forall c m p, feeds g s m c -> is_task g (c, p) -> newest j (c, p) TSucceeded)).
Proof. intros max g j s Hr. apply removal_iff. exact (ji_wf _ _ _ (reachable_inv _ _ _ Hr)). Qed.
Print Assumptions C06_removed_exactly_when_consumers_succeeded.

Theorem C06_removed_at_most_once :
  forall max g j0 ops, new_job g = Some j0 -> NoDup (removals (run_actions max j0 ops)).
Proof. exact removed_once. Qed.
Print Assumptions C06_removed_at_most_once.

(** The history used below: everything of the storage job succeeds except task
    (3,0), which fails after the data of stage 1 has been removed. *)
Definition ok (s p a : nat) : job_op := OpUpdate (TaskKey s p a) TSucceeded None.
Definition premature_removal : list job_op :=
  [OpRefresh; ok 0 0 0; ok 0 1 0; ok 1 0 0; ok 1 1 0; ok 1 2 0; OpRefresh;
   ok 2 0 0; ok 2 1 0; ok 2 2 0; OpRefresh;
   OpUpdate (TaskKey 3 0 0) TFailed (Some 7); OpRefresh].

(** "Nobody can need it" is false: the data of stage 1 is removed, and then task
    (2,0), which reads it, is launched again because its neighbour failed. *)
Theorem C06_nobody_needs_removed_data_refuted :
  exists max g j0 ops1 ops2 s k t',
    topological g /\ planner_shaped g /\ new_job g = Some j0 /\
    CleanUpJob (Some s) ∈ run_actions max j0 ops1 /\
    launches (run_actions max (run_job max j0 ops1) ops2) k /\
    reads g (tk_stage k, tk_partition k) t' /\ t'.1 = s.
Proof.
  destruct (new_job storage_job) as [j0|] eqn:E; [|by vm_compute in E].
  exists 3, storage_job, j0, (take 11 premature_removal), (drop 11 premature_removal), 1, (TaskKey 2 0 1), (1, 0).
  destruct C07_storage_job_hypotheses as [H1 H2].
  split_and!; try done.
  - injection E as <-. apply elem_of_list_In. vm_compute. tauto.
  - injection E as <-. unfold launches. eexists _, _, _, _.
    split; [|split].
    + apply elem_of_list_In. vm_compute. repeat (first [left; reflexivity | right]).
    + apply elem_of_list_In. vm_compute. left. reflexivity.
    + apply elem_of_list_In. vm_compute. left. reflexivity.
  - exists Forward. split; [|split; [|done]].
    + eexists. split; [reflexivity|]. by apply elem_of_list_singleton.
    + eexists. split; [reflexivity|]. vm_compute. lia.
Qed.
Print Assumptions C06_nobody_needs_removed_data_refuted.

(** * C13: which streams are handed to the client *)

(** Only outputs of stages nobody consumes, of existing tasks and channels. *)
Theorem C13_only_final_outputs_handed_over :
  forall max g j0 ops s p a c,
    new_job g = Some j0 -> ExtendJobOutput (StreamKey (TaskKey s p a) c) ∈ run_actions max j0 ops ->
    exists n, is_final g (s, p) n /\ c < n.
Proof. exact handed_final. Qed.
Print Assumptions C13_only_final_outputs_handed_over.

(** Only of the newest attempt, while it runs or after it succeeded. *)
Theorem C13_only_good_attempts_handed_over :
  forall max g j s p a c,
    reachable max g j -> ExtendJobOutput (StreamKey (TaskKey s p a) c) ∈ (refresh_job max j).2 ->
    S a = length (attempts j (s, p)) /\
    exists x, attempts (refresh_job max j).1 (s, p) !! a = Some x /\
      (at_state x = TRunning \/ at_state x = TSucceeded).
Proof. exact handed_newest. Qed.
Print Assumptions C13_only_good_attempts_handed_over.

(** No stream twice. *)
Theorem C13_no_stream_handed_over_twice :
  forall max g j0 ops, new_job g = Some j0 -> NoDup (handed (run_actions max j0 ops)).
Proof. exact handed_once. Qed.
Print Assumptions C13_no_stream_handed_over_twice.

(** None forgotten: after a refresh that finds the newest attempt of such a task
    running or succeeded, all its channels have been handed over. *)
Theorem C13_all_final_outputs_handed_over :
  forall max g j0 ops s p st a x c,
    new_job g = Some j0 -> jb_state (run_job max j0 ops) = JRunning ->
    g !! s = Some st -> (forall c m, ~ feeds g s m c) -> c < st_channels st ->
    S a = length (attempts (run_job max j0 ops) (s, p)) ->
    attempts (run_job max j0 (ops ++ [OpRefresh])) (s, p) !! a = Some x ->
    at_state x = TRunning \/ at_state x = TSucceeded ->
    ExtendJobOutput (StreamKey (TaskKey s p a) c) ∈ run_actions max j0 (ops ++ [OpRefresh]).
Proof. exact handed_all. Qed.
Print Assumptions C13_all_final_outputs_handed_over.

(** * C45: a running job always has something to wait for *)

Theorem C45_running_job_has_live_attempt :
  forall max g j,
    reachable max g j -> topological g -> planner_shaped g ->
    jb_state (refresh_job max j).1 = JRunning ->
    exists t, has_live_attempt (refresh_job max j).1 t.
Proof. exact progress. Qed.
Print Assumptions C45_running_job_has_live_attempt.

(** * C46: a failure stops the whole region and nothing else *)

Theorem C46_failure_stops_region :
  forall max g j t t' i a,
    reachable max g j -> jb_state j = JRunning -> newest j t TFailed -> together j t t' ->
    attempts j t' !! i = Some a -> live a ->
    (exists a', attempts (refresh_job max j).1 t' !! i = Some a' /\ at_state a' = TCanceled) /\
    CancelTask (TaskKey t'.1 t'.2 i) ∈ (refresh_job max j).2.
Proof. exact failure_stops_region. Qed.
Print Assumptions C46_failure_stops_region.

Theorem C46_only_failed_regions_are_stopped :
  forall max g j k,
    reachable max g j -> CancelTask k ∈ (refresh_job max j).2 ->
    exists t, newest j t TFailed /\ together j t (tk_stage k, tk_partition k) /\
      exists a, attempts j (tk_stage k, tk_partition k) !! tk_attempt k = Some a /\ live a.
Proof. exact cancel_only_failed_regions. Qed.
Print Assumptions C46_only_failed_regions_are_stopped.

(** * C47: what is launched *)

Theorem C47_whole_region_launched_once :
  forall max g j tr,
    reachable max g j -> ScheduleTaskRegion tr ∈ (refresh_job max j).2 ->
    exists rt, rt ∈ tp_regions (jb_topo j) /\
      NoDup (region_keys tr) /\
      (forall k, k ∈ region_keys tr <->
         exists t, t ∈ rt_tasks rt /\ k = TaskKey t.1 t.2 (length (attempts j t))) /\
      (forall t, t ∈ rt_tasks rt -> newest (refresh_job max j).1 t TCreated).
Proof. exact launch_exact. Qed.
Print Assumptions C47_whole_region_launched_once.

Theorem C47_task_sets_respect_stages :
  forall max g j tr p es k1 m1,
    reachable max g j -> ScheduleTaskRegion tr ∈ (refresh_job max j).2 -> (p, es) ∈ tr -> (k1, m1) ∈ es ->
    (exists st, g !! tk_stage k1 = Some st /\ p = st_placement st /\ m1 = st_mode st) /\
    (forall k2 m2, (k2, m2) ∈ es ->
       (tk_stage k1 = tk_stage k2 -> k1 = k2) /\
       (forall st1 st2, g !! tk_stage k1 = Some st1 -> g !! tk_stage k2 = Some st2 -> st_group st1 = st_group st2)).
Proof. exact launch_sets. Qed.
Print Assumptions C47_task_sets_respect_stages.

(** * C48: demand for slots *)

(** A launched region holding all partitions of its stages asks for at most one
    slot per task. *)
Theorem C48_whole_stage_regions_demand_partial :
  forall max g j tr,
    reachable max g j -> ScheduleTaskRegion tr ∈ (refresh_job max j).2 ->
    (forall k q, k ∈ region_keys tr -> is_task g (tk_stage k, q) ->
       exists a, TaskKey (tk_stage k) q a ∈ region_keys tr) ->
    length tr <= length (region_keys tr).
Proof. exact whole_region_demand. Qed.
Print Assumptions C48_whole_stage_regions_demand_partial.

(** A region with one task of a three-partition stage asks for three slots. *)
Definition sliced_job : graph := [ Stage [] 3 1 0 Blocking OnWorker ].
Theorem C48_one_slot_per_task_refuted :
  exists max g j tr,
    reachable max g j /\ ScheduleTaskRegion tr ∈ (refresh_job max j).2 /\
    length (region_keys tr) = 1 /\ length (filter (fun pe => pe.1 = OnWorker) tr) = 3.
Proof.
  destruct (new_job sliced_job) as [j0|] eqn:E; [|by vm_compute in E].
  exists 3, sliced_job, j0. eexists. split_and!.
  - exists j0, []. done.
  - injection E as <-. apply elem_of_list_In. vm_compute. left. reflexivity.
  - reflexivity.
  - reflexivity.
Qed.
Print Assumptions C48_one_slot_per_task_refuted.

(** * The hypotheses are met *)

Example C_job_example :
  exists j0, new_job storage_job = Some j0 /\
  let j1 := run_job 3 j0 (take 11 premature_removal) in
  let j2 := run_job 3 j0 (take 12 premature_removal) in
  let j3 := run_job 3 j0 premature_removal in
  reachable 3 storage_job j2 /\
  jb_state j2 = JRunning /\ newest j2 (3, 0) TFailed /\ has_live_attempt j2 (3, 1) /\ together j2 (3, 0) (3, 1) /\
  stage_active j1 1 = false /\ stage_active (run_job 3 j0 (take 10 premature_removal)) 1 = true /\
  jb_state j3 = JRunning /\ length (attempts j3 (2, 0)) = 2 /\ latest_attempt j3 (3, 1) = Some 1 /\
  jb_state (run_job 1 j0 premature_removal) = JFailed /\
  jb_state (run_job 3 j0 (take 11 premature_removal ++ [ok 3 0 0; ok 3 1 0; OpRefresh])) = JDraining /\
  jb_state (run_job 3 j0 (take 11 premature_removal ++ [ok 3 0 0; ok 3 1 0; OpRefresh; OpCleanUp])) = JSucceeded.
Proof.
  destruct (new_job storage_job) as [j0|] eqn:E; [|by vm_compute in E].
  exists j0. split; [done|]. intros j1 j2 j3.
  split; [by exists j0, (take 12 premature_removal)|].
  injection E as <-. split_and!; try by vm_compute.
  - apply last_state_newest. by vm_compute.
  - exists (Attempt TCreated None false). split; [apply elem_of_list_In; vm_compute; tauto|by left].
  - eexists. split; [apply elem_of_list_In; vm_compute; right; left; reflexivity|].
    split; apply elem_of_list_In; vm_compute; tauto.
Qed.

(** Outputs handed over as the last stage starts, after a retry again for the new
    attempts; task (3,1) fails twice and its second cause is reported. *)
Definition running (s p a : nat) : job_op := OpUpdate (TaskKey s p a) TRunning None.
Definition retried_run : list job_op :=
  [OpRefresh; ok 0 0 0; ok 0 1 0; ok 1 0 0; ok 1 1 0; ok 1 2 0; OpRefresh;
   ok 2 0 0; ok 2 1 0; ok 2 2 0; running 3 0 0; OpRefresh; running 3 1 0; OpRefresh;
   OpUpdate (TaskKey 3 1 0) TFailed (Some 7); OpRefresh; running 3 1 1; running 3 0 1; OpRefresh;
   OpUpdate (TaskKey 3 1 1) TFailed (Some 8); OpUpdate (TaskKey 3 0 1) TFailed (Some 9); OpRefresh].
Example C13_handover_example :
  match new_job storage_job with
  | None => False
  | Some j =>
      handed (run_actions 2 j retried_run) =
        [StreamKey (TaskKey 3 0 0) 0; StreamKey (TaskKey 3 1 0) 0;
         StreamKey (TaskKey 3 0 1) 0; StreamKey (TaskKey 3 1 1) 0] /\
      last (run_actions 2 j retried_run) = Some (FailJobOutput (Some 8)) /\
      map (failures (run_job 2 j retried_run)) [(3,0); (3,1)] = [[9]; [7; 8]]
  end.
Proof. vm_compute. done. Qed.
