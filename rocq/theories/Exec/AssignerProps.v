(** Property theorems about task assignment and the worker pool. *)
From stdpp Require Import prelude list.
From Coq Require Import Lia.
From Verif.Exec Require Import GraphModel AssignerModel AssignerSpec AssignerProofs AssignerInvariant
  AssignerTheorems PoolProofs.

(** A history used by the examples: two workers with two slots; a region of three
    task sets, one of them on the driver; a second region; a finished task; a lost
    worker. *)
Definition k1 := Key 1 0 0 0.
Definition k2 := Key 1 0 1 0.
Definition k3 := Key 1 1 0 0.
Definition k4 := Key 2 0 0 0.
Definition k5 := Key 2 0 1 0.
Definition ex_options := AOptions 2 4.
Definition ex_ops : list a_op :=
  [ AActivate 1; AActivate 2;
    AEnqueue [(OnWorker, [(k1, OLocal)]); (OnWorker, [(k2, OLocal)]); (OnDriver, [(k3, OLocal)])];
    AEnqueue [(OnWorker, [(k4, OStorage); (k5, OLocal)])];
    ARun; AUnassign k1; AUnassign k4; ADeactivate 1; AUntrack 1 None ].
Example ex_fresh : fresh_keys ex_ops.
Proof. apply (bool_decide_unpack _). by vm_compute. Qed.
Example ex_live : live_sets (history ex_options ex_ops) = [(2, 1, [k5])].
Proof. by vm_compute. Qed.
Example ex_live_before :
  live_sets (history ex_options (take 5 ex_ops)) = [(1, 1, [k1]); (1, 0, [k2]); (2, 1, [k4; k5])].
Proof. by vm_compute. Qed.

(** C09.  At most one task set occupies a slot at any time. *)
Theorem C09_one_task_set_per_slot o ops :
  fresh_keys ops -> NoDup (map fst (live_sets (history o ops))).
Proof. exact (one_set_per_slot o ops). Qed.
Print Assumptions C09_one_task_set_per_slot.

(** C09.  What a slot of an active worker holds is the unfinished part of the one
    task set that occupies it, and nothing if no set does. *)
Theorem C09_slot_contents o ops w sl st n s :
  fresh_keys ops ->
  (w, Active sl st) ∈ a_workers (a_run o ops) -> sl !! n = Some s ->
  NoDup s /\
  ((s = [] /\ forall ks, (w, n, ks) ∉ live_sets (history o ops)) \/
   (exists ks, (w, n, ks) ∈ live_sets (history o ops) /\ s ≡ₚ ks)).
Proof. exact (slot_contents o ops w sl st n s). Qed.
Print Assumptions C09_slot_contents.

(** C09.  Conversely every running task set sits in the slot it was launched on, and
    the table answers that slot for each of its tasks. *)
Theorem C09_running_sets_are_hosted o ops w n ks :
  fresh_keys ops -> (w, n, ks) ∈ live_sets (history o ops) ->
  (exists sl st s, (w, Active sl st) ∈ a_workers (a_run o ops) /\ sl !! n = Some s /\ s ≡ₚ ks) /\
  forall k, k ∈ ks -> a_table (a_run o ops) k = Some (ToWorker w n).
Proof. exact (live_is_hosted o ops w n ks). Qed.
Print Assumptions C09_running_sets_are_hosted.

(** C10.  One call launches the longest prefix of the waiting regions that fits in
    the free slots: each region completely, in order, driver sets on the driver and
    worker sets on distinct free slots of active workers. *)
Theorem C10_launches_longest_prefix o ops a' outs :
  run_tasks (a_run o ops) = (a', outs) ->
  exists n,
    n <= length (a_queue (a_run o ops)) /\
    a_queue a' = drop n (a_queue (a_run o ops)) /\
    map fst outs = flat_map (map snd) (take n (a_queue (a_run o ops))) /\
    Forall2 (fun p x => p = OnDriver <-> x.2 = ToDriver)
      (flat_map (map fst) (take n (a_queue (a_run o ops)))) outs /\
    NoDup (omap worker_place outs) /\
    (forall w m, (w, m) ∈ omap worker_place outs -> slot_free (a_run o ops) w m) /\
    sum_list_with region_demand (take n (a_queue (a_run o ops))) <= all_free (a_run o ops) /\
    (n < length (a_queue (a_run o ops)) ->
      all_free (a_run o ops) < sum_list_with region_demand (take (S n) (a_queue (a_run o ops)))).
Proof. exact (launch_spec o ops a' outs). Qed.
Print Assumptions C10_launches_longest_prefix.
Example C10_example :
  let a := a_run ex_options (take 4 ex_ops ++ [AEnqueue [(OnWorker, []); (OnWorker, [])]; AEnqueue []]) in
  length (run_tasks a).2 = 4 /\ length (a_queue (run_tasks a).1) = 2.
Proof. by vm_compute. Qed.

(** C10.  Over a whole history task sets are launched in the order in which they
    were enqueued, and without cancellations none is lost or repeated. *)
Theorem C10_first_in_first_out o ops :
  launched (history o ops) ++ waiting (a_run o ops) `sublist_of` flat_map op_sets ops /\
  (Forall (fun op => excludes op = false) ops ->
   launched (history o ops) ++ waiting (a_run o ops) = flat_map op_sets ops).
Proof. exact (launch_order o ops). Qed.
Print Assumptions C10_first_in_first_out.
Example C10_fifo_example :
  launched (history ex_options ex_ops) = [[(k1, OLocal)]; [(k2, OLocal)]; [(k3, OLocal)]; [(k4, OStorage); (k5, OLocal)]].
Proof. by vm_compute. Qed.

(** C10.  A cancelled task that was still waiting is never launched. *)
Theorem C10_cancelled_tasks_stay_out o ops k rest :
  k ∉ flat_map op_keys rest ->
  forall s, s ∈ launched (a_history o (a_run o (ops ++ [AExclude k])) rest) -> k ∉ set_tasks s.
Proof. exact (excluded_not_launched o ops k rest). Qed.
Print Assumptions C10_cancelled_tasks_stay_out.
Example C10_cancelled_example :
  launched (history ex_options (take 4 ex_ops ++ [AExclude k2; ARun])) = [[(k4, OStorage); (k5, OLocal)]].
Proof. by vm_compute. Qed.

(** C11.  The full statement would bound the workers by the configured maximum; it
    fails (below) because the initially started workers are not counted as
    requested.  Proved: the excess is at most the initial count. *)
Theorem C11_worker_limit_partial o initial ops :
  o_max_count o <> 0 -> workers_up (d_run o initial ops) <= o_max_count o + initial.
Proof. exact (worker_limit o initial ops). Qed.
Print Assumptions C11_worker_limit_partial.

Definition wide_region (n : nat) : region := replicate n (OnWorker, [(k1, OLocal)]).
(** Two workers are started at first and at most two are allowed; a job that needs
    two workers arrives before they have registered: four workers are started. *)
Theorem C11_worker_limit_refuted :
  exists o initial ops,
    initial <= o_max_count o /\ o_max_count o <> 0 /\
    o_max_count o < workers_up (d_run o initial ops) /\
    workers_up (d_run o initial (ops ++ [DRegister 1; DRegister 2; DRegister 3; DRegister 4])) = 4.
Proof.
  exists (AOptions 1 2), 2, [DEnqueue (wide_region 2); DRun; DScaleUp].
  repeat split; vm_compute; lia.
Qed.
Print Assumptions C11_worker_limit_refuted.

(** C51.  A worker is taken to be idle exactly when it is active, none of its task
    sets is unfinished and it keeps no output that is still needed. *)
Theorem C51_idle_means_nothing_left o ops w :
  fresh_keys ops ->
  is_worker_idle w (a_run o ops) = true <->
  (exists sl st, (w, Active sl st) ∈ a_workers (a_run o ops)) /\
  (forall n ks, (w, n, ks) ∉ live_sets (history o ops)) /\
  (forall k, (w, k) ∉ held_streams (history o ops)).
Proof. exact (idle_spec o ops w). Qed.
Print Assumptions C51_idle_means_nothing_left.
Example C51_example :
  is_worker_idle 2 (a_run ex_options ex_ops) = false /\
  is_worker_idle 2 (a_run ex_options (ex_ops ++ [AUnassign k5])) = false /\
  is_worker_idle 2 (a_run ex_options (ex_ops ++ [AUnassign k5; AUntrack 2 (Some 0)])) = true.
Proof. by vm_compute. Qed.

(** C51.  When a worker is lost, the tasks reported as failed are exactly its
    unfinished ones. *)
Theorem C51_lost_worker_tasks o ops w k :
  fresh_keys ops ->
  k ∈ find_worker_tasks w (a_run o ops) <->
  exists n ks, (w, n, ks) ∈ live_sets (history o ops) /\ k ∈ ks.
Proof. exact (lost_tasks o ops w k). Qed.
Print Assumptions C51_lost_worker_tasks.

(** C52.  The workers requested by one call cover the demand of the waiting regions
    unless the maximum is reached, and no fewer would. *)
Theorem C52_request_covers_demand o a :
  o_task_slots o <> 0 ->
  let n := (request_workers o a).2 in
  (o_max_count o = 0 \/ n < o_max_count o - a_requested a - active_count (a_workers a) ->
   sum_list_with region_demand (a_queue a) <= all_free a + n * o_task_slots o) /\
  (n <> 0 -> all_free a + (n - 1) * o_task_slots o < sum_list_with region_demand (a_queue a)) /\
  a_requested (request_workers o a).1 = a_requested a + n.
Proof. exact (request_spec o a). Qed.
Print Assumptions C52_request_covers_demand.
Example C52_example :
  (request_workers (AOptions 2 0) (a_run (AOptions 2 0) [AActivate 1; AEnqueue (wide_region 5)])).2 = 2.
Proof. by vm_compute. Qed.

(** C52.  Workers already requested are not subtracted from the demand, so with no
    maximum every event that triggers scaling requests the whole deficit again:
    after [n] such events [n] times the needed workers have been started. *)
Theorem C52_no_over_provisioning_refuted :
  forall slots r n,
    slots <> 0 ->
    workers_in WPending (d_run (AOptions slots 0) 0 (DEnqueue r :: replicate n DScaleUp)) =
    n * div_ceil (region_demand r) slots.
Proof. exact over_request. Qed.
Print Assumptions C52_no_over_provisioning_refuted.
