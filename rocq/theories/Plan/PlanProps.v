(** Properties of the data frame operators that work partition by partition. *)
From Coq Require Import ZArith Lia Sorted.
From stdpp Require Import prelude list numbers.
From Verif.Plan Require RangeModel RangeSpec RangeProofs.
From Verif.Plan Require CoalesceModel CoalesceSpec CoalesceProofs.
From Verif.Plan Require MonotonicIdModel MonotonicIdSpec MonotonicIdProofs.
From Verif.Plan Require CardinalityModel CardinalitySpec CardinalityProofs.

Section C58.
Import RangeModel RangeSpec RangeProofs.
#[local] Open Scope Z_scope.

(** C58. The rows of spark.range(start, end, step, n) are exactly start, start + step, ... up to
    the end, in order over the partitions, in non-empty batches of at most 1024 rows.  Missing:
    ranges whose first point past the end is not a 64-bit integer (see [C58_range_lost_refuted]).
 *)
Theorem C58_range_partial s e st np parts :
  valid s e st np -> end_fits s e st -> range_output s e st np parts ->
  range_rows s e st (concat (map (@concat Z) parts)) /\
  Forall (Forall (fun b => 0 < length b <= 1024)%nat) parts.
Proof. exact (range_correct s e st np parts). Qed.
Print Assumptions C58_range_partial.

Theorem C58_range_total s e st np :
  valid s e st np -> end_fits s e st -> exists parts, range_output s e st np parts.
Proof. exact (range_output_exists s e st np). Qed.
Print Assumptions C58_range_total.

(** For all ranges, all partitions but the last are right. *)
Theorem C58_range_prefix s e st np parts :
  valid s e st np -> range_output s e st np parts -> forall l, range_rows s e st l ->
  exists tail, l = concat (map (@concat Z) (firstn (np - 1) parts)) ++ tail.
Proof. exact (range_prefix s e st np parts). Qed.
Print Assumptions C58_range_prefix.

Example C58_range_partial_example :
  valid 0 10 3 2 /\ end_fits 0 10 3 /\ range_output 0 10 3 2 [[[0; 3]]; [[6; 9]]].
Proof.
  split_and!.
  - unfold valid, is_i64, i64_min, i64_max. lia.
  - intros i [[_ H]|[H _]]; [|lia]. unfold is_i64, i64_min, i64_max. lia.
  - exists (Range 0 10 3). split; [done|]. cbn [seq].
    repeat (constructor; [eexists; split; [vm_compute; reflexivity|
      eapply batches_more; [vm_compute; reflexivity|eapply batches_done; vm_compute; reflexivity]]|]).
    constructor.
Qed.

(** The full property is false: a range that ends near the largest 64-bit integer loses rows. *)
Theorem C58_range_lost_refuted :
  exists s e st np parts l,
    valid s e st np /\ range_output s e st np parts /\ range_rows s e st l /\
    concat (map (@concat Z) parts) <> l.
Proof.
  exists (i64_max - 1), i64_max, 10, 1%nat, [[]], [i64_max - 1]. split_and!.
  - unfold valid, is_i64, i64_min, i64_max. lia.
  - exists (Range (i64_max - 1) i64_max 10). split; [done|]. cbn [seq].
    constructor; [|constructor]. eexists. split; [vm_compute; reflexivity|].
    eapply batches_done. vm_compute. reflexivity.
  - intros i v. unfold before_end. destruct i as [|i].
    + cbn [lookup list_lookup]. split; [intros [= <-]; lia|]. intros [-> _]. done.
    + cbn. split; [done|]. intros [_ [[_ H]|[H _]]]; lia.
  - cbn. done.
Qed.
Print Assumptions C58_range_lost_refuted.
End C58.

Section C59.
Import CoalesceModel CoalesceSpec CoalesceProofs.

(** C59. coalesce(n) gives min(n, number of inputs) partitions and keeps every row, whether or
    not the number of inputs changed between planning and execution. *)
Theorem C59_rows {A} (n planned : nat) (inputs : list (stream A)) k outs :
  0 < length inputs -> 0 < planned -> plan_count n planned = Some k ->
  output (rewrite k (length inputs)) inputs outs ->
  length outs = n `min` planned `min` length inputs /\
  concat outs ≡ₚ concat (map items inputs).
Proof.
  intros Hin Hpl Hp Ho. unfold plan_count in Hp. destruct (decide (n = 0)) eqn:E; [done|].
  injection Hp as <-. eapply coalesce_perm; try done. unfold plan_count. by rewrite E.
Qed.
Print Assumptions C59_rows.

(** With more than one output, every output is a run of adjacent inputs, one after the other,
    and the runs have the same length up to one. *)
Theorem C59_adjacent {A} (inputs : list (stream A)) n outs :
  0 < n <= length inputs -> output (CoalesceTo n) inputs outs ->
  length outs = n /\ adjacent_runs (map items inputs) outs.
Proof. intros [H1 H2]. exact (coalesce_exact inputs n outs H1 H2). Qed.
Print Assumptions C59_adjacent.

Theorem C59_total {A} (inputs : list (stream A)) n :
  0 < n <= length inputs -> exists outs, output (CoalesceTo n) inputs outs.
Proof. intros [H1 H2]. exact (coalesce_exists n inputs H1 H2). Qed.
Print Assumptions C59_total.

Example C59_example :
  plan_count 2 5 = Some 2 /\
  output (rewrite 2 5) [[Some 1; None; Some 2]; []; [None]; [Some 3]; [Some 4]]
    [[1; 2]; [3; 4]].
Proof.
  split; [done|]. cbn [rewrite]. unfold rewrite. rewrite decide_False by lia.
  rewrite decide_False by lia. cbn [output seq].
  constructor; [|constructor; [|constructor]].
  - eexists. split; [reflexivity|].
    eapply drains_item; [reflexivity|]. eapply drains_pending; [reflexivity|].
    eapply drains_item; [reflexivity|]. eapply drains_finished. reflexivity.
  - eexists. split; [reflexivity|]. eapply drains_pending; [reflexivity|].
    eapply drains_item; [reflexivity|]. eapply drains_item; [reflexivity|].
    eapply drains_finished. reflexivity.
Qed.

(** Asking for no partition is an error. *)
Theorem C59_zero inputs : plan_count 0 inputs = None.
Proof. reflexivity. Qed.
End C59.

Section C60.
Import RangeModel MonotonicIdModel MonotonicIdSpec MonotonicIdProofs.
#[local] Open Scope Z_scope.

(** C60. monotonically_increasing_id() keeps the rows and their batches and gives ids that are
    non-negative 64-bit integers and strictly increasing over all rows of all partitions (so they
    are unique), as long as no partition has more than 2^33 rows; otherwise the query fails. *)
Theorem C60_ids {A} (inputs : list (list (list A))) :
  Z.of_nat (length inputs) <= 2 ^ 30 ->
  Forall (Forall (fun b => Z.of_nat (length b) < 2 ^ 63)) inputs ->
  (small_partitions inputs ->
   exists out, id_exec inputs = Some out /\ all_rows out = inputs /\
     StronglySorted Z.lt (all_ids out) /\ Forall (fun x => 0 <= x <= i64_max) (all_ids out)) /\
  (~ small_partitions inputs -> id_exec inputs = None).
Proof. intros H1 H2. split; [exact (id_exec_ok inputs H1 H2)|exact (id_exec_error inputs H1 H2)]. Qed.
Print Assumptions C60_ids.

Example C60_example :
  let inputs := [[[7; 8]; [9]]; []; [[7]]] in
  small_partitions inputs /\
  id_exec inputs = Some [[[(7, 0); (8, 1)]; [(9, 2)]]; []; [[(7, 17179869184)]]].
Proof.
  split; [|vm_compute; reflexivity].
  repeat (constructor; [vm_compute; discriminate|]). constructor.
Qed.
End C60.

Section C61.
Import CardinalityModel CardinalitySpec CardinalityProofs.

(** C61. Wherever the rows of the join are sent, MERGE fails if and only if two of them are
    matches for one target row, and otherwise passes all rows on unchanged. *)
Theorem C61_cardinality {D} (parts : list (list (list (row D)))) :
  hash_partitioned parts ->
  (doubly_matched (concat (map (@concat _) parts)) -> check_exec parts = None) /\
  (~ doubly_matched (concat (map (@concat _) parts)) -> check_exec parts = Some parts).
Proof. exact (cardinality_correct parts). Qed.
Print Assumptions C61_cardinality.

(** Without the partitioning by id the check can miss a double match. *)
Theorem C61_needs_partitioning :
  exists parts : list (list (list (row nat))),
    doubly_matched (concat (map (@concat _) parts)) /\ check_exec parts = Some parts.
Proof.
  exists [[[Row (Some 1) (Some true) (Some true) 0]]; [[Row (Some 1) (Some true) (Some true) 1]]].
  split; [|done].
  by exists 0, 1, (Row (Some 1) (Some true) (Some true) 0), (Row (Some 1) (Some true) (Some true) 1), 1.
Qed.
Print Assumptions C61_needs_partitioning.

Example C61_example :
  let r1 := Row (Some 1) (Some true) (Some true) 0 in
  let r2 := Row (Some 2) (Some true) None 0 in
  let r3 := Row (Some 2) (Some true) (Some true) 1 in
  hash_partitioned [[[r2]; [r3]]; [[r1]]] /\ hash_partitioned [[[r2]; [r3; r3]]; [[r1]]] /\
  check_exec [[[r2]; [r3]]; [[r1]]] = Some [[[r2]; [r3]]; [[r1]]] /\
  check_exec [[[r2]; [r3; r3]]; [[r1]]] = None.
Proof.
  intros r1 r2 r3.
  assert (H : forall l, hash_partitioned [[[r2]; r3 :: (if l : bool then [r3] else [])]; [[r1]]]).
  { intros l. exists (fun o => if decide (o = Some 1) then 1 else 0). intros p bs r Hp Hr.
    destruct p as [|[|p]]; cbn in Hp; [| |done]; injection Hp as <-; cbn in Hr.
    - assert (Hin : r ∈ [r2; r3; r3]) by (destruct l; set_solver).
      repeat (apply elem_of_cons in Hin as [->|Hin]; [done|]). by apply elem_of_nil in Hin.
    - apply elem_of_list_singleton in Hr as ->. done. }
  split_and!; [exact (H false)|exact (H true)|done|done].
Qed.
End C61.
