(** C08: exchange routing. *)
From stdpp Require Import prelude list sorting.
From Coq Require Import Sorting.Sorted.
From Verif.Exec Require Import GraphModel ExchangeModel ExchangeSpec ExchangeProofs.

(** Each consumer task reads exactly the streams its mode promises, each once and
    from the newest attempt of the producer. *)
Theorem C08_consumer_reads_exactly m att ip ic op p :
  shape_ok m ip ic op -> p < op -> (forall q, q < ip -> is_Some (att q)) ->
  exists l, read_task m att ip ic op p = Some l /\ NoDup l /\
    forall k, k ∈ l <->
      wanted m ip ic op p (ik_partition k) (ik_channel k) /\
      att (ik_partition k) = Some (ik_attempt k).
Proof. exact (reads_exactly m att ip ic op p). Qed.
Print Assumptions C08_consumer_reads_exactly.

Example C08_shuffle_example :
  read_task Shuffle (fun q => Some (q + 5)) 3 2 2 1 =
  Some [InputKey 0 5 1; InputKey 1 6 1; InputKey 2 7 1].
Proof. reflexivity. Qed.
Example C08_rescale_example :
  map (fun p => map ik_partition <$> read_task Rescale (fun _ => Some 0) 7 1 3 p) [0; 1; 2] =
  [Some [0; 1]; Some [2; 3]; Some [4; 5; 6]].
Proof. reflexivity. Qed.

(** A rescale exchange gives every producer exactly one consumer ... *)
Theorem C08_rescale_one_consumer ip op q :
  q < ip -> 0 < op ->
  (exists p, p < op /\ owns ip op p q) /\
  forall p p', owns ip op p q -> owns ip op p' q -> p = p'.
Proof. intros H1 H2. split; [exact (owner_exists ip op q H1 H2)|exact (owner_unique ip op q)]. Qed.
Print Assumptions C08_rescale_one_consumer.

(** ... in contiguous blocks that keep the order ... *)
Theorem C08_rescale_contiguous ip op q q' p p' :
  owns ip op p q -> owns ip op p' q' -> q <= q' -> p <= p'.
Proof. exact (owner_mono ip op q q' p p'). Qed.
Print Assumptions C08_rescale_contiguous.

(** ... whose sizes differ by at most one. *)
Theorem C08_rescale_balanced ip op p :
  0 < op -> ip / op <= length (range (rescale_range p ip op)) <= ip / op + 1.
Proof. exact (rescale_block_size ip op p). Qed.
Print Assumptions C08_rescale_balanced.

(** Over a whole graph, each stream is opened exactly as often as the number of
    replicas its producer keeps (one copy is kept for the client when no stage
    reads it). *)
Theorem C08_streams_opened_as_declared g i prod att q c :
  g !! i = Some prod -> edges_shaped g i ->
  (forall r, r < st_partitions prod -> is_Some (att r)) ->
  q < st_partitions prod -> c < st_channels prod ->
  replicas g i = Nat.max 1 (opens g att i q c).
Proof. exact (opens_replicas g i prod att q c). Qed.
Print Assumptions C08_streams_opened_as_declared.

Definition example_graph : graph :=
  [ Stage [] 2 3 0 Pipelined OnWorker;
    Stage [StageInput 0 Shuffle] 3 1 0 Pipelined OnWorker;
    Stage [StageInput 0 Broadcast; StageInput 1 Forward] 3 1 0 Pipelined OnWorker ].
Example C08_example_shaped :
  edges_shaped example_graph 0 /\ opens example_graph (fun _ => Some 0) 0 1 2 = 4.
Proof.
  split; [|reflexivity].
  intros prod cons inp [= <-] Hcons Hinp Hi.
  repeat (apply elem_of_cons in Hcons as [->|Hcons]; [cbn in Hinp|]);
    [..|by apply elem_of_nil in Hcons];
    repeat (apply elem_of_cons in Hinp as [->|Hinp]; [cbn in *; try done; lia|]);
    by apply elem_of_nil in Hinp.
Qed.

(** A producer task with no attempt yet makes the whole construction fail, it is
    never skipped silently. *)
Theorem C08_unknown_attempt_is_an_error m att ip ic op q :
  q < ip -> (m = Shuffle -> 0 < ic) -> (m = Rescale -> 0 < op) -> att q = None ->
  input_groups m att ip ic op = None.
Proof. exact (unknown_attempt m att ip ic op q). Qed.
Print Assumptions C08_unknown_attempt_is_an_error.

(** Locators name the same keys, and the place where each attempt really runs. *)
Theorem C08_driver_locator asg groups out :
  driver_locator asg groups = Some out <->
  out = groups /\
  forall k, k ∈ concat groups -> asg (ik_partition k) (ik_attempt k) = Some ADriver.
Proof. exact (driver_locator_spec asg groups out). Qed.
Print Assumptions C08_driver_locator.

Theorem C08_worker_locator asg groups out :
  worker_locator asg groups = Some out <->
  map (map snd) out = groups /\
  forall w k, (w, k) ∈ concat out -> asg (ik_partition k) (ik_attempt k) = Some (AWorker w).
Proof. exact (worker_locator_spec asg groups out). Qed.
Print Assumptions C08_worker_locator.

(** With an external shuffle service the channels requested are the wanted ones. *)
Theorem C08_shuffle_service_channels m ip ic op groups p i :
  service_locator m ic op = Some groups -> shape_ok m ip ic op -> p < op ->
  i ∈ opened_groups m ip p ->
  exists cs, groups !! i = Some cs /\ NoDup cs /\
    forall c q, q < ip -> (c ∈ cs <-> wanted m ip ic op p q c).
Proof. exact (service_locator_reads m ip ic op groups p i). Qed.
Print Assumptions C08_shuffle_service_channels.

(** Local execution of a coalesce reads the same blocks, in order. *)
Theorem C08_coalesce_reads_same_blocks ip op p l :
  coalesce_inputs ip op p = Some l <->
  p < op /\ op <= ip /\ StronglySorted lt l /\ forall q, q ∈ l <-> owns ip op p q.
Proof. exact (coalesce_spec ip op p l). Qed.
Print Assumptions C08_coalesce_reads_same_blocks.
