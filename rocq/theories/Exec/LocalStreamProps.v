(** C14: local streams; C50: failing producers. *)
From stdpp Require Import prelude list.
From Verif.Exec Require Import LocalStreamModel LocalStreamSpec LocalStreamProofs.

(** At any time a consumer has received a prefix of what was published, in order;
    or, when the producer never showed up, a single error. *)
Theorem C14_received_is_prefix {B} cap (ops : list (op B)) i r :
  ls_replicas (run cap ops) !! i = Some r ->
  rp_got r `prefix_of` map Data (published cap ops) \/
  (published cap ops = [] /\ ls_state (run cap ops) = LFailed /\ rp_got r = [Failure]).
Proof. exact (got_prefix cap ops i r). Qed.
Print Assumptions C14_received_is_prefix.

(** Once the producer has committed, nothing is missing from any consumer's channel,
    and a consumer that sees the end of the stream has received everything. *)
Theorem C14_complete_after_commit {B} cap (ops : list (op B)) i r :
  ls_sink (run cap ops) = SClosed true ->
  ls_replicas (run cap ops) !! i = Some r -> rp_rx r = RxHeld ->
  rp_got r ++ rp_buf r = map Data (published cap ops) /\
  (rp_eof r = true -> rp_got r = map Data (published cap ops)).
Proof. exact (committed_complete cap ops i r). Qed.
Print Assumptions C14_complete_after_commit.

(** A consumer that keeps reading after the commit does reach the end. *)
Theorem C14_reading_on_reaches_the_end {B} cap (ops : list (op B)) i r :
  ls_sink (run cap ops) = SClosed true ->
  ls_replicas (run cap ops) !! i = Some r -> rp_rx r = RxHeld ->
  forall n, length (published cap ops) < n ->
  exists r', ls_replicas (run cap (ops ++ replicate n (Recv i))) !! i = Some r' /\
    rp_eof r' = true /\ rp_got r' = map Data (published cap ops).
Proof. exact (reading_on cap ops i r). Qed.
Print Assumptions C14_reading_on_reaches_the_end.

(** The end of the stream is not seen while the producer is still writing. *)
Theorem C14_no_early_end {B} cap (ops : list (op B)) i r :
  ls_replicas (run cap ops) !! i = Some r -> rp_eof r = true ->
  ls_state (run cap ops) = LFailed \/ exists ok, ls_sink (run cap ops) = SClosed ok.
Proof. exact (eof_means_closed cap ops i r). Qed.
Print Assumptions C14_no_early_end.

(** Consumers waiting for a producer that never shows up get an error, not an empty stream. *)
Theorem C14_waiting_consumers_get_error {B} cap (ops : list (op B)) i r :
  ls_state (run cap ops) = LFailed -> ls_replicas (run cap ops) !! i = Some r ->
  rp_rx r = RxHeld -> rp_got r ++ rp_buf r = [Failure].
Proof. exact (waiting_get_failure cap ops i r). Qed.
Print Assumptions C14_waiting_consumers_get_error.

(** The first [n] fetches succeed, before or after the producer creates the stream
    for [n] consumers, and no two fetches get the same replica. *)
Theorem C14_declared_consumers_served {B} cap n (ops : list (op B)) k :
  creates_n n ops -> no_timeout ops -> k < n -> fetches cap ops !! k <> Some None.
Proof. exact (declared_served cap n ops k). Qed.
Print Assumptions C14_declared_consumers_served.

Theorem C14_fetches_distinct {B} cap n (ops : list (op B)) :
  creates_n n ops -> no_timeout ops -> NoDup (omap id (fetches cap ops)).
Proof. exact (fetch_distinct cap n ops). Qed.
Print Assumptions C14_fetches_distinct.

(** When the stream is created there is one replica for each declared consumer and
    for each consumer that came before, no more; so no further fetch succeeds. *)
Theorem C14_one_replica_per_consumer {B} cap n (ops1 ops2 : list (op B)) :
  (forall m, Create m ∉ ops1) -> no_timeout ops1 ->
  length (ls_replicas (run cap (ops1 ++ Create n :: ops2))) = Nat.max n (length (fetches cap ops1)).
Proof. exact (replica_count cap n ops1 ops2). Qed.
Print Assumptions C14_one_replica_per_consumer.

Theorem C14_no_undeclared_consumers {B} cap n (ops1 ops2 : list (op B)) :
  (forall m, Create m ∉ ops1) -> creates_n n (ops1 ++ Create n :: ops2) ->
  no_timeout (ops1 ++ Create n :: ops2) ->
  length (omap id (fetches cap (ops1 ++ Create n :: ops2))) <= Nat.max n (length (fetches cap ops1)).
Proof. exact (consumers_bounded cap n ops1 ops2). Qed.
Print Assumptions C14_no_undeclared_consumers.

(** Two consumers, one early and one late, a small buffer and a commit. *)
Definition example_ops : list (op nat) :=
  [Fetch; Create 2; Write 10; Write 11; Write 12; Recv 0; Fetch; Commit;
   CommitStep; Recv 0; CommitStep; Recv 0; CommitStep; Recv 1; CommitStep; Recv 1;
   CommitStep; Recv 1; CommitStep; CommitStep; Recv 0; Recv 1].
Example C14_example :
  published 1 example_ops = [10; 11; 12] /\
  ls_sink (run 1 example_ops) = SClosed true /\
  fetches 1 example_ops = [Some 0; Some 1] /\
  map rp_got (ls_replicas (run 1 example_ops)) =
    [[Data 10; Data 11; Data 12]; [Data 10; Data 11; Data 12]] /\
  map rp_eof (ls_replicas (run 1 example_ops)) = [true; true].
Proof. vm_compute. done. Qed.
Example C14_example_early :
  fetches 1 [Fetch; Fetch; Fetch; Create 2; Fetch; Write 5] = [Some 0; Some 1; Some 2; None] /\
  fetches 1 [Fetch; Create 2; Fetch; Fetch; Write 5] = [Some 0; Some 1; None].
Proof. vm_compute. done. Qed.

(** The end of the stream does not mean completeness when the producer aborts: a
    failing producer drops the sink and the consumer sees a clean, truncated stream. *)
Theorem C50_producer_failure_is_visible_refuted :
  exists (ops : list (op nat)) r,
    ls_replicas (run 1 ops) !! 0 = Some r /\ rp_eof r = true /\ rp_rx r = RxHeld /\
    rp_got r = [Data 10] /\ published 1 ops = [10; 11].
Proof.
  exists [Fetch; Create 1; Write 10; Write 11; Abort; Recv 0; Recv 0]. eexists. vm_compute. done.
Qed.
Print Assumptions C50_producer_failure_is_visible_refuted.
