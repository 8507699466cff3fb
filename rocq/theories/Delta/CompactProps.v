(** * C20: reading through compacted log files gives the same table *)
From Coq Require Import NArith ZArith ZifyN Lia String.
From stdpp Require Import prelude list gmap strings.
From Verif.Lib Require Import Text.
From Verif.Delta Require Import ActionModel LogModel ReplaySpec ReplayProofs CompactSpec CompactProofs
  SegmentSpec LogStepModel LogStepSpec LogStepProofs LoadTheorems ReplayProps.
Local Open Scope Z_scope.

(** The full statement is [same_table] of both for all [before], [acts] and [min_ts];
    it is false.  This is exactly when it holds. *)
Theorem C20_same_table_iff_partial :
  forall before acts min_ts,
    same_table (replay (replay rs_empty before) (compacted_rows min_ts (replay rs_empty acts)))
               (replay rs_empty (before ++ acts)) <->
    (forall k, ~ drops_removal before acts min_ts k) /\ (forall n, ~ drops_domain before acts n).
Proof. exact compacted_iff. Qed.
Print Assumptions C20_same_table_iff_partial.

(** In every case the protocol, metadata and transactions are right, nothing live is
    lost, and whatever is there wrongly is a dropped removal. *)
Theorem C20_only_dropped_removals_differ_partial :
  forall before acts min_ts,
    let s := replay (replay rs_empty before) (compacted_rows min_ts (replay rs_empty acts)) in
    rs_protocol s = table_protocol (before ++ acts) /\ rs_metadata s = table_metadata (before ++ acts) /\
    (forall a, rs_txns s !! a = live_txn (before ++ acts) a) /\
    (forall k a, live_file (before ++ acts) k = Some a -> rs_adds s !! k = Some a) /\
    (forall k a, rs_adds s !! k = Some a ->
       live_file (before ++ acts) k = Some a \/ drops_removal before acts min_ts k) /\
    (forall n d, live_domain (before ++ acts) n = Some d -> rs_domains s !! n = Some d) /\
    (forall n d, rs_domains s !! n = Some d ->
       live_domain (before ++ acts) n = Some d \/ drops_domain before acts n).
Proof. exact compacted_always. Qed.
Print Assumptions C20_only_dropped_removals_differ_partial.

(** A version read through any checkpoints and compacted files of a log, none of which
    dropped a removal that was needed, is that version's table.  (The condition
    [starts_after_checkpoint] excludes the case refuted under C21.) *)
Theorem C20_load_through_compactions_partial :
  forall ops v st ts sg,
    let lg := log_run ops in
    faithful_compactions ops -> 0 <= v ->
    resolve_full (lg_hint lg) [] (lg_files lg) v = Some sg -> starts_after_checkpoint sg ->
    load_segment sg = Some (st, ts) ->
    v < Z.of_nat (length (history ops)) /\
    is_live_table (cuts_used ops) (acts_between (history ops) 0 v) st.
Proof. exact load_state_compacted. Qed.
Print Assumptions C20_load_through_compactions_partial.

(** A file removed longer than the retention time ago comes back to life once the
    commit that removed it is compacted. *)
Definition dead_ops : list lop :=
  [ LCommit [AProtocol ex_proto; AMetadata ex_meta; AAdd (ex_file 1)] 0;
    LCommit [ARemove (ex_rm 1 5); AAdd (ex_file 2)] 5;
    LCommit [AAdd (ex_file 3)] 1000;
    LCompact 1 2 (1000 - md_file_retention ex_meta) (str "c") 1000 ].
Theorem C20_removed_file_returns_refuted :
  exists ops v st ts k a, let lg := log_run ops in
    load_state (lg_hint lg) [] (lg_files lg) v = Some (st, ts) /\
    rs_adds st !! k = Some a /\ live_file (acts_between (history ops) 0 v) k = None.
Proof.
  exists dead_ops, 2. eexists _, _, ([1%N], None), (ex_file 1).
  split; [vm_compute; reflexivity|]. split; vm_compute; reflexivity.
Qed.
Print Assumptions C20_removed_file_returns_refuted.
(** So does a domain that was removed, whatever the retention. *)
Definition dead_domain_ops : list lop :=
  [ LCommit [AProtocol ex_proto; AMetadata ex_meta; ADomain (Domain (str "d") 1 false)] 0;
    LCommit [ADomain (Domain (str "d") 1 true)] 5;
    LCommit [AAdd (ex_file 3)] 6;
    LCompact 1 2 0 (str "c") 6 ].
Theorem C20_removed_domain_returns_refuted :
  exists ops v st ts n d, let lg := log_run ops in
    load_state (lg_hint lg) [] (lg_files lg) v = Some (st, ts) /\
    rs_domains st !! n = Some d /\ live_domain (acts_between (history ops) 0 v) n = None.
Proof.
  exists dead_domain_ops, 2. eexists _, _, (str "d"), (Domain (str "d") 1 false).
  split; [vm_compute; reflexivity|]. split; vm_compute; reflexivity.
Qed.
Print Assumptions C20_removed_domain_returns_refuted.

(** A log with a compaction that drops nothing needed: the file it removes was added in
    the same run. *)
Definition good_ops : list lop :=
  [ LCommit [AProtocol ex_proto; AMetadata ex_meta; AAdd (ex_file 1)] 0;
    LCommit [AAdd (ex_file 2); ARemove (ex_rm 1 950)] 5;
    LCommit [ARemove (ex_rm 2 6); AAdd (ex_file 3)] 1000;
    LCompact 1 2 900 (str "c") 1000; LCommit [AAdd (ex_file 4)] 1001 ].
Example C20_example :
  faithful_compactions good_ops /\
  exists sg st ts, resolve_full None [] (lg_files (log_run good_ops)) 3 = Some sg /\
    (fst <$> sg_compactions sg) = [(1, 2)] /\ starts_after_checkpoint sg /\ load_segment sg = Some (st, ts) /\
    map_to_list (rs_adds st) ≡ₚ [(([3%N], None), ex_file 3); (([4%N], None), ex_file 4)].
Proof.
  split.
  - intros s e m loc t Hin before acts He. unfold good_ops in Hin.
    repeat (apply elem_of_cons in Hin as [Hin|Hin]; [try discriminate|]); [|set_solver].
    injection Hin as -> -> -> -> ->. unfold before, acts. split.
    + intros k (a & r & ts & Ha & Hr & Hts & Hlt).
      assert (k = ([1%N], None)) as ->.
      { destruct (decide (([1%N], None) = k)) as [|Hne]; [done|]. exfalso.
        revert Ha. change (acts_between (history good_ops) 0 (1 - 1))
          with [AProtocol ex_proto; AMetadata ex_meta; AAdd (ex_file 1)].
        unfold live_file. cbn [omap list_omap file_event]. rewrite decide_False; [by cbn|done]. }
      vm_compute in Hr. injection Hr as <-. cbn in Hts. injection Hts as <-. lia.
    + intros n (d & d' & Hd & _). vm_compute in Hd. done.
  - eexists _, _, _. split; [vm_compute; reflexivity|]. split; [vm_compute; reflexivity|]. split; [by left|].
    split; [vm_compute; reflexivity|]. vm_compute. reflexivity.
Qed.
