(** * C19: reading through a checkpoint gives the same table as replaying the whole log *)
From Coq Require Import NArith ZArith ZifyN Lia String.
From stdpp Require Import prelude list gmap strings.
From Verif.Lib Require Import Text.
From Verif.Delta Require Import ActionModel LogModel ReplaySpec ReplayProofs SegmentSpec LogStepModel LogStepSpec
  LogStepProofs LoadTheorems CleanupProofs.
Local Open Scope Z_scope.

(** Replaying actions gives the table in which the last action about each thing counts. *)
Theorem C19_replay_keeps_last_action :
  forall acts, is_table acts (replay rs_empty acts).
Proof. exact replay_is_table. Qed.
Print Assumptions C19_replay_keeps_last_action.

(** The rows of a checkpoint, read back in any order, give the state that was written. *)
Lemma checkpoint_rows_restore acts now st rows rows' :
  prune now (replay rs_empty acts) = Some st -> classic_rows st = Some rows \/ v2_rows st = Some rows ->
  rows' ≡ₚ rows -> replay rs_empty rows' = st.
Proof.
  intros Hp Hr Hperm. assert (rs_ok st) as Hok by (eapply rs_ok_prune; [apply rs_ok_replay, rs_ok_empty|done]).
  apply rows_match_restore; [done|]. symmetry in Hperm. apply (rows_match_perm _ _ _ Hperm).
  destruct Hr; [by apply classic_rows_match|by apply v2_rows_match].
Qed.
Theorem C19_checkpoint_rows_restore_state :
  forall acts now st rows rows',
    prune now (replay rs_empty acts) = Some st ->
    classic_rows st = Some rows \/ v2_rows st = Some rows ->
    rows' ≡ₚ rows -> replay rs_empty rows' = st.
Proof. exact checkpoint_rows_restore. Qed.
Print Assumptions C19_checkpoint_rows_restore_state.

(** What a checkpoint leaves out: nothing but tombstones and transactions older than
    the cut-offs. *)
Theorem C19_checkpoint_drops_only_expired :
  forall acts now st, prune now (replay rs_empty acts) = Some st ->
    exists m, table_metadata acts = Some m /\ is_table_upto [cutoffs m now] acts st.
Proof.
  exact (fun acts now st H =>
    match is_table_upto_prune [] acts _ st now (is_table_upto_refl [] acts) H with
    | ex_intro _ m (conj Hm Ht) => ex_intro _ m (conj Hm Ht)
    end).
Qed.
Print Assumptions C19_checkpoint_drops_only_expired.

(** Whatever commits, checkpoints (of any version, at any clock, in any order, with or
    without recording them) and deletions of files happened: if version [v] can be
    loaded at all, the result is the table after the commits 0 to [v], up to tombstones
    and transactions that had expired for some checkpoint. *)
Theorem C19_load_is_full_replay :
  forall ops v st ts,
    let lg := log_run ops in
    no_compacted_file (lg_files lg) ->
    load_state (lg_hint lg) [] (lg_files lg) v = Some (st, ts) ->
    0 <= v < Z.of_nat (length (history ops)) /\
    is_table_upto (cuts_used ops) (acts_between (history ops) 0 v) st.
Proof. exact load_state_plain. Qed.
Print Assumptions C19_load_is_full_replay.

(** And it can be loaded as long as a checkpoint at or below it (not below the recorded
    one) and the commits after that are there. *)
Theorem C19_load_succeeds :
  forall ops c v,
    let lg := log_run ops in
    no_compacted_file (lg_files lg) -> 0 <= v ->
    readable_from (lg_files lg) c v -> hint_upto (lg_files lg) (lg_hint lg) c ->
    times_recorded ops ->
    table_protocol (acts_between (history ops) 0 v) <> None ->
    table_metadata (acts_between (history ops) 0 v) <> None ->
    exists st ts, load_state (lg_hint lg) [] (lg_files lg) v = Some (st, ts).
Proof. exact load_state_succeeds. Qed.
Print Assumptions C19_load_succeeds.

(** An example: three commits, a checkpoint of version 1 that drops an expired
    tombstone, and version 0 deleted. *)
Definition ex_file (n : N) : add := Add [n] None 10 true 0.
Definition ex_rm (n : N) (ts : Z) : remove := Remove [n] None (Some ts) None true 0.
Definition ex_meta : metadata := Metadata 100 100 false None None Serializable 0 0.
Definition ex_proto : protocol := Protocol 1 2 false 0.
Definition ex_ops : list lop :=
  [ LCommit [AProtocol ex_proto; AMetadata ex_meta; AAdd (ex_file 1); AAdd (ex_file 2)] 0;
    LCommit [ARemove (ex_rm 1 5); AAdd (ex_file 3); ATxn (Txn [7%N] 1 None)] 10;
    LCheckpoint 1 200 true (str "x") 20 true;
    LCommit [ARemove (ex_rm 2 180); AAdd (ex_file 4)] 190;
    LDelete (fun f => bool_decide (lf_kind f = KCommit 0)) ].
Example C19_example :
  exists st ts, load_state (lg_hint (log_run ex_ops)) [] (lg_files (log_run ex_ops)) 2 = Some (st, ts) /\
    map_to_list (rs_adds st) ≡ₚ [(([3%N], None), ex_file 3); (([4%N], None), ex_file 4)] /\
    map_to_list (rs_removes st) = [(([2%N], None), ex_rm 2 180)] /\
    tombstone (acts_between (history ex_ops) 0 2) ([1%N], None) = Some (ex_rm 1 5) /\
    cuts_used ex_ops = [(100, 100)].
Proof.
  eexists _, _. split; [vm_compute; reflexivity|]. split_and!; [|vm_compute; reflexivity..].
  vm_compute. reflexivity.
Qed.

(** * C53: every retained version can be read *)

(** Full statement: as below for every version, without the condition on the recorded
    last checkpoint.  It is false, see the next theorem. *)
Theorem C53_versions_since_last_checkpoint_partial :
  forall ops v,
    let lg := log_run ops in
    never_deletes ops -> never_compacts ops -> times_recorded ops ->
    0 <= v < Z.of_nat (length (history ops)) ->
    (forall h, lg_hint lg = Some h -> h_version h <= v) ->
    table_protocol (acts_between (history ops) 0 v) <> None ->
    table_metadata (acts_between (history ops) 0 v) <> None ->
    exists st ts, load_state (lg_hint lg) [] (lg_files lg) v = Some (st, ts) /\
      is_table_upto (cuts_used ops) (acts_between (history ops) 0 v) st.
Proof. exact load_recent. Qed.
Print Assumptions C53_versions_since_last_checkpoint_partial.

(** Once a checkpoint is recorded, an older version that is not at or right after a
    checkpoint cannot be loaded, although no file was ever deleted. *)
Definition old_ops : list lop :=
  [ LCommit [AProtocol ex_proto; AMetadata ex_meta; AAdd (ex_file 1)] 0;
    LCommit [AAdd (ex_file 2)] 1; LCommit [AAdd (ex_file 3)] 2; LCommit [AAdd (ex_file 4)] 3;
    LCheckpoint 3 3 false (str "c") 3 true ].
Lemma old_unreadable :
  exists ops v, let lg := log_run ops in
    never_deletes ops /\ never_compacts ops /\ times_recorded ops /\
    0 <= v < Z.of_nat (length (history ops)) /\ readable_from (lg_files lg) (-1) v /\
    table_protocol (acts_between (history ops) 0 v) <> None /\
    table_metadata (acts_between (history ops) 0 v) <> None /\
    load_state (lg_hint lg) [] (lg_files lg) v = None.
Proof.
  exists old_ops, 2. split_and!.
  - intros g Hg. unfold old_ops in Hg. repeat (apply elem_of_cons in Hg as [Hg|Hg]; [discriminate|]). set_solver.
  - intros s e m loc t Hg. unfold old_ops in Hg. repeat (apply elem_of_cons in Hg as [Hg|Hg]; [discriminate|]). set_solver.
  - intros v m Hv Hm Hi. exfalso. assert (v = 0 \/ v = 1 \/ v = 2 \/ v = 3) as Hc by (cbn in Hv; lia).
    destruct Hc as [->|[->|[->| ->]]]; vm_compute in Hm; injection Hm as <-; done.
  - done.
  - done.
  - destruct (log_complete old_ops) as [H _].
    { intros g Hg. unfold old_ops in Hg. repeat (apply elem_of_cons in Hg as [Hg|Hg]; [discriminate|]). set_solver. }
    split_and!; [lia|lia|by left|]. intros w Hw. apply H. cbn. lia.
  - vm_compute. done.
  - vm_compute. done.
  - vm_compute. reflexivity.
Qed.
Theorem C53_older_version_unreadable_refuted :
  exists ops v, let lg := log_run ops in
    never_deletes ops /\ never_compacts ops /\ times_recorded ops /\
    0 <= v < Z.of_nat (length (history ops)) /\ readable_from (lg_files lg) (-1) v /\
    table_protocol (acts_between (history ops) 0 v) <> None /\
    table_metadata (acts_between (history ops) 0 v) <> None /\
    load_state (lg_hint lg) [] (lg_files lg) v = None.
Proof. exact old_unreadable. Qed.
Print Assumptions C53_older_version_unreadable_refuted.
