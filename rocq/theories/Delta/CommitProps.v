(** * C16, C17, C18, C23: committing to a Delta table

    Runs ([list sop]) are arbitrary: any number of writers, their steps interleaved in
    any way, crashes (a writer that takes no more steps), store errors, answers that get
    lost, checkpoints and log clean-up. *)
From Coq Require Import NArith ZArith ZifyN Lia String.
From stdpp Require Import prelude list gmap strings.
From Verif.Lib Require Import Text.
From Verif.Delta Require Import ActionModel LogModel SegmentSpec LogStepModel LogStepSpec
  CommitModel CommitSpec ConflictProofs CommitProofs CommitTheorems CommitTimes.
Local Open Scope Z_scope.

(** ** Runs used in the examples *)
Definition xadd (p : string) (size : Z) : add := Add (str p) None size true 0.
Definition xrm (p : string) : remove := Remove (str p) None None None true 0.
Definition xproto (ict : bool) : protocol := Protocol 3 7 ict 0.
Definition xmeta (ict : bool) : metadata := Metadata 1000 1000 ict None None Serializable 7 0.
Definition xcreate (ict : bool) : txn_req :=
  TReq (commit_data true [AProtocol (xproto ict); AMetadata (xmeta ict)] [] 1) false true 3.
Definition xappend (p : string) : txn_req := TReq (commit_data true [AAdd (xadd p 10)] [] 2) false true 3.
(** rewrites file [p] as file [q] after reading the whole table *)
Definition xupdate (p q : string) : txn_req :=
  TReq (commit_data true [ARemove (xrm p); AAdd (xadd q 10)] [] 3) true true 3.
Definition xstep (id : nat) (now : Z) : sop := SStep id (Env now TReplayed (now + 1) PutNormal false).
Definition xsteps (id : nat) (now : Z) (n : nat) : list sop := replicate n (xstep id now).
(** Writer 0 creates the table; 1, 2 and 3 start from version 0; 2 is first; 1 wants to
    rewrite and has to give up; 3 appends after checking what 2 did; then a checkpoint
    is written, the log is cleaned, and writer 4 appends. *)
Definition xrun : list sop :=
  SCreate 0 (xcreate true) :: xsteps 0 1000 3 ++
  [SStart 1 (xupdate "a" "b") 0 TReplayed; SStart 2 (xappend "a") 0 TReplayed; SStart 3 (xappend "c") 0 TReplayed;
   xstep 1 900; xstep 3 900; xstep 3 900] ++ xsteps 2 800 3 ++ [xstep 1 900; xstep 1 900; xstep 3 900] ++ xsteps 3 900 6 ++
  [SCheckpoint 2; SClean 2; SStart 4 (xappend "d") 2 TReplayed] ++ xsteps 4 950 3.

(** ** C16 *)

(** Versions are written in the order 0, 1, 2, ..., each once; a version that is there is
    as it was written; the newest one is always there; nothing written is ever taken
    back. *)
Theorem C16_versions_written_once_in_order :
  forall ops, timely_cleanup ops ->
    ev_version <$> written ops = Z.of_nat <$> seq 0 (length (written ops)) /\
    (forall v f, st_files (store_of ops) !! v = Some f -> commit_at (hist ops) v = Some f) /\
    (hist ops <> [] -> is_Some (st_files (store_of ops) !! (Z.of_nat (length (hist ops)) - 1))) /\
    (forall more, written ops `prefix_of` written (ops ++ more)).
Proof. exact versions_in_order. Qed.
Print Assumptions C16_versions_written_once_in_order.
(** Without clean-up the files are exactly the versions written. *)
Theorem C16_versions_stay :
  forall ops, never_cleaned ops -> forall v, st_files (store_of ops) !! v = commit_at (hist ops) v.
Proof. exact (fun ops H v => all_versions_kept ops v H). Qed.
Print Assumptions C16_versions_stay.
Example C16_run :
  timely_cleanup xrun /\ ((fun e => (ev_version e, ev_writer e)) <$> written xrun) = [(0, 0%nat); (1, 2%nat); (2, 3%nat); (3, 4%nat)] /\
  (writer_of xrun 1 ≫= fun w => Some (w_phase w)) = Some PFailed /\
  st_files (store_of xrun) !! 1 = None.
Proof. split; [apply timely_b_sound; by vm_compute|]. by vm_compute. Qed.

(** A writer that stalls for longer than the log is kept can write a version a second
    time: it is told that its commit succeeded, but the table does not have its file. *)
Definition xlate : list sop :=
  SCreate 0 (xcreate false) :: xsteps 0 1000 3 ++
  [SStart 1 (xappend "late") 0 TReplayed; xstep 1 1001; xstep 1 1001; SStart 2 (xappend "a") 0 TReplayed] ++ xsteps 2 1002 3 ++
  [SStart 3 (xappend "b") 1 TReplayed] ++ xsteps 3 1003 3 ++ [SCheckpoint 2; SClean 2; xstep 1 9000].
Lemma some_such {A} (o : option A) (P : A -> Prop) :
  match o with Some a => P a | None => False end -> exists a, o = Some a /\ P a.
Proof. destruct o; [eauto|done]. Qed.
Lemma only_base (s : store) (P : rstate -> Prop) :
  match st_base s with Some (b, st) => st_files s !! (b + 1) = None /\ P st | None => False end ->
  forall v st, state_at s v = Some st -> P st.
Proof.
  unfold state_at. destruct (st_base s) as [[b st]|]; [|done]. intros [Hf HP] v st'. destruct (v <? b); [done|].
  destruct (Z.to_nat (v - b)) as [|n]; cbn [replay_files]; [by intros [= <-]|]. by rewrite Hf.
Qed.
Theorem C16_late_writer_rewrites_version_refuted :
  exists ops id w, writer_of ops id = Some w /\ w_phase w = PDone 1 /\
    ev_version <$> written ops = [0; 1; 2; 1] /\
    (forall v st, state_at (store_of ops) v = Some st -> rs_adds st !! add_key (xadd "late" 10) = None).
Proof.
  exists xlate, 1%nat. destruct (some_such (writer_of xlate 1) (fun w => w_phase w = PDone 1)) as (w & Hw & Hp); [by vm_compute|].
  exists w. split; [exact Hw|]. split; [exact Hp|]. split; [by vm_compute|].
  apply (only_base (store_of xlate) (fun st => rs_adds st !! add_key (xadd "late" 10) = None)). by vm_compute.
Qed.
Print Assumptions C16_late_writer_rewrites_version_refuted.

(** ** C17 *)

(** A writer told that it wrote version [v] did: the commit holds what was asked for (up to
    the timestamps filled in at the last moment; a writer that wanted to create the table
    but found it leaves out protocol and metadata). *)
Theorem C17_success_means_written :
  forall ops id w v, timely_cleanup ops -> writer_of ops id = Some w -> w_phase w = PDone v ->
    exists f, commit_at (hist ops) v = Some f /\
      as_requested (match w_table w with
                    | None => if v =? 0 then t_acts (w_req w) else strip (t_acts (w_req w))
                    | Some _ => t_acts (w_req w)
                    end) (cf_acts f).
Proof. exact commit_content. Qed.
Print Assumptions C17_success_means_written.
(** Unless it is a blind append, it is based on the version just before. *)
Theorem C17_not_blind_only_next_version :
  forall ops id w v r,
    timely_cleanup ops -> writer_of ops id = Some w -> w_phase w = PDone v ->
    w_table w = Some r -> ~ declared_blind (t_acts (w_req w)) ->
    v = sn_version r + 1 /\ sn_state r = table_at (hist ops) (sn_version r) /\
    exists f, commit_at (hist ops) v = Some f /\ as_requested (t_acts (w_req w)) (cf_acts f) /\
      table_at (hist ops) v = replay (sn_state r) (cf_acts f).
Proof. exact next_version_only. Qed.
Print Assumptions C17_not_blind_only_next_version.
(** Otherwise every commit in between does no harm to it, see [harmless]. *)
Theorem C17_commits_between_are_harmless :
  forall ops id w v r,
    timely_cleanup ops -> writer_of ops id = Some w -> w_phase w = PDone v -> w_table w = Some r ->
    sn_version r < v /\ sn_state r = table_at (hist ops) (sn_version r) /\
    forall u f, sn_version r < u < v -> commit_at (hist ops) u = Some f ->
      exists k, sn_version r <= k < u /\
        harmless (table_at (hist ops) k) (w_req w) (t_acts (w_req w)) (cf_acts f).
Proof. exact between_harmless. Qed.
Print Assumptions C17_commits_between_are_harmless.
Theorem C17_blind_append_keeps_protocol_and_metadata :
  forall ops id w v r,
    timely_cleanup ops -> writer_of ops id = Some w -> w_phase w = PDone v ->
    w_table w = Some r -> blind_request (w_req w) ->
    (forall u f, sn_version r < u < v -> commit_at (hist ops) u = Some f ->
       ~ changes_protocol (cf_acts f) /\ ~ changes_metadata (cf_acts f) /\
       (forall a, uses_app (t_acts (w_req w)) a -> ~ uses_app (cf_acts f) a)) /\
    rs_protocol (table_at (hist ops) (v - 1)) = rs_protocol (sn_state r) /\
    rs_metadata (table_at (hist ops) (v - 1)) = rs_metadata (sn_state r).
Proof. exact blind_append_safe. Qed.
Print Assumptions C17_blind_append_keeps_protocol_and_metadata.
(** A writer that wanted to create the table either did, or found a table with the same
    protocol and metadata (but for the table id). *)
Theorem C17_creation_finds_same_table :
  forall ops id w v,
    timely_cleanup ops -> writer_of ops id = Some w -> w_phase w = PDone v -> w_table w = None ->
    v = 0 \/
    exists k0, 0 <= k0 < v /\
      (forall p, head (protocols (t_acts (w_req w))) = Some p -> rs_protocol (table_at (hist ops) k0) = Some p) /\
      (forall m, head (metadatas (t_acts (w_req w))) = Some m ->
         exists m', rs_metadata (table_at (hist ops) k0) = Some m' /\
           m = Metadata (md_file_retention m') (md_log_retention m') (md_ict m') (md_ict_version m')
                 (md_ict_time m') (md_isolation m') (md_id m) (md_rest m')) /\
      forall u f, k0 < u < v -> commit_at (hist ops) u = Some f ->
        exists k, k0 <= k < u /\ harmless (table_at (hist ops) k) (w_req w) (strip (t_acts (w_req w))) (cf_acts f).
Proof. exact creation_safe. Qed.
Print Assumptions C17_creation_finds_same_table.
(** No writer writes twice, however often it retries, if the store does not report its
    own writes as somebody else's. *)
Theorem C17_written_at_most_once :
  forall ops, no_echo ops -> NoDup (ev_writer <$> written ops).
Proof. exact (fun ops H => proj1 (put_once ops H)). Qed.
Print Assumptions C17_written_at_most_once.
Example C17_run :
  (exists w, writer_of xrun 3 = Some w /\ w_phase w = PDone 2 /\ (sn_version <$> w_table w) = Some 0 /\ blind_request (w_req w)) /\
  (exists w, writer_of (xrun ++ SStart 5 (xupdate "a" "e") 3 TReplayed :: xsteps 5 960 3) 5 = Some w /\ w_phase w = PDone 4 /\
     (sn_version <$> w_table w) = Some 3 /\ ~ declared_blind (t_acts (w_req w))) /\
  no_echo xrun.
Proof.
  split; [|split].
  - apply (some_such _ (fun w => _ /\ _ /\ _)). vm_compute. split; [done|]. split; [done|]. repeat constructor.
  - destruct (some_such (writer_of (xrun ++ SStart 5 (xupdate "a" "e") 3 TReplayed :: xsteps 5 960 3) 5)
      (fun w => w_phase w = PDone 4 /\ (sn_version <$> w_table w) = Some 3 /\ is_blind (t_acts (w_req w)) = false))
      as (w & Hw & H1 & H2 & H3); [by vm_compute|].
    exists w. split_and!; [done|done|done|]. rewrite <- is_blind_spec. by rewrite H3.
  - intros id e H He. assert (forallb (fun op => match op with SStep _ e => match e_put e with PutEcho => false | _ => true end | _ => true end) xrun = true) as Hb by by vm_compute.
    rewrite forallb_forall in Hb. apply elem_of_list_In, Hb in H. by rewrite He in H.
Qed.

(** If the store client repeats a write whose answer was lost and reports that the file
    exists, a blind append goes in twice. *)
Theorem C17_repeated_write_appends_twice_refuted :
  exists ops, (forall id e, SStep id e ∈ ops -> e_error e = false) /\
    ev_writer <$> written ops = [0; 1; 1]%nat /\
    (exists w, writer_of ops 1 = Some w /\ w_phase w = PDone 2 /\ t_acts (w_req w) = t_acts (xappend "a")).
Proof.
  exists (SCreate 0 (xcreate false) :: xsteps 0 1000 3 ++ [SStart 1 (xappend "a") 0 TReplayed; xstep 1 1001; xstep 1 1001;
    SStep 1 (Env 1002 TReplayed 1002 PutEcho false)] ++ xsteps 1 1003 5).
  split.
  - intros id e H. match type of H with _ ∈ ?l => assert (forallb (fun op => match op with SStep _ e => negb (e_error e) | _ => true end) l = true) as Hb by by vm_compute end.
    rewrite forallb_forall in Hb. apply elem_of_list_In, Hb in H. by destruct (e_error e).
  - split; [by vm_compute|]. eexists. split; [by vm_compute|]. done.
Qed.
Print Assumptions C17_repeated_write_appends_twice_refuted.

(** Overwriting a table that has no files looks like an append: of two overwrites at the
    same time both succeed, and the table has the files of both. *)
Theorem C17_concurrent_overwrites_of_empty_table_refuted :
  exists ops w1 w2 r1 r2,
    writer_of ops 1 = Some w1 /\ w_phase w1 = PDone 1 /\ w_table w1 = Some r1 /\
    t_acts (w_req w1) = commit_data true (overwrite_actions (sn_state r1) [xadd "a" 10]) [] 2 /\
    writer_of ops 2 = Some w2 /\ w_phase w2 = PDone 2 /\ w_table w2 = Some r2 /\
    t_acts (w_req w2) = commit_data true (overwrite_actions (sn_state r2) [xadd "b" 10]) [] 2 /\
    (rs_adds (table_at (hist ops) 2) !! add_key (xadd "a" 10) = Some (xadd "a" 10)) /\
    (rs_adds (table_at (hist ops) 2) !! add_key (xadd "b" 10) = Some (xadd "b" 10)).
Proof.
  exists (SCreate 0 (xcreate false) :: xsteps 0 1000 3 ++ [SStart 1 (xappend "a") 0 TReplayed; SStart 2 (xappend "b") 0 TReplayed]
    ++ xsteps 1 1001 3 ++ xsteps 2 1002 5).
  eexists _, _, _, _. split; [by vm_compute|]. split; [done|]. split; [done|]. split; [by vm_compute|].
  split; [by vm_compute|]. split; [done|]. split; [done|]. split; [by vm_compute|]. by vm_compute.
Qed.
Print Assumptions C17_concurrent_overwrites_of_empty_table_refuted.

(** ** C18 *)

(** The check passes exactly when the commit that was first does no harm. *)
Theorem C18_check_passes_iff_harmless :
  forall st req acts win, check_conflicts st req acts win = None <-> harmless st req acts win.
Proof. exact check_conflicts_iff. Qed.
Print Assumptions C18_check_passes_iff_harmless.
Example C18_cases :
  let st := replay rs_empty [AProtocol (xproto false); AMetadata (xmeta false); AAdd (xadd "a" 1); AAdd (xadd "b" 1)] in
  let app p := t_acts (xappend p) in
  check_conflicts st (xappend "c") (app "c") (app "d") = None /\
  check_conflicts st (xupdate "a" "c") (t_acts (xupdate "a" "c")) (app "d") = Some ConcurrentAppend /\
  check_conflicts st (xappend "c") (app "c") (t_acts (xupdate "b" "d")) = Some ConcurrentDeleteRead /\
  check_conflicts st (xappend "c") (app "c") [AMetadata (xmeta true)] = Some MetadataChanged /\
  check_conflicts st (xappend "c") (app "c") [AProtocol (xproto true)] = Some ProtocolChanged /\
  check_conflicts st (xappend "c") [ATxn (Txn (str "app") 1 None)] [ATxn (Txn (str "app") 2 None)] = Some ConcurrentTransaction.
Proof. by vm_compute. Qed.

(** ** C23 *)

(** A version for which in-commit timestamps are on carries one, and it is larger than the
    timestamp of the version before, whatever the clocks of the writers and the store
    say. *)
Theorem C23_timestamp_larger_than_previous :
  forall ops, timely_cleanup ops -> no_compacted_times ops -> commit_info_first ops ->
    forall v, 0 <= v < Z.of_nat (length (hist ops)) -> ict_on (hist ops) v ->
      exists f t, commit_at (hist ops) v = Some f /\ ict_of (cf_acts f) = Some t /\
        (0 < v -> exists t0, version_time (hist ops) (v - 1) = Some t0 /\ t0 < t).
Proof. exact ict_increases. Qed.
Print Assumptions C23_timestamp_larger_than_previous.
Theorem C23_timestamps_strictly_increase :
  forall ops a b ta tb fa fb,
    timely_cleanup ops -> no_compacted_times ops -> commit_info_first ops -> enablement_not_ahead (hist ops) ->
    0 <= a < b -> (forall v, a <= v <= b -> ict_on (hist ops) v) ->
    commit_at (hist ops) a = Some fa -> commit_at (hist ops) b = Some fb ->
    ict_of (cf_acts fa) = Some ta -> ict_of (cf_acts fb) = Some tb -> ta < tb.
Proof. exact ict_monotone. Qed.
Print Assumptions C23_timestamps_strictly_increase.
Example C23_run :
  (fun f => ict_of (cf_acts f)) <$> hist xrun = [Some 1000; Some 1001; Some 1002; Some 1003] /\
  ict_on (hist xrun) 3.
Proof. split; [by vm_compute|]. eexists _, _. by vm_compute. Qed.

(** The timestamps of a log read with a compacted file. *)
Example C23_compacted_log :
  let acts p t := ACommitInfo (CommitInfo (Some true) (Some t) 0) :: p in
  let lg := log_run [ LCommit (acts [AProtocol (xproto true); AMetadata (xmeta true)] 1000) 5; LCommit (acts [AAdd (xadd "a" 10)] 1001) 6;
                      LCompact 0 1 0 (str "c") 50 ] in
  (load_state (lg_hint lg) [] (lg_files lg) 1 ≫= fun l => l.2 !! 1) = Some 50.
Proof. by vm_compute. Qed.
(** The timestamp of a version read through a compacted log file is the time of that file
    (even if in-commit timestamps are on), so the next in-commit timestamp can be smaller
    than an earlier one. *)
Theorem C23_after_compaction_refuted :
  exists ops, timely_cleanup ops /\ commit_info_first ops /\
    (forall v, 0 <= v <= 2 -> ict_on (hist ops) v) /\
    (fun f => ict_of (cf_acts f)) <$> hist ops = [Some 1000; Some 1001; Some 60].
Proof.
  exists (SCreate 0 (xcreate true) :: xsteps 0 1000 3 ++ SStart 1 (xappend "a") 0 TReplayed :: xsteps 1 10 3
    ++ SStart 2 (xappend "b") 1 (TCompacted 50) :: xsteps 2 60 3).
  split; [apply timely_b_sound; by vm_compute|]. split.
  - match goal with |- commit_info_first ?l => assert (forallb (fun op => match op with
        | SCreate _ req | SStart _ req _ _ => match t_acts req with ACommitInfo _ :: _ => true | _ => false end | _ => true end) l = true) as Hb by by vm_compute end.
    rewrite forallb_forall in Hb. split.
    + intros id req H. apply elem_of_list_In, Hb in H. destruct (t_acts req) as [|[] ?]; eauto; done.
    + intros id req v src H. apply elem_of_list_In, Hb in H. destruct (t_acts req) as [|[] ?]; eauto; done.
  - split; [|by vm_compute]. intros v Hv. assert (v = 0 \/ v = 1 \/ v = 2) as [->|[->| ->]] by lia; eexists _, _; by vm_compute.
Qed.
Print Assumptions C23_after_compaction_refuted.
