(** Model of committing to a Delta table: any number of writers, each going through the
    commit loop step by step, over a store with create-if-absent writes.
    Sources: crates/sail-delta-lake/src/transaction/mod.rs,
             crates/sail-delta-lake/src/transaction/conflict_checker.rs,
             crates/sail-delta-lake/src/delta_log/store.rs,
             crates/sail-delta-lake/src/delta_log/timestamps.rs.
    Each access to the store is one step, so steps of writers interleave in any way; a
    writer that crashes takes no further steps. *)
From Coq Require Import NArith ZArith.
From stdpp Require Import prelude list gmap.
From Verif.Lib Require Import Text.
From Verif.Delta Require Import ActionModel LogModel.
Local Open Scope Z_scope.

(** * The conflict checker *)

(** What a transaction wants to commit: its actions (the first is the commit info,
    transaction/mod.rs:570-640), whether it read the whole table and whether it changes
    data (spec/operation.rs:238-276), and how often to retry. *)
Record txn_req := TReq { t_acts : list action; t_whole : bool; t_changes : bool; t_retries : nat }.

Inductive conflict :=
| ProtocolChanged | MetadataChanged | ConcurrentDomain | ConcurrentAppend
| ConcurrentDeleteRead | ConcurrentDeleteDelete | ConcurrentTransaction.

Definition protocols (acts : list action) : list protocol :=
  omap (fun a => match a with AProtocol p => Some p | _ => None end) acts.
Definition metadatas (acts : list action) : list metadata :=
  omap (fun a => match a with AMetadata m => Some m | _ => None end) acts.
Definition domains (acts : list action) : list text :=
  omap (fun a => match a with ADomain d => Some (dom_name d) | _ => None end) acts.
Definition app_ids (acts : list action) : list text :=
  omap (fun a => match a with ATxn t => Some (txn_app t) | _ => None end) acts.
Definition removed_keys (acts : list action) : list fkey :=
  omap (fun a => match a with ARemove r => Some (rm_key r) | _ => None end) acts.
Definition added_keys (acts : list action) : list fkey :=
  omap (fun a => match a with AAdd x => Some (add_key x) | _ => None end) acts.
(** conflict_checker.rs:171-182 and 254-258: from the first commit info *)
Definition is_blind (acts : list action) : bool :=
  match head (omap (fun a => match a with ACommitInfo c => Some c | _ => None end) acts) with
  | Some c => default false (ci_blind c)
  | None => false
  end.
Definition overlap {A} `{EqDecision A} (l k : list A) : bool := existsb (fun x => bool_decide (x ∈ k)) l.
Definition nonempty {A} (l : list A) : bool := match l with [] => false | _ => true end.

(** conflict_checker.rs:560-593 [can_downgrade_to_snapshot_isolation] *)
Definition can_downgrade (win : list action) (changes : bool) (iso : isolation) : bool :=
  let data_changed := existsb (fun a => match a with AAdd x => add_change x | ARemove r => rm_change r | _ => false end) win in
  let non_file := existsb (fun a => match a with AAdd x => negb (add_change x) | ARemove r => negb (rm_change r) | _ => true end) win in
  if non_file then false
  else match iso with
       | Serializable => negb data_changed
       | WriteSerializable => negb data_changed && negb changes
       | SnapshotIsolation => false
       end.
(** conflict_checker.rs:275-304 [ConflictChecker::new] *)
Definition txn_isolation (st : rstate) (req : txn_req) (win : list action) : isolation :=
  let iso := match rs_metadata st with Some m => md_isolation m | None => Serializable end in
  if can_downgrade win (t_changes req) iso then SnapshotIsolation else iso.

(** conflict_checker.rs:321-349 [check_protocol_compatibility]; [acts] are the actions of
    the transaction, [win] those of the commit that was first *)
Definition protocol_ok (st : rstate) (acts win : list action) : bool :=
  forallb (fun p => match rs_protocol st with
                    | Some c => negb ((pr_reader c <? pr_reader p) || (pr_writer p <? pr_writer c))
                    | None => true
                    end) (protocols win)
  && (negb (nonempty (protocols win))
      || match head (protocols acts) with
         | Some own => forallb (fun p => bool_decide (p = own)) (protocols win)
         | None => false
         end).
(** 351-365 [check_no_metadata_updates] *)
Definition metadata_ok (acts win : list action) : bool :=
  negb (nonempty (metadatas win))
  || match head (metadatas acts) with
     | Some own => forallb (fun m => bool_decide (m = own)) (metadatas win)
     | None => false
     end.
(** 385-449: the added files that count *)
Definition added_to_check (iso : isolation) (acts win : list action) : list fkey :=
  match iso with
  | SnapshotIsolation => []
  | WriteSerializable => if negb (nonempty (metadatas acts)) && is_blind win then [] else added_keys win
  | Serializable => added_keys win
  end.
(** 306-319 [check_conflicts]; the checks in order (367-383 for domains, 451-481, 483-520
    and 522-543 for the last three) *)
Definition check_conflicts (st : rstate) (req : txn_req) (acts win : list action) : option conflict :=
  if negb (protocol_ok st acts win) then Some ProtocolChanged
  else if negb (metadata_ok acts win) then Some MetadataChanged
  else if overlap (domains acts) (domains win) then Some ConcurrentDomain
  else if t_whole req && nonempty (added_to_check (txn_isolation st req win) acts win) then Some ConcurrentAppend
  else if existsb (fun k => bool_decide (is_Some (rs_adds st !! k))) (removed_keys win)
          || (nonempty (removed_keys win) && t_whole req) then Some ConcurrentDeleteRead
  else if overlap (removed_keys acts) (removed_keys win) then Some ConcurrentDeleteDelete
  else if overlap (app_ids win) (app_ids acts) then Some ConcurrentTransaction
  else None.

(** transaction/mod.rs:655-667 [CommitData::is_blind_append]; [write_op] is: the operation
    is a write without a predicate (all writes have none, commit_exec.rs:337-362) *)
Definition blind_append_actions (write_op : bool) (acts : list action) : bool :=
  write_op && forallb (fun a => match a with AAdd _ | ATxn _ | ACommitInfo _ => true | _ => false end) acts.
(** transaction/mod.rs:570-640 [CommitData::new]: the commit info first, then the other
    actions, then the application transactions; [rest] stands for everything else in the
    commit info *)
Definition commit_data (write_op : bool) (acts : list action) (txns : list txn) (rest : N) : list action :=
  ACommitInfo (CommitInfo (Some (blind_append_actions write_op acts)) None rest)
    :: filter (fun a => match a with ACommitInfo _ => false | _ => true end = true) acts ++ (ATxn <$> txns).

(** * The store *)

(** A commit file: its content and the time the store gave it. *)
Record cfile := CFile { cf_acts : list action; cf_mtime : Z }.
(** The commit files that are there; the newest checkpoint and the version it is of.
    (Older checkpoints are not kept in this model: a writer starts from the version its
    caller loaded.) *)
Record store := Store { st_files : gmap Z cfile; st_base : option (Z * rstate) }.
Definition store_empty : store := Store ∅ None.

(** store.rs:240-247 and listing.rs:124-140 [get_latest_version]: the highest version
    listed, unless it is below [start].  (Checkpoint, checksum and compacted file names
    also count; they are of versions that have a commit.) *)
Definition get_latest (s : store) (start : Z) : option Z :=
  let latest := foldr (fun kv m => match m with None => Some kv.1 | Some x => Some (Z.max x kv.1) end) None
                  (map_to_list (st_files s)) in
  match latest with
  | Some v => if Z.max start 0 <=? v then Some v else None
  | None => None
  end.

(** Replaying commits [v], [v+1], ... on top of a state; [n] of them. *)
Fixpoint replay_files (files : gmap Z cfile) (st : rstate) (v : Z) (n : nat) : option rstate :=
  match n with
  | O => Some st
  | S n' => f ← files !! v; replay_files files (replay st (cf_acts f)) (v + 1) n'
  end.
(** The state of version [v]: from the checkpoint or from version 0.  That loading a
    version from its log gives this is property C19. *)
Definition state_at (s : store) (v : Z) : option rstate :=
  match st_base s with
  | Some (b, st) => if v <? b then None else replay_files (st_files s) st (b + 1) (Z.to_nat (v - b))
  | None => if v <? 0 then None else replay_files (st_files s) rs_empty 0 (Z.to_nat (v + 1))
  end.

(** How a snapshot got the timestamp of its version while it was loaded: from replaying
    its commit, not at all (it was read from a checkpoint), or from a compacted file with
    this modification time (checkpoint/mod.rs:1198-1210). *)
Inductive time_source := TReplayed | TUnknown | TCompacted (mtime : Z).
(** snapshot/mod.rs [DeltaSnapshot]: the version, the state, and the timestamp cached for
    the version (353-355) *)
Record snap := Snap { sn_version : Z; sn_state : rstate; sn_time : option Z }.

(** timestamps.rs:106-136 [resolve_version_timestamp] of the snapshot's own version.  The
    checksum holds the same timestamp as the commit (transaction/mod.rs:648-650). *)
Definition resolve_time (s : store) (sn : snap) : option Z :=
  match sn_time sn with
  | Some t => Some t
  | None =>
      match rs_protocol (sn_state sn), rs_metadata (sn_state sn) with
      | Some p, Some m =>
          f ← st_files s !! sn_version sn;
          if uses_ict (sn_version sn) p m then ict_of (cf_acts f) else Some (cf_mtime f)
      | _, _ => None
      end
  end.
(** Loading version [v]: protocol and metadata must be there (replay.rs:140-155). *)
Definition load (s : store) (v : Z) (src : time_source) : option snap :=
  st ← state_at s v;
  match rs_protocol st, rs_metadata st with
  | Some p, Some m =>
      match src with
      | TReplayed =>
          f ← st_files s !! v;
          t ← (if uses_ict v p m then ict_of (cf_acts f) else Some (cf_mtime f));
          Some (Snap v st (Some t))
      | TUnknown => Some (Snap v st None)
      | TCompacted t => Some (Snap v st (Some t))
      end
  | _, _ => None
  end.

(** * The commit loop *)

(** transaction/mod.rs:745-815 [finalize_attempt_actions].  Addition does not saturate
    here. *)
Definition set_ict (t : option Z) (acts : list action) : list action :=
  match acts with
  | ACommitInfo c :: l => ACommitInfo (CommitInfo (ci_blind c) t (ci_rest c)) :: l
  | _ => acts
  end.
Fixpoint set_enablement (v t : Z) (acts : list action) : list action :=
  match acts with
  | [] => []
  | AMetadata m :: l =>
      AMetadata (Metadata (md_file_retention m) (md_log_retention m) (md_ict m) (Some v) (Some t)
                   (md_isolation m) (md_id m) (md_rest m)) :: l
  | a :: l => a :: set_enablement v t l
  end.
Definition snap_ict (sn : snap) : bool :=
  match rs_protocol (sn_state sn), rs_metadata (sn_state sn) with
  | Some p, Some m => ict_enabled p m
  | _, _ => false
  end.
Definition finalize (acts : list action) (sn : option snap) (version : Z) (prev : option Z) (now : Z) : list action :=
  let enabled :=
    match effective (sn ≫= fun s => rs_protocol (sn_state s)) (sn ≫= fun s => rs_metadata (sn_state s)) acts with
    | Some (p, m) => ict_enabled p m
    | None => false
    end in
  if enabled then
    let t := Z.max now (match prev with Some p => p + 1 | None => now end) in
    let acts := set_ict (Some t) acts in
    match sn with
    | Some s => if snap_ict s then acts else set_enablement version t acts
    | None => acts
    end
  else set_ict None acts.

(** Where a writer is in [PreparedCommit::into_future] (transaction/mod.rs:1297-1519). *)
Inductive phase :=
| PList                                    (** about to list the log (1331) *)
| PLoad (latest : Z)                       (** about to load the table it did not have (1339) *)
| PCheck (v latest : Z)                    (** about to check against commit [v] (1420) *)
| PUpdate (latest : Z)                     (** about to load [latest] (1447) *)
| PStamp (version : Z)                     (** about to look up the previous timestamp (1456) *)
| PPut (version : Z) (acts : list action)  (** about to write (1471) *)
| PDone (version : Z)
| PFailed.
Record writer := Writer {
  w_req : txn_req;
  w_table : option snap;      (** [table_data]: what it started from *)
  w_acts : list action;       (** [local_actions] *)
  w_left : nat;               (** attempts left after this one *)
  w_snap : option snap;
  w_phase : phase
}.
Definition set_phase (w : writer) (p : phase) : writer :=
  Writer (w_req w) (w_table w) (w_acts w) (w_left w) (w_snap w) p.
Definition w_creation (w : writer) : bool := match w_table w with None => true | Some _ => false end.
(** 1307-1320 *)
Definition effective_retries (creation : bool) (req : txn_req) : nat :=
  if creation || is_blind (t_acts req) then t_retries req else O.
Definition new_writer (req : txn_req) (sn : option snap) : writer :=
  let creation := match sn with None => true | Some _ => false end in
  Writer req sn (t_acts req) (effective_retries creation req) sn PList.

(** 1353-1382: a table created meanwhile must be the one this writer would have created *)
Definition creation_ok (req : txn_req) (st : rstate) : bool :=
  match head (protocols (t_acts req)) with
  | Some p => bool_decide (rs_protocol st = Some p)
  | None => true
  end &&
  match head (metadatas (t_acts req)), rs_metadata st with
  | Some m, Some m' =>
      bool_decide (m = Metadata (md_file_retention m') (md_log_retention m') (md_ict m') (md_ict_version m')
                         (md_ict_time m') (md_isolation m') (md_id m) (md_rest m'))
  | None, _ => true
  | Some _, None => false
  end.
(** 1384-1406: stripping the creation actions; doing it again changes nothing *)
Definition is_creation_action (a : action) : bool :=
  match a with AProtocol _ | AMetadata _ => true | _ => false end.
Definition strip (acts : list action) : list action :=
  if existsb is_creation_action acts then
    (fun a => match a with ACommitInfo c => ACommitInfo (CommitInfo (Some true) (ci_ict c) (ci_rest c)) | _ => a end)
      <$> filter (fun a => is_creation_action a = false) acts
  else acts.
(** 1352-1418: once the table is loaded and the latest version is known *)
Definition with_snapshot (w : writer) (sn : snap) (latest : Z) : writer :=
  if w_creation w && negb (creation_ok (w_req w) (sn_state sn)) then set_phase w PFailed
  else
    let acts := if w_creation w then strip (w_acts w) else w_acts w in
    let w := Writer (w_req w) (w_table w) acts (w_left w) (Some sn) (w_phase w) in
    if sn_version sn <? latest then
      match effective_retries (w_creation w) (w_req w) with
      | O => set_phase w PFailed
      | S _ => set_phase w (PCheck (sn_version sn + 1) latest)
      end
    else set_phase w (PStamp (latest + 1)).

(** What the store answers to a write: as it should, an error without or after having
    written, or that the file exists although it is this very request that wrote it
    (possible when a store client repeats a request whose answer was lost). *)
Inductive put_result := PutNormal | PutFails | PutLost | PutEcho.
(** One step of the environment: the clock, how a load finds timestamps, the time the
    store gives a new file, the answer to a write, and whether some other error ends the
    attempt (reading fails, or 1466 [validate_effective_commit_target] rejects; these
    tests are not modelled). *)
Record env := Env { e_now : Z; e_src : time_source; e_mtime : Z; e_put : put_result; e_error : bool }.

Inductive event := EWrote (id : nat) (version : Z) (f : cfile).

(** 1497-1505: the version exists; try again if attempts are left *)
Definition retry (w : writer) : writer :=
  match w_left w with
  | O => set_phase w PFailed
  | S n => Writer (w_req w) (w_table w) (w_acts w) n (w_snap w) PList
  end.
Definition put (s : store) (v : Z) (f : cfile) : store := Store (<[v := f]> (st_files s)) (st_base s).

Definition writer_step (s : store) (id : nat) (w : writer) (e : env) : store * writer * list event :=
  if e_error e then
    match w_phase w with PDone _ => (s, w, []) | _ => (s, set_phase w PFailed, []) end
  else
  match w_phase w with
  | PList =>
      match get_latest s (match w_snap w with Some sn => sn_version sn | None => -1 end) with
      | Some latest =>
          match w_snap w with
          | Some sn => (s, with_snapshot w sn latest, [])
          | None => (s, set_phase w (PLoad latest), [])
          end
      | None => (s, set_phase w (PStamp 0), [])
      end
  | PLoad latest =>
      match load s latest (e_src e) with
      | Some sn => (s, with_snapshot w sn latest, [])
      | None => (s, set_phase w PFailed, [])
      end
  | PCheck v latest =>
      match st_files s !! v, w_snap w with
      | Some f, Some sn =>
          match check_conflicts (sn_state sn) (w_req w) (w_acts w) (cf_acts f) with
          | Some _ => (s, set_phase w PFailed, [])
          | None => (s, set_phase w (if v =? latest then PUpdate latest else PCheck (v + 1) latest), [])
          end
      | _, _ => (s, set_phase w PFailed, [])
      end
  | PUpdate latest =>
      match load s latest (e_src e) with
      | Some sn => (s, Writer (w_req w) (w_table w) (w_acts w) (w_left w) (Some sn) (PStamp (latest + 1)), [])
      | None => (s, set_phase w PFailed, [])
      end
  | PStamp version =>
      match w_snap w with
      | None => (s, set_phase w (PPut version (finalize (w_acts w) None version None (e_now e))), [])
      | Some sn =>
          match resolve_time s sn with
          | Some t => (s, set_phase w (PPut version (finalize (w_acts w) (Some sn) version (Some t) (e_now e))), [])
          | None => (s, set_phase w PFailed, [])
          end
      end
  | PPut version acts =>
      let f := CFile acts (e_mtime e) in
      match e_put e, st_files s !! version with
      | PutFails, _ | PutLost, Some _ => (s, set_phase w PFailed, [])
      | PutNormal, Some _ | PutEcho, Some _ => (s, retry w, [])
      | PutNormal, None => (put s version f, set_phase w (PDone version), [EWrote id version f])
      | PutLost, None => (put s version f, set_phase w PFailed, [EWrote id version f])
      | PutEcho, None => (put s version f, retry w, [EWrote id version f])
      end
  | PDone _ | PFailed => (s, w, [])
  end.

(** * The system *)

Record sys := Sys { y_store : store; y_writers : gmap nat writer }.
Definition sys_empty : sys := Sys store_empty ∅.
Inductive sop :=
(** a writer starts: without a table, or from version [v] *)
| SCreate (id : nat) (req : txn_req)
| SStart (id : nat) (req : txn_req) (v : Z) (src : time_source)
(** a writer takes a step *)
| SStep (id : nat) (e : env)
(** somebody writes a checkpoint of version [v], see C19; clean-up deletes the commits
    below [b], which is never above the newest checkpoint, see C22 *)
| SCheckpoint (v : Z)
| SClean (b : Z).
Definition sys_step (y : sys) (op : sop) : sys * list event :=
  let '(Sys s ws) := y in
  match op with
  | SCreate id req => match ws !! id with None => (Sys s (<[id := new_writer req None]> ws), []) | Some _ => (y, []) end
  | SStart id req v src =>
      match ws !! id, load s v src with
      | None, Some sn => (Sys s (<[id := new_writer req (Some sn)]> ws), [])
      | _, _ => (y, [])
      end
  | SStep id e =>
      match ws !! id with
      | Some w => let '(s', w', ev) := writer_step s id w e in (Sys s' (<[id := w']> ws), ev)
      | None => (y, [])
      end
  | SCheckpoint v =>
      match state_at s v with
      | Some st => (Sys (Store (st_files s) (Some (v, st))) ws, [])
      | None => (y, [])
      end
  | SClean b =>
      match st_base s with
      | Some (v, _) => if b <=? v then (Sys (Store (filter (fun kf => b <= kf.1) (st_files s)) (st_base s)) ws, []) else (y, [])
      | None => (y, [])
      end
  end.
Definition sys_run (ops : list sop) : sys * list event :=
  foldl (fun ye op => let '(y', ev) := sys_step ye.1 op in (y', ye.2 ++ ev)) (sys_empty, []) ops.
