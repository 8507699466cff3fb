(** What the history of a Delta table is, and which commits may come between reading it
    and writing to it. *)
From Coq Require Import NArith ZArith.
From stdpp Require Import prelude list gmap.
From Verif.Lib Require Import Text.
From Verif.Delta Require Import ActionModel LogModel CommitModel.
Local Open Scope Z_scope.

(** What was written, in the order of writing. *)
Definition written (ops : list sop) : list event := (sys_run ops).2.
Definition ev_version (e : event) : Z := match e with EWrote _ v _ => v end.
Definition ev_file (e : event) : cfile := match e with EWrote _ _ f => f end.
Definition ev_writer (e : event) : nat := match e with EWrote id _ _ => id end.
Definition hist (ops : list sop) : list cfile := ev_file <$> written ops.
Definition store_of (ops : list sop) : store := y_store (sys_run ops).1.
Definition writer_of (ops : list sop) (id : nat) : option writer := y_writers (sys_run ops).1 !! id.

(** The commit and the table of a version. *)
Definition commit_at (h : list cfile) (v : Z) : option cfile := if v <? 0 then None else h !! Z.to_nat v.
Definition table_at (h : list cfile) (v : Z) : rstate :=
  replay rs_empty (concat (cf_acts <$> take (Z.to_nat (v + 1)) h)).

(** A commit [win] that comes between reading the table [st] and writing [acts] does no
    harm.  [whole] is: the whole table was read, so that added files count too unless the
    isolation level says otherwise. *)
Definition changes_protocol (win : list action) : Prop := exists p, AProtocol p ∈ win.
Definition changes_metadata (win : list action) : Prop := exists m, AMetadata m ∈ win.
Definition removes_file (win : list action) (k : fkey) : Prop := exists r, ARemove r ∈ win /\ rm_key r = k.
Definition adds_file (win : list action) (k : fkey) : Prop := exists a, AAdd a ∈ win /\ add_key a = k.
Definition uses_app (win : list action) (app : text) : Prop := exists t, ATxn t ∈ win /\ txn_app t = app.
Definition sets_domain (win : list action) (n : text) : Prop := exists d, ADomain d ∈ win /\ dom_name d = n.
(** The first commit info says that the commit is a blind append. *)
Definition declared_blind (acts : list action) : Prop :=
  exists l c l', acts = l ++ ACommitInfo c :: l' /\ (forall c', ACommitInfo c' ∉ l) /\ ci_blind c = Some true.
(** Added files do not count: under snapshot isolation, and if they are a blind append,
    for a transaction that keeps the metadata under write serializability. *)
Definition appends_allowed (iso : isolation) (acts win : list action) : Prop :=
  iso = SnapshotIsolation \/ (iso = WriteSerializable /\ ~ changes_metadata acts /\ declared_blind win).
Record harmless (st : rstate) (req : txn_req) (acts win : list action) : Prop := {
  h_protocol : changes_protocol win ->
    exists own, head (protocols acts) = Some own /\ (forall p, AProtocol p ∈ win -> p = own) /\
      forall cur, rs_protocol st = Some cur -> pr_reader own <= pr_reader cur /\ pr_writer cur <= pr_writer own;
  h_metadata : changes_metadata win ->
    exists own, head (metadatas acts) = Some own /\ forall m, AMetadata m ∈ win -> m = own;
  h_domains : forall n, sets_domain acts n -> ~ sets_domain win n;
  h_appends : t_whole req = true ->
    appends_allowed (match rs_metadata st with Some m => md_isolation m | None => Serializable end) acts win \/
    forall k, ~ adds_file win k;
  h_deletes : forall k, removes_file win k -> rs_adds st !! k = None /\ t_whole req = false /\ ~ removes_file acts k;
  h_apps : forall a, uses_app acts a -> ~ uses_app win a
}.

(** The actions as asked for, up to what is filled in at the last moment: the commit
    timestamp, and where in-commit timestamps started. *)
Definition unstamp (a : action) : action :=
  match a with
  | ACommitInfo c => ACommitInfo (CommitInfo (ci_blind c) None (ci_rest c))
  | AMetadata m => AMetadata (Metadata (md_file_retention m) (md_log_retention m) (md_ict m) None None
                                (md_isolation m) (md_id m) (md_rest m))
  | _ => a
  end.
Definition as_requested (acts written : list action) : Prop := unstamp <$> written = unstamp <$> acts.

(** Nothing but blind appends: adds, transactions and the commit info. *)
Definition blind_request (req : txn_req) : Prop :=
  Forall (fun a => match a with AAdd _ | ATxn _ | ACommitInfo _ => True | _ => False end) (t_acts req).

(** Assumptions on runs. *)
Definition no_echo (ops : list sop) : Prop := forall id e, SStep id e ∈ ops -> e_put e <> PutEcho.
Definition never_cleaned (ops : list sop) : Prop := forall b, SClean b ∉ ops.
Definition no_compacted_times (ops : list sop) : Prop :=
  (forall id req v t, SStart id req v (TCompacted t) ∉ ops) /\
  (forall id e t, SStep id e ∈ ops -> e_src e <> TCompacted t).
Definition commit_info_first (ops : list sop) : Prop :=
  (forall id req, SCreate id req ∈ ops -> exists c l, t_acts req = ACommitInfo c :: l) /\
  (forall id req v src, SStart id req v src ∈ ops -> exists c l, t_acts req = ACommitInfo c :: l).

(** In-commit timestamps are on at version [v]. *)
Definition ict_on (h : list cfile) (v : Z) : Prop :=
  exists p m, rs_protocol (table_at h v) = Some p /\ rs_metadata (table_at h v) = Some m /\ pr_ict p = true /\ md_ict m = true.
(** The enablement version in the table's metadata is not ahead of the table. *)
Definition enablement_not_ahead (h : list cfile) : Prop :=
  forall v m e, 0 <= v < Z.of_nat (length h) -> rs_metadata (table_at h v) = Some m -> md_ict_version m = Some e -> e <= v.
(** The one metadata action of a commit. *)
Definition one_metadata (acts : list action) (m : metadata) : Prop :=
  omap (fun a => match a with AMetadata m => Some m | _ => None end) acts = [m].
(** The timestamp of a version: its in-commit timestamp if those are in use for it,
    the time of its file otherwise. *)
Definition version_time (h : list cfile) (v : Z) : option Z :=
  f ← commit_at h v;
  match rs_protocol (table_at h v), rs_metadata (table_at h v) with
  | Some p, Some m => if uses_ict v p m then ict_of (cf_acts f) else Some (cf_mtime f)
  | _, _ => None
  end.

(** The version a writer last read, -1 if none; whether it is through. *)
Definition read_version (w : writer) : Z := match w_snap w with Some sn => sn_version sn | None => -1 end.
Definition finished (w : writer) : Prop := w_phase w = PFailed \/ exists v, w_phase w = PDone v.
(** The lowest version a writer may still write; none if it is through, or if it has not
    seen the table yet and is going to look for it. *)
Definition may_write (w : writer) : option Z :=
  match w_phase w, w_snap w with
  | PDone _, _ | PFailed, _ => None
  | _, Some sn => Some (sn_version sn + 1)
  | PStamp v, None | PPut v _, None => Some v
  | _, None => None
  end.
(** No writer takes so long that clean-up deletes the commits made since it read the
    table (log retention is 30 days by default). *)
Definition timely_cleanup (ops : list sop) : Prop :=
  forall before b after, ops = before ++ SClean b :: after ->
    forall id w v, writer_of before id = Some w -> may_write w = Some v -> b <= v.

(** The actions of an overwrite (physical_plan/planner/op_write.rs): every live file is
    removed, the new ones are added. *)
Definition overwrite_actions (st : rstate) (new : list add) : list action :=
  ((fun ka => ARemove (Remove (add_path ka.2) (add_dv ka.2) None (Some (add_size ka.2)) true (add_rest ka.2)))
     <$> map_to_list (rs_adds st)) ++ (AAdd <$> new).
