(** Specification for writers of a path-based Iceberg table. *)
From Coq Require Import NArith.
From stdpp Require Import prelude list gmap.
From Verif.Iceberg Require Import SnapshotModel SnapshotSpec CommitModel.

(** ** Schedules *)
(** All steps of a schedule satisfy [ok]. *)
Fixpoint steps_ok (ok : phase -> outcome -> bool) (w : world) (l : list (nat * outcome)) : bool :=
  match l with
  | [] => true
  | x :: l => match w_writers w !! x.1 with Some (_, ph) => ok ph x.2 | None => true end && steps_ok ok (step w x) l
  end.
(** The version hint can be read and written, and a request that creates a metadata file
    reports what it did.  Other requests may fail, and writers may crash. *)
Definition hints_work (ph : phase) (e : outcome) : bool :=
  match ph, e with
  | PHint _, ErrO | PHintWrite _, ErrO => false
  | PPut _ _ _ _, LostO | PPut _ _ _ _, EchoO => false
  | _, _ => true
  end.
(** Requests that write a metadata file report what they did. *)
Definition writes_reported (ph : phase) (e : outcome) : bool :=
  match ph, e with
  | PPut _ _ _ _, LostO | PPut _ _ _ _, EchoO => false
  | PBoot _ _ _, LostO | PBoot _ _ _, EchoO => false
  | _, _ => true
  end.
Definition all_work (ph : phase) (e : outcome) : bool := match e with OkO => true | _ => false end.

(** ** Serial histories *)
(** A commit by writer [i] with snapshot id [sid]. *)
Record entry := Entry { e_writer : nat; e_sid : nat; e_commit : commit }.
Definition committed (m : meta) (log : list entry) : meta :=
  fold_left (fun m x => apply_commit m (e_sid x) (e_commit x)) log m.
Definition phase_of (w : world) (i : nat) : option phase := snd <$> w_writers w !! i.
(** The table is [m] with the commits of [log], in that order; [log] has exactly the
    writers that reported success, each with its own commit, and what each required of
    the table was so at its turn. *)
Record serial (m : meta) (w : world) (log : list entry) : Prop := {
  serial_visible : visible w = Some (committed m log);
  serial_writers : forall i, i ∈ map e_writer log <-> phase_of w i = Some PDone;
  serial_once : NoDup (map e_writer log);
  serial_commits : forall before x after, log = before ++ x :: after -> exists rs gz ph,
    w_writers w !! e_writer x = Some (JCommit (e_commit x) rs gz, ph) /\
    requirements_hold (Some (committed m before)) rs = true }.

(** ** Tables to begin with *)
(** A table with a snapshot, whose hint names its last version, and writers that require
    something of the table (write_context.rs:232-239: so do all that were planned when the
    table was there). *)
Record healthy (m : meta) (b : nat) (w : world) : Prop := {
  healthy_hint : w_hint w = Some b;
  healthy_last : files_of b (w_files w) = [(b, m_gz m, m)];
  healthy_max : Forall (fun x => (x.1.1 <= b)%nat) (w_files w);
  healthy_snapshot : current_snapshot m <> None;
  healthy_ids : Forall (fun s => (s_id s < w_sid w)%nat) (m_snaps m);
  healthy_writers : forall i j ph, w_writers w !! i = Some (j, ph) ->
    (exists c rs gz, j = JCommit c rs gz /\ requirements_hold None rs = false) /\ ph = PHint 1 }.

(** A table whose hint is behind: there is a file of the next version.  Nobody but
    [dead], who takes no more steps, has begun. *)
Record behind (m : meta) (b : nat) (dead : nat) (w : world) : Prop := {
  behind_hint : w_hint w = Some b;
  behind_last : files_of b (w_files w) = [(b, m_gz m, m)];
  behind_next : files_of (S b) (w_files w) <> [];
  behind_snapshot : current_snapshot m <> None;
  behind_writers : forall i j ph, w_writers w !! i = Some (j, ph) -> i <> dead ->
    (exists c rs gz, j = JCommit c rs gz /\ requirements_hold None rs = false) /\ ph = PHint 1 }.

(** ** Dangling references *)
(** Snapshots and files that metadata refer to. *)
Definition snapshot_ids (m : meta) : list nat := map s_id (m_snaps m).
Definition meta_paths (m : meta) : list nat :=
  flat_map (fun s => map f_path (live_files false s ++ live_files true s)) (m_snaps m).
Definition intact (w : world) (m : meta) : Prop :=
  (forall s, s ∈ snapshot_ids m -> s ∉ w_gone w) /\ (forall p, p ∈ meta_paths m -> p ∉ w_gone_paths w).
(** Any metadata files of one codec, any jobs of that codec that have not begun, and the
    files of each are its own. *)
Record one_codec (g : bool) (w : world) : Prop := {
  codec_files : forall k m, (k, m) ∈ w_files w -> k.2 = g /\ m_gz m = g;
  codec_ids : forall k m s, (k, m) ∈ w_files w -> s ∈ snapshot_ids m -> (s < w_sid w)%nat;
  codec_gone : w_gone w = [] /\ w_gone_paths w = [];
  codec_writers : forall i j ph, w_writers w !! i = Some (j, ph) -> ph = PHint 1 /\
    match j with JCommit _ _ gz => gz = g | JCreate _ _ _ gz => gz = g end;
  codec_fresh : forall i j ph k m p, w_writers w !! i = Some (j, ph) -> (k, m) ∈ w_files w -> p ∈ job_paths j -> p ∉ meta_paths m;
  codec_own : forall i i' j j' ph ph' p, w_writers w !! i = Some (j, ph) -> w_writers w !! i' = Some (j', ph') ->
    p ∈ job_paths j -> p ∈ job_paths j' -> i = i' }.

(** ** What is required of a table *)
Definition meets (m : option meta) (r : requirement) : Prop :=
  match r with
  | RNotExist => m = None
  | RSchema id => exists m', m = Some m' /\ m_schema m' = id
  | RSnapshot id => exists m', m = Some m' /\ m_current m' = id
  end.

(** ** The file that counts *)
(** [x] is the newest file of its version, and its version is the hinted one if there are
    files of it, otherwise the highest. *)
Definition counts (hint : option nat) (fs : list (nat * bool * meta)) (x : nat * bool * meta) : Prop :=
  exists before after, fs = before ++ x :: after /\ Forall (fun y => y.1.1 <> x.1.1) after /\
  (hint = Some x.1.1 \/
   (forall h, hint = Some h -> Forall (fun y => y.1.1 <> h) fs) /\ Forall (fun y => (y.1.1 <= x.1.1)%nat) fs).
