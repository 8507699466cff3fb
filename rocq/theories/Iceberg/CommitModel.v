(** Model of writers that commit to a path-based Iceberg table at the same time.
    Sources: crates/sail-iceberg/src/physical_plan/commit/commit_exec.rs,
             crates/sail-iceberg/src/operations/bootstrap.rs,
             crates/sail-iceberg/src/table/metadata_loader.rs,
             crates/sail-iceberg/src/utils/metadata.rs,
             crates/sail-iceberg/src/table_format.rs.
    Every request to the object store is one step; steps of different writers interleave
    in any order.  A writer that crashes takes no more steps.  Each object is read and
    written as a whole and listings are consistent.  Only the mode in which the metadata
    directory decides (IcebergCatalogCommitMode::Filesystem) is modelled, with file names
    v{n}.metadata.json and v{n}.gz.metadata.json. *)
From Coq Require Import NArith.
From stdpp Require Import prelude list gmap.
From Verif.Iceberg Require Import SnapshotModel.

(** commit_exec.rs:63 *)
Definition max_retries : nat := 5.

(** ** Requirements *)
(** commit_exec.rs:236-350 [validate_requirements]; those on field ids, the partition
    spec and the sort order work like that on the schema and are left out. *)
Inductive requirement := RNotExist | RSchema (id : nat) | RSnapshot (id : option nat).
Definition requirement_holds (m : option meta) (r : requirement) : bool :=
  match r, m with
  | RNotExist, None => true
  | RNotExist, Some _ => false
  | RSchema id, Some m => bool_decide (m_schema m = id)
  | RSnapshot id, Some m => bool_decide (m_current m = id)
  | _, None => false
  end.
Definition requirements_hold (m : option meta) (rs : list requirement) : bool := forallb (requirement_holds m) rs.

(** ** Writers *)
(** A write with its requirements and the codec in case it creates the table, or a
    CREATE [OR REPLACE] TABLE. *)
Inductive job :=
| JCommit (c : commit) (rs : list requirement) (gz : bool)
| JCreate (replace : bool) (format : N) (schema : nat) (gz : bool).
(** The request a writer makes next; [attempt] counts from one. *)
Inductive phase :=
| PHint (attempt : nat)                              (* read the version hint *)
| PList (attempt : nat) (hint : option nat)          (* list the metadata files *)
| PLoad (attempt : nat) (v : nat) (gz : bool)        (* read a metadata file *)
| PNext (attempt : nat) (v : nat) (m : meta)         (* list the files of version v + 1 *)
| PPut (attempt : nat) (v : nat) (m : meta) (sid : nat)  (* create version v *)
| PVerify (attempt : nat) (v : nat) (gz : bool) (sid : nat)  (* list the files of version v *)
| PBoot (v : nat) (m : meta) (sid : option nat)      (* write version v, whether it exists or not *)
| PHintWrite (v : nat)                               (* write the version hint *)
| PDone | PFailed
| PBroken.                                           (* an error after the metadata was written *)

(** Metadata files in the order of their modification, the version hint, the next
    snapshot id (ids are random), the snapshots whose manifests and manifest list were
    removed, the data files that were removed, the writers. *)
Record world := World {
  w_files : list (nat * bool * meta); w_hint : option nat; w_sid : nat;
  w_gone : list nat; w_gone_paths : list nat; w_writers : gmap nat (job * phase) }.

(** ** The metadata directory *)
Definition files_of (v : nat) (fs : list (nat * bool * meta)) : list (nat * bool * meta) := filter (fun x => x.1.1 = v) fs.
Definition has_file (k : nat * bool) (fs : list (nat * bool * meta)) : bool := bool_decide (k ∈ map fst fs).
Definition delete_file (k : nat * bool) (fs : list (nat * bool * meta)) : list (nat * bool * meta) := filter (fun x => x.1 <> k) fs.
Definition put_file (v : nat) (m : meta) (fs : list (nat * bool * meta)) : list (nat * bool * meta) :=
  delete_file (v, m_gz m) fs ++ [(v, m_gz m, m)].
Definition read_file (k : nat * bool) (fs : list (nat * bool * meta)) : option meta :=
  snd <$> find (fun x => bool_decide (x.1 = k)) fs.
(** metadata_loader.rs:180-275 [find_latest_metadata_file]: the newest file of the hinted
    version, or else that of the highest version *)
Definition find_latest (hint : option nat) (fs : list (nat * bool * meta)) : option (nat * bool) :=
  let pick v := fst <$> last (files_of v fs) in
  let newest := pick (max_list (map (fun x => x.1.1) fs)) in
  match hint with
  | Some h => match pick h with Some k => Some k | None => newest end
  | None => newest
  end.
(** What a query sees. *)
Definition visible (w : world) : option meta :=
  k ← find_latest (w_hint w) (w_files w); read_file k (w_files w).

(** ** Steps *)
(** How a request ends: well; with an error and no effect; with an error although it took
    effect; with "already exists" although it took effect (after a retry by the client). *)
Inductive outcome := OkO | ErrO | LostO | EchoO.
Global Instance outcome_eq_dec : EqDecision outcome.
Proof. solve_decision. Defined.

Definition set_phase (i : nat) (j : job) (ph : phase) (w : world) : world :=
  World (w_files w) (w_hint w) (w_sid w) (w_gone w) (w_gone_paths w) (<[i := (j, ph)]> (w_writers w)).
Definition set_files (fs : list (nat * bool * meta)) (w : world) : world :=
  World fs (w_hint w) (w_sid w) (w_gone w) (w_gone_paths w) (w_writers w).
Definition set_hint (v : nat) (w : world) : world :=
  World (w_files w) (Some v) (w_sid w) (w_gone w) (w_gone_paths w) (w_writers w).
Definition take_sid (w : world) : world :=
  World (w_files w) (w_hint w) (S (w_sid w)) (w_gone w) (w_gone_paths w) (w_writers w).
(** snapshot.rs:343-378 [PreparedSnapshot::cleanup] *)
Definition clean_snapshot (sid : nat) (w : world) : world :=
  World (w_files w) (w_hint w) (w_sid w) (sid :: w_gone w) (w_gone_paths w) (w_writers w).
(** commit_exec.rs:1221-1223: the files written by the tasks *)
Definition job_paths (j : job) : list nat :=
  match j with JCommit c _ _ => map f_path (c_data c ++ c_deletes c) | JCreate _ _ _ _ => [] end.
Definition fail (i : nat) (j : job) (w : world) : world :=
  set_phase i j PFailed (World (w_files w) (w_hint w) (w_sid w) (w_gone w) (job_paths j ++ w_gone_paths w) (w_writers w)).
(** commit_exec.rs:942-945, 1146-1149, 1182-1185 *)
Definition retry (i : nat) (j : job) (attempt : nat) (w : world) : world :=
  if max_retries <=? attempt then fail i j w else set_phase i j (PHint (S attempt)) w.
(** commit_exec.rs:648-697, bootstrap.rs:197-329: no table yet *)
Definition new_table (i : nat) (j : job) (c : commit) (rs : list requirement) (gz : bool) (w : world) : world :=
  if requirements_hold None rs then
    set_phase i j (PBoot 1 (apply_commit (empty_meta (c_format c) (c_schema c) gz) (w_sid w) c) (Some (w_sid w))) (take_sid w)
  else fail i j w.

(** commit_exec.rs:620-1225 [execute], table_format.rs:240-330 [create_table],
    bootstrap.rs:72-109 [write_metadata_version] *)
Definition step_phase (w : world) (i : nat) (j : job) (ph : phase) (e : outcome) : world :=
  match ph with
  | PHint a => set_phase i j (PList a (match e with ErrO => None | _ => w_hint w end)) w
  | PList a h =>
      match j with
      | JCommit c rs gz =>
          match (match e with ErrO => None | _ => find_latest h (w_files w) end) with
          | Some (v, g) => set_phase i j (PLoad a v g) w
          | None => if a =? 1 then new_table i j c rs gz w else fail i j w
          end
      | JCreate replace format schema gz =>
          match e, find_latest h (w_files w) with
          | ErrO, _ => fail i j w
          | _, Some (v, g) => if replace then set_phase i j (PLoad a v g) w else fail i j w
          | _, None => set_phase i j (PBoot 1 (empty_meta format schema gz) None) w
          end
      end
  | PLoad a v g =>
      match e, read_file (v, g) (w_files w) with
      | ErrO, _ | _, None => fail i j w
      | _, Some m =>
          match j with
          | JCommit c rs _ =>
              if requirements_hold (Some m) rs then
                match current_snapshot m with
                | Some _ => set_phase i j (PNext a v m) w
                | None => set_phase i j (PBoot (S v) (apply_commit m (w_sid w) c) (Some (w_sid w))) (take_sid w)
                end
              else fail i j w
          | JCreate _ format schema gz => set_phase i j (PBoot (S v) (replace_meta m format schema gz) None) w
          end
      end
  | PNext a v m =>
      match e, j with
      | ErrO, _ | _, JCreate _ _ _ _ => fail i j w
      | _, JCommit c _ _ =>
          match files_of (S v) (w_files w) with
          | [] => set_phase i j (PPut a (S v) (apply_commit m (w_sid w) c) (w_sid w)) (take_sid w)
          | _ :: _ => retry i j a w
          end
      end
  | PPut a v m sid =>
      let exists_already := has_file (v, m_gz m) (w_files w) in
      let written := if exists_already then w else set_files (put_file v m (w_files w)) w in
      match e with
      | OkO => if exists_already then retry i j a (clean_snapshot sid w)
               else set_phase i j (PVerify a v (m_gz m) sid) written
      | ErrO => fail i j (clean_snapshot sid w)
      | LostO => fail i j (clean_snapshot sid written)
      | EchoO => retry i j a (clean_snapshot sid written)
      end
  | PVerify a v g sid =>
      match e with
      | ErrO => set_phase i j PBroken w
      | _ => if forallb (fun x : nat * bool * meta => bool_decide (x.1 = (v, g))) (files_of v (w_files w)) then set_phase i j (PHintWrite v) w
             else retry i j a (clean_snapshot sid (set_files (delete_file (v, g) (w_files w)) w))
      end
  | PBoot v m sid =>
      let cleaned w := match sid with Some s => clean_snapshot s w | None => w end in
      let written := set_files (put_file v m (w_files w)) w in
      match e with
      | OkO => set_phase i j (PHintWrite v) written
      | ErrO => fail i j (cleaned w)
      | _ => fail i j (cleaned written)
      end
  | PHintWrite v => set_phase i j PDone (match e with ErrO => w | _ => set_hint v w end)
  | PDone | PFailed | PBroken => w
  end.
Definition step (w : world) (x : nat * outcome) : world :=
  match w_writers w !! x.1 with Some (j, ph) => step_phase w x.1 j ph x.2 | None => w end.
Definition run (w : world) (l : list (nat * outcome)) : world := fold_left step l w.
