(** What the names of log files should tell. *)
From Coq Require Import NArith ZArith String.
From stdpp Require Import prelude list strings.
From Verif.Lib Require Import Text.
From Verif.Delta Require Import LogNameModel.
Local Open Scope Z_scope.

(** Versions a table can have. *)
Definition is_version (v : Z) : Prop := 0 <= v <= i64_max.

(** The log files of a table, by what they hold. *)
Inductive log_file :=
| Commit (v : Z)
| Checksum (v : Z)
| Checkpoint (v : Z)
| UuidCheckpoint (v : Z) (uuid : text)
| UuidJsonCheckpoint (v : Z) (uuid : text)
| Compacted (s e : Z).
Definition name_of (f : log_file) : text :=
  match f with
  | Commit v => commit_name v
  | Checksum v => checksum_name v
  | Checkpoint v => checkpoint_name v
  | UuidCheckpoint v u => uuid_checkpoint_name v u
  | UuidJsonCheckpoint v u => uuid_json_checkpoint_name v u
  | Compacted s e => compacted_name s e
  end.
(** The text of a UUID has 36 characters, none of them a slash. *)
Definition is_uuid (u : text) : Prop := length u = 36%nat /\ 47%N ∉ u.
Definition good_file (f : log_file) : Prop :=
  match f with
  | Commit v | Checksum v | Checkpoint v => is_version v
  | UuidCheckpoint v u | UuidJsonCheckpoint v u => is_version v /\ is_uuid u
  | Compacted s e => is_version s /\ is_version e /\ s < e
  end.
(** The version a file starts at, and the version it gives the state of. *)
Definition first_version (f : log_file) : Z :=
  match f with
  | Commit v | Checksum v | Checkpoint v | UuidCheckpoint v _ | UuidJsonCheckpoint v _ => v
  | Compacted s _ => s
  end.
Definition entry_version (f : log_file) : option Z :=
  match f with
  | Checksum _ => None
  | Compacted _ e => Some e
  | f => Some (first_version f)
  end.

(** [m] is the largest of [vs]. *)
Definition largest (m : Z) (vs : list Z) : Prop := m ∈ vs /\ forall v, v ∈ vs -> v <= m.

(** The versions of the log entries of a directory. *)
Definition entry_versions (files : list text) : list Z :=
  omap parse_entry (filter (fun f => top_level f = true) files).
