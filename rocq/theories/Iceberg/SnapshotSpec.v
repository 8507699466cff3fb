(** Specification for snapshots: row counts, totals and row ids. *)
From Coq Require Import NArith.
From stdpp Require Import prelude list.
From Verif.Iceberg Require Import SnapshotModel.
Local Open Scope N_scope.

(** ** Live files *)
Definition live_entries (es : list (status * file)) : list file :=
  map snd (filter (fun e : status * file => e.1 <> Deleted) es).
Definition live_files (deletes : bool) (s : snapshot) : list file :=
  flat_map (fun m => if decide (mf_deletes m = deletes) then live_entries (mf_entries m) else []) (s_manifests s).
Definition of_content (c : content) (fs : list file) : list file := filter (fun f => f_content f = c) fs.

(** What a commit must do to the files of the table. *)
Definition files_after (deletes : bool) (parent : option snapshot) (c : commit) : list file :=
  match parent with
  | Some p => if carries (c_kind c) then live_files deletes p else []
  | None => []
  end.

(** ** Counts *)
(** A count that is there is right. *)
Definition count_right (o : option N) (n : N) : Prop := o = None \/ o = Some n.
Definition counts_right (m : manifest_file) : Prop :=
  forall s, count_right (match s with Added => n_added | Existing => n_existing | Deleted => n_deleted end (mf_file_counts m))
              (N.of_nat (length (with_status s (mf_entries m)))) /\
            count_right (match s with Added => n_added | Existing => n_existing | Deleted => n_deleted end (mf_row_counts m))
              (rows_of (with_status s (mf_entries m))).
(** A summary states the number of live files and rows. *)
Definition totals_right (s : snapshot) : Prop :=
  t_data_files (s_totals s) = Some (N.of_nat (length (live_files false s))) /\
  t_delete_files (s_totals s) = Some (N.of_nat (length (live_files true s))) /\
  t_records (s_totals s) = Some (rows_of (live_files false s)) /\
  t_position (s_totals s) = Some (rows_of (of_content CPosition (live_files true s))) /\
  t_equality (s_totals s) = Some (rows_of (of_content CEquality (live_files true s))).

(** ** Row ids *)
(** The row ids of a file that begins at [n]. *)
Definition has_row (x : file * option N) (id : N) : Prop :=
  exists n, x.2 = Some n /\ n <= id < n + f_rows x.1.
(** No row id belongs to two files, all are below [bound]. *)
Definition rows_distinct (l : list (file * option N)) (bound : N) : Prop :=
  (forall i j x y id, l !! i = Some x -> l !! j = Some y -> has_row x id -> has_row y id -> i = j) /\
  (forall x id, x ∈ l -> has_row x id -> id < bound).
(** The Iceberg specification: files without a row id of their own are numbered one after
    the other; only these advance the counter. *)
Fixpoint spec_rows (next : option N) (es : list (status * file)) : list (file * option N) :=
  match es with
  | [] => []
  | (s, f) :: es =>
      match s, f_first f with
      | Deleted, _ => spec_rows next es
      | _, Some n => (f, Some n) :: spec_rows next es
      | _, None => (f, next) :: spec_rows ((fun n => n + f_rows f) <$> next) es
      end
  end.
(** A manifest reserves the row ids from its first one for its live rows. *)
Definition manifest_rows (m : manifest_file) : N := rows_of (live_entries (mf_entries m)).

(** ** Histories *)
(** A table changes by commits and by CREATE OR REPLACE. *)
Inductive change := ChCommit (id : nat) (c : commit) | ChReplace (format : N) (schema : nat) (gz : bool).
Definition apply_change (m : meta) (x : change) : meta :=
  match x with ChCommit id c => apply_commit m id c | ChReplace f s gz => replace_meta m f s gz end.
Definition history (m : meta) (l : list change) : meta := fold_left apply_change l m.
Definition change_ids (l : list change) : list nat :=
  omap (fun x => match x with ChCommit id _ => Some id | _ => None end) l.
(** Data files and delete files are what they should be, and come without row ids. *)
Definition commit_ok (c : commit) : Prop :=
  Forall (fun f => f_first f = None) (c_data c) /\ Forall (fun f => f_content f <> CData) (c_deletes c).
Definition change_ok (x : change) : Prop := match x with ChCommit _ c => commit_ok c | _ => True end.
