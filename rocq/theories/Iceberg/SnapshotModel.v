(** Model of how a commit turns table metadata into new metadata: manifests, row counts,
    row ids and the snapshot summary.
    Sources: crates/sail-iceberg/src/operations/snapshot.rs,
             crates/sail-iceberg/src/operations/bootstrap.rs,
             crates/sail-iceberg/src/operations/mod.rs,
             crates/sail-iceberg/src/spec/metadata/table_metadata.rs,
             crates/sail-iceberg/src/physical_plan/commit/commit_exec.rs,
             crates/sail-iceberg/src/datasource/provider.rs.
    Numbers are unbounded.  Schemas, partition specs, the logs and timestamps are left
    out, apart from the ids of schema and format. *)
From Coq Require Import NArith.
From stdpp Require Import prelude list.
Local Open Scope N_scope.

(** ** Files and manifests *)
Inductive content := CData | CPosition | CEquality.
Global Instance content_eq_dec : EqDecision content.
Proof. solve_decision. Defined.
(** A data or delete file: path, row count, spec id, and the first row id that the entry
    itself carries. *)
Record file := File { f_path : nat; f_content : content; f_rows : N; f_spec : nat; f_first : option N }.
Inductive status := Added | Existing | Deleted.
Global Instance status_eq_dec : EqDecision status.
Proof. solve_decision. Defined.
(** One number for each status. *)
Record counts A := Counts { n_added : A; n_existing : A; n_deleted : A }.
Global Arguments Counts {A}. Global Arguments n_added {A}. Global Arguments n_existing {A}. Global Arguments n_deleted {A}.
(** An entry of a manifest list together with the manifest it points to.  The counts are
    optional since older writers leave them out. *)
Record manifest_file := MFile {
  mf_deletes : bool; mf_spec : nat; mf_seq : N;
  mf_file_counts : counts (option N); mf_row_counts : counts (option N);
  mf_first : option N; mf_entries : list (status * file) }.

Definition is_live (s : status) : bool := match s with Deleted => false | _ => true end.
Definition rows_of (l : list file) : N := foldr (fun f n => f_rows f + n) 0 l.
Definition with_status (s : status) (es : list (status * file)) : list file :=
  map snd (filter (fun e : status * file => e.1 = s) es).

(** snapshot.rs:217-266 [populate_retained_manifest_counts] *)
Definition or_else (o : option N) (n : N) : option N := match o with Some x => Some x | None => Some n end.
Definition populate (m : manifest_file) : manifest_file :=
  let files s := N.of_nat (length (with_status s (mf_entries m))) in
  let rows s := rows_of (with_status s (mf_entries m)) in
  MFile (mf_deletes m) (mf_spec m) (mf_seq m)
    (Counts (or_else (n_added (mf_file_counts m)) (files Added)) (or_else (n_existing (mf_file_counts m)) (files Existing))
            (or_else (n_deleted (mf_file_counts m)) (files Deleted)))
    (Counts (or_else (n_added (mf_row_counts m)) (rows Added)) (or_else (n_existing (mf_row_counts m)) (rows Existing))
            (or_else (n_deleted (mf_row_counts m)) (rows Deleted)))
    (mf_first m) (mf_entries m).

(** snapshot.rs:32-38 *)
Definition active (c : counts (option N)) : option N :=
  a ← n_added c; e ← n_existing c; Some (a + e).

(** ** Summaries *)
Record totals := Totals {
  t_data_files : option N; t_delete_files : option N; t_records : option N;
  t_position : option N; t_equality : option N }.
(** snapshot.rs:58-112 [with_manifest_totals]; [base] are the delete row totals to start
    from (40-55, 317-328), zero if nothing is carried over *)
Definition add_active (t : option N) (c : counts (option N)) : option N := x ← t; y ← active c; Some (x + y).
Definition manifest_totals (base_position base_equality : option N) (ms : list manifest_file)
  (added_position added_equality : N) : totals :=
  let total (deletes : bool) (counts_of : manifest_file -> counts (option N)) :=
    fold_left (fun t m => if Bool.eqb (mf_deletes m) deletes then add_active t (counts_of m) else t) ms (Some 0) in
  Totals (total false mf_file_counts) (total true mf_file_counts) (total false mf_row_counts)
    ((fun p => p + added_position) <$> base_position) ((fun p => p + added_equality) <$> base_equality).

(** ** Snapshots and metadata *)
Record snapshot := Snap {
  s_id : nat; s_parent : option nat; s_seq : N; s_manifests : list manifest_file;
  s_totals : totals; s_first_row : option N; s_added_rows : option N }.
(** Table metadata: format version, snapshots, id of the current snapshot, last sequence
    number, next row id, schema id, and whether metadata files are compressed. *)
Record meta := Meta {
  m_format : N; m_snaps : list snapshot; m_current : option nat; m_seq : N; m_next_row : option N;
  m_schema : nat; m_gz : bool }.
(** table_metadata.rs:137-158 *)
Definition find_snapshot (id : nat) (l : list snapshot) : option snapshot := find (fun s => bool_decide (s_id s = id)) l.
Definition current_snapshot (m : meta) : option snapshot := id ← m_current m; find_snapshot id (m_snaps m).
(** table_metadata.rs:227-249 [row_lineage_start_row_id], [inferred_next_row_id] *)
Definition inferred_next_row (l : list snapshot) : N :=
  foldr (fun s n => match s_first_row s, s_added_rows s with Some a, Some b => N.max (a + b) n | _, _ => n end) 0 l.
Definition row_start (m : meta) : option N :=
  if 3 <=? m_format m then Some (default (inferred_next_row (m_snaps m)) (m_next_row m)) else None.

(** ** Commits *)
(** snapshot.rs:268-273 [SnapshotUpdateKind] *)
Inductive kind := FastAppend | FullOverwrite | RowDelta.
Definition carries (k : kind) : bool := match k with FullOverwrite => false | _ => true end.
(** What a writer wants to commit: data and delete files, and the schema and format
    version its data is written with. *)
Record commit := Commit { c_kind : kind; c_data : list file; c_deletes : list file; c_schema : nat; c_format : N }.

(** snapshot.rs:113-180 [manifest_inputs]: the files by spec id, in the order of the ids.
    That the specs exist is assumed. *)
Fixpoint insert_spec (n : nat) (l : list nat) : list nat :=
  match l with
  | [] => [n]
  | k :: l' => if (n <? k)%nat then n :: l else if (n =? k)%nat then l else k :: insert_spec n l'
  end.
Definition specs_of (fs : list file) : list nat := foldr (fun f l => insert_spec (f_spec f) l) [] fs.
Definition manifest_inputs (fs : list file) : list (nat * list file) :=
  map (fun n => (n, filter (fun f => f_spec f = n) fs)) (specs_of fs).

(** snapshot.rs:580-600: row ids for carried manifests that have none *)
Fixpoint assign_rows (next : option N) (ms : list manifest_file) : list manifest_file * option N :=
  match ms with
  | [] => ([], next)
  | m :: ms =>
      match next with
      | None => (m :: ms, None)
      | Some n =>
          if mf_deletes m then let '(ms, next) := assign_rows next ms in (m :: ms, next)
          else match mf_first m with
          | Some _ => let '(ms, next) := assign_rows next ms in (m :: ms, next)
          | None =>
              let n' := n + (default 0 (n_added (mf_row_counts m)) + default 0 (n_existing (mf_row_counts m))) in
              let '(ms, next) := assign_rows (Some n') ms in
              (MFile (mf_deletes m) (mf_spec m) (mf_seq m) (mf_file_counts m) (mf_row_counts m) (Some n) (mf_entries m) :: ms, next)
          end
      end
  end.
Definition fresh_manifest (deletes : bool) (seq : N) (first : option N) (input : nat * list file) : manifest_file :=
  MFile deletes input.1 seq
    (Counts (Some (N.of_nat (length input.2))) (Some 0) (Some 0)) (Counts (Some (rows_of input.2)) (Some 0) (Some 0))
    first (map (pair Added) input.2).
(** snapshot.rs:605-660: manifests for the new data files *)
Fixpoint data_manifests (seq : N) (next : option N) (inputs : list (nat * list file)) : list manifest_file :=
  match inputs with
  | [] => []
  | i :: inputs =>
      fresh_manifest false seq next i :: data_manifests seq ((fun n => n + rows_of i.2) <$> next) inputs
  end.
Definition content_rows (c : content) (fs : list file) : N :=
  rows_of (filter (fun f => f_content f = c) fs).

(** snapshot.rs:458-820 [build_action_commit], for the parent [parent]; [None] is a
    bootstrap, which carries nothing over (bootstrap.rs:113-180, 197-330).  [id] is the
    random snapshot id. *)
Definition build_snapshot (parent : option snapshot) (start : option N) (last_seq : N) (id : nat) (c : commit) : snapshot :=
  let seq := last_seq + 1 in
  let carried := match parent with Some p => if carries (c_kind c) then map populate (s_manifests p) else [] | None => [] end in
  let '(carried, next) := assign_rows start carried in
  let assigned := match start, next with Some a, Some b => b - a | _, _ => 0 end in
  let fresh := data_manifests seq next (manifest_inputs (c_data c)) ++
               map (fresh_manifest true seq None) (manifest_inputs (c_deletes c)) in
  let base t := match parent with Some p => if carries (c_kind c) then t (s_totals p) else Some 0 | None => Some 0 end in
  Snap id (s_id <$> parent) seq (carried ++ fresh)
    (manifest_totals (base t_position) (base t_equality) (carried ++ fresh)
       (content_rows CPosition (c_deletes c)) (content_rows CEquality (c_deletes c)))
    start ((fun _ => assigned + rows_of (c_data c)) <$> start).

(** commit_exec.rs:717-793 (schema and format version) and 1068-1104, bootstrap.rs:497-540:
    the metadata with the new snapshot.  A snapshot without a parent is built when there
    is no current one. *)
Definition apply_commit (m : meta) (id : nat) (c : commit) : meta :=
  let m := Meta (N.max (m_format m) (c_format c)) (m_snaps m) (m_current m) (m_seq m) (m_next_row m) (c_schema c) (m_gz m) in
  let s := build_snapshot (current_snapshot m) (row_start m) (m_seq m) id c in
  Meta (m_format m) (m_snaps m ++ [s]) (Some id) (N.max (m_seq m) (s_seq s))
    (match row_start m, s_added_rows s with Some n, Some k => Some (n + k) | _, _ => m_next_row m end)
    (m_schema m) (m_gz m).
(** bootstrap.rs:331-378 [bootstrap_empty_table_metadata] *)
Definition empty_meta (format : N) (schema : nat) (gz : bool) : meta :=
  Meta format [] None 0 (if 3 <=? format then Some 0 else None) schema gz.
(** bootstrap.rs:380-461 [replace_empty_table_metadata] *)
Definition replace_meta (m : meta) (format : N) (schema : nat) (gz : bool) : meta :=
  let m' := Meta (N.max (m_format m) format) (m_snaps m) None (m_seq m) (m_next_row m) schema gz in
  Meta (m_format m') (m_snaps m) None (m_seq m) (row_start m') schema gz.

(** ** Reading *)
(** provider.rs:354-379: the live files of a manifest with the row id they begin at *)
Fixpoint inherit_rows (next : option N) (es : list (status * file)) : list (file * option N) :=
  match es with
  | [] => []
  | (s, f) :: es =>
      if is_live s then
        (f, match f_first f with Some n => Some n | None => next end) ::
        inherit_rows ((fun n => n + f_rows f) <$> next) es
      else inherit_rows next es
  end.
Definition data_files (s : snapshot) : list (file * option N) :=
  flat_map (fun m => if mf_deletes m then [] else inherit_rows (mf_first m) (mf_entries m)) (s_manifests s).
