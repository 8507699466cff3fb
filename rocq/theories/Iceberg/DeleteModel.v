(** Model of the read path of Iceberg tables with delete files.
    Sources: crates/sail-iceberg/src/spec/delete_index.rs,
             crates/sail-iceberg/src/datasource/provider.rs,
             crates/sail-iceberg/src/physical_plan/delete_apply_exec.rs.
    Scans without filters and without a limit; pruning is modelled separately.
    Parquet and Avro decoding are not modelled: a manifest is its entries and a
    delete file its rows. *)
From Coq Require Import NArith ZArith Lia.
From stdpp Require Import prelude list gmap.
From Verif.Lib Require Import Text Sort.
From Verif.Iceberg Require Import ValueModel.

(** * Partition keys *)

(** [to_le_bytes] of a number of [k] bytes. *)
Fixpoint le_bytes (k : nat) (n : N) : text :=
  match k with
  | O => []
  | S k => (n mod 256)%N :: le_bytes k (n / 256)%N
  end.
(** The two's complement of a signed number of [k] bytes. *)
Definition signed_le (k : nat) (z : Z) : text := le_bytes k (Z.to_N (z mod 2 ^ (8 * Z.of_nat k))).
(** [len as u32] *)
Definition len32 (s : text) : text := le_bytes 4 (N.of_nat (length s)).

(** delete_index.rs:104-148 [encode_primitive] *)
Definition encode_prim (p : prim) : text :=
  match p with
  | PBool b => [0x01; if b then 1 else 0]%N
  | PInt z => 0x02%N :: signed_le 4 z
  | PLong z => 0x03%N :: signed_le 8 z
  | PFloat b => 0x04%N :: le_bytes 4 b
  | PDouble b => 0x05%N :: le_bytes 8 b
  | PInt128 z => 0x06%N :: signed_le 16 z
  | PUInt128 n => 0x07%N :: le_bytes 16 n
  | PString s => 0x08%N :: len32 s ++ s
  | PBinary s => 0x09%N :: len32 s ++ s
  end.
(** delete_index.rs:43-58 [PartitionKey::new] *)
Definition encode_value (v : option prim) : text :=
  match v with None => [0%N] | Some p => 1%N :: encode_prim p end.
Definition partition_key (spec : Z) (vs : list (option prim)) : Z * text :=
  (spec, flat_map encode_value vs).

(** * Files, manifests and the delete index *)

Inductive content := CData | CPos | CEq.
Global Instance content_eqdec : EqDecision content.
Proof. solve_decision. Defined.
(** The parts of [DataFile] that matter here; [f_dv]: a Puffin deletion vector
    (delete_index.rs:28-33). *)
Record dfile := DFile {
  f_path : text;
  f_content : content;
  f_partition : list (option prim);
  f_ref : option text;
  f_dv : bool;
  f_equality_ids : list Z;
}.
Global Instance dfile_eqdec : EqDecision dfile.
Proof. solve_decision. Defined.
(** A data or delete file with its inherited sequence number and partition spec
    (delete_index.rs:12-24 [DeleteFileRef]); [r_unpart] is only used for deletes. *)
Record fref := FRef { r_file : dfile; r_seq : Z; r_spec : Z; r_unpart : bool }.
Global Instance fref_eqdec : EqDecision fref.
Proof. solve_decision. Defined.

Inductive status := Existing | Added | Deleted.
Record mentry := MEntry { e_status : status; e_seq : option Z; e_file : dfile }.
Record mfile := MFile { m_deletes : bool; m_spec : Z; m_seq : Z; m_entries : list mentry }.

(** delete_index.rs:151-162 [DeleteFileIndex] *)
Record dindex := DIndex {
  ix_global : list fref;
  ix_eq : gmap (Z * text) (list fref);
  ix_pos : gmap (Z * text) (list fref);
  ix_path : gmap text (list fref);
}.
Definition ix_empty : dindex := DIndex [] ∅ ∅ ∅.
(** [entry(key).or_default().push(r)] *)
Definition push_at {K} `{Countable K} (m : gmap K (list fref)) (k : K) (r : fref) : gmap K (list fref) :=
  <[k := default [] (m !! k) ++ [r]]> m.
Definition ref_key (r : fref) : Z * text := partition_key (r_spec r) (f_partition (r_file r)).

(** delete_index.rs:190-231 [insert]; [None] is the error. *)
Definition ix_insert (ix : dindex) (r : fref) : option dindex :=
  if f_dv (r_file r) then None
  else match f_content (r_file r) with
  | CData => None
  | CEq =>
      if r_unpart r then Some (DIndex (ix_global ix ++ [r]) (ix_eq ix) (ix_pos ix) (ix_path ix))
      else Some (DIndex (ix_global ix) (push_at (ix_eq ix) (ref_key r) r) (ix_pos ix) (ix_path ix))
  | CPos =>
      match f_ref (r_file r) with
      | Some p => Some (DIndex (ix_global ix) (ix_eq ix) (ix_pos ix) (push_at (ix_path ix) p r))
      | None => Some (DIndex (ix_global ix) (ix_eq ix) (push_at (ix_pos ix) (ref_key r) r) (ix_path ix))
      end
  end.

(** delete_index.rs:234-276 [for_data_file]: the positional and equality deletes. *)
Definition for_data_file (ix : dindex) (d : fref) : list fref * list fref :=
  let key := ref_key d in
  let not_newer r := bool_decide (r_seq d <= r_seq r)%Z in
  let older r := bool_decide (r_seq d < r_seq r)%Z in
  (List.filter not_newer (default [] (ix_path ix !! f_path (r_file d))) ++
   List.filter not_newer (default [] (ix_pos ix !! key)),
   List.filter older (default [] (ix_eq ix !! key)) ++
   List.filter older (ix_global ix)).

(** The entries of a manifest that are in the snapshot, with inheritance
    (provider.rs:352-373 and 441-455). *)
Definition live_entry (s : status) : bool := match s with Deleted => false | _ => true end.
Definition manifest_refs (unpart : Z -> bool) (m : mfile) : list fref :=
  omap (fun e =>
    if live_entry (e_status e)
    then Some (FRef (e_file e) (default (m_seq m) (e_seq e)) (m_spec m) (unpart (m_spec m)))
    else None) (m_entries m).

(** provider.rs:321-406 [load_data_files_with_seq] without filters. *)
Definition load_data_files (unpart : Z -> bool) (ms : list mfile) : list fref :=
  flat_map (manifest_refs unpart) (List.filter (fun m => negb (m_deletes m)) ms).
(** provider.rs:408-476 [build_delete_file_index]; [unpart s]: the spec with id [s]
    is known and has no fields or only void ones (spec.rs:123-125). *)
Definition build_index (unpart : Z -> bool) (ms : list mfile) : option dindex :=
  foldl (fun acc r => match acc with Some ix => ix_insert ix r | None => None end) (Some ix_empty)
    (flat_map (manifest_refs unpart) (List.filter m_deletes ms)).

(** * Applying deletes *)
Section apply.
Context {Row : Type}.

(** The rows of a position delete file, and the keys of an equality delete file
    (projected on its equality ids; arrow's row encoding is assumed to be
    injective, with nulls equal to nulls). *)
Record dstore := DStore {
  pos_rows : text -> list (option text * option Z);
  eq_rows : text -> list (list (option prim));
}.

(** [dedup] of a sorted vector. *)
Fixpoint dedup_sorted (l : list Z) : list Z :=
  match l with
  | x :: (y :: _) as l' => if decide (x = y) then dedup_sorted l' else x :: dedup_sorted l'
  | _ => l
  end.
(** delete_apply_exec.rs:248-315 [load_deleted_positions] *)
Definition file_positions (st : dstore) (path : text) (r : fref) : list Z :=
  omap (fun row : option text * option Z =>
    match row with
    | (Some p, Some i) => if decide (p = path) then if decide (0 <= i)%Z then Some i else None else None
    | _ => None
    end) (pos_rows st (f_path (r_file r))).
Definition load_deleted_positions (st : dstore) (path : text) (rs : list fref) : list Z :=
  dedup_sorted (sort_asc id (flat_map (file_positions st path) rs)).

(** delete_apply_exec.rs:317-421 [load_equality_deletes]: the equality ids with the
    set of deleted keys of each file; [None] when a file has no equality ids or
    refers to an unknown column. *)
Definition load_equality (schema : list Z) (st : dstore) (r : fref)
  : option (list Z * list (list (option prim))) :=
  let ids := f_equality_ids (r_file r) in
  if decide (ids = []) then None
  else if forallb (fun i => bool_decide (i ∈ schema)) ids then Some (ids, eq_rows st (f_path (r_file r)))
  else None.

Context (field : Row -> Z -> option prim).
Definition row_key (ids : list Z) (row : Row) : list (option prim) := map (field row) ids.

(** [partition_point(|&p| p < x)] of a sorted slice. *)
Fixpoint partition_point (x : Z) (l : list Z) : nat :=
  match l with
  | y :: l => if decide (y < x)%Z then S (partition_point x l) else 0
  | [] => 0
  end.
(** delete_apply_exec.rs:571-621 [compute_delete_mask] *)
Definition position_mask (n : nat) (offset : nat) (ps : list Z) : list bool :=
  let lo := partition_point (Z.of_nat offset) ps in
  let hi := partition_point (Z.of_nat (offset + n)) ps in
  foldl (fun keep p =>
    let i := Z.to_nat (p - Z.of_nat offset) in
    if decide (i < n) then <[i := false]> keep else keep)
    (replicate n true) (take (hi - lo) (drop lo ps)).
Definition delete_mask (rows : list Row) (offset : nat) (ps : list Z)
    (eqs : list (list Z * list (list (option prim)))) : list bool :=
  foldl (fun keep e =>
    zip_with (fun (k : bool) row => if k then negb (bool_decide (row_key e.1 row ∈ e.2)) else k) keep rows)
    (position_mask (length rows) offset ps) eqs.
(** arrow [filter_record_batch] *)
Definition filter_rows (rows : list Row) (mask : list bool) : list Row :=
  omap (fun rm : Row * bool => if rm.2 then Some rm.1 else None) (zip rows mask).
(** delete_apply_exec.rs:215-239: the loop over batches. *)
Fixpoint apply_batches (ps : list Z) (eqs : list (list Z * list (list (option prim))))
    (offset : nat) (batches : list (list Row)) : list (list Row) :=
  match batches with
  | [] => []
  | b :: bs =>
      let out := filter_rows b (delete_mask b offset ps eqs) in
      (if decide (out = []) then [] else [out]) ++ apply_batches ps eqs (offset + length b) bs
  end.

(** One data file with its matched deletes. *)
Definition read_file (schema : list Z) (st : dstore) (batches : list (list Row))
    (d : fref) (m : list fref * list fref) : option (list Row) :=
  match m with
  | ([], []) => Some (concat batches)
  | (pos, eqs) =>
      es ← mapM (load_equality schema st) eqs;
      Some (concat (apply_batches (load_deleted_positions st (f_path (r_file d)) pos) es 0 batches))
  end.
(** provider.rs:892-1031: clean files first, then the others. *)
Definition read_table (unpart : Z -> bool) (schema : list Z) (st : dstore)
    (scan : text -> list (list Row)) (ms : list mfile) : option (list Row) :=
  ix ← build_index unpart ms;
  let ds := load_data_files unpart ms in
  let is_clean d := match for_data_file ix d with ([], []) => true | _ => false end in
  let order := List.filter is_clean ds ++ List.filter (fun d => negb (is_clean d)) ds in
  rows ← mapM (fun d => read_file schema st (scan (f_path (r_file d))) d (for_data_file ix d)) order;
  Some (concat rows).
End apply.
