(** Theorems for C28 (which deletes apply) and C29 (applying them). *)
From Coq Require Import NArith ZArith Ascii String Lia.
From stdpp Require Import prelude list gmap strings sorting.
From Verif.Lib Require Import Text Sort.
From Verif.Iceberg Require Import ValueModel DeleteModel DeleteSpec DeleteProofs.
Local Open Scope Z_scope.

(** ** C28 *)

(** Two partition tuples have the same key only if spec and values are the same,
    whatever their number and types. *)
Theorem C28_partition_key_injective : forall s1 s2 (a b : list (option prim)),
  Forall plain_value a -> Forall plain_value b ->
  partition_key s1 a = partition_key s2 b <-> s1 = s2 /\ a = b.
Proof.
  exact (fun s1 s2 a b Ha Hb => conj
    (partition_key_inj s1 s2 a b (Forall_impl _ _ _ Ha plain_sized) (Forall_impl _ _ _ Hb plain_sized))
    (fun H => match H with conj E1 E2 => f_equal2 partition_key E1 E2 end)).
Qed.
Print Assumptions C28_partition_key_injective.

(** The positional deletes chosen for a data file are exactly the position delete
    files of the snapshot that apply to it. *)
Theorem C28_position_deletes_matched : forall unpart ms ix d r,
  plain_partitions ms -> listed unpart false ms d -> build_index unpart ms = Some ix ->
  r ∈ (for_data_file ix d).1 <-> listed unpart true ms r /\ pos_applies d r.
Proof.
  exact (fun unpart ms ix d r Hp Hd => for_data_file_pos unpart ms ix d r Hp (listed_plain unpart false ms d Hp Hd)).
Qed.
Print Assumptions C28_position_deletes_matched.

Theorem C28_equality_deletes_matched : forall unpart ms ix d r,
  plain_partitions ms -> listed unpart false ms d -> build_index unpart ms = Some ix ->
  r ∈ (for_data_file ix d).2 <-> listed unpart true ms r /\ eq_applies unpart d r.
Proof.
  exact (fun unpart ms ix d r Hp Hd => for_data_file_eq unpart ms ix d r Hp (listed_plain unpart false ms d Hp Hd)).
Qed.
Print Assumptions C28_equality_deletes_matched.

(** The index is refused exactly when the snapshot has a deletion vector or lists a
    data file as a delete. *)
Theorem C28_index_refused : forall unpart ms,
  build_index unpart ms = None <->
  exists r, listed unpart true ms r /\ (f_dv (r_file r) = true \/ f_content (r_file r) = CData).
Proof. exact build_index_none. Qed.
Print Assumptions C28_index_refused.

(** A tiny table: spec 0 is unpartitioned, spec 1 has one string and one int. *)
Definition ex_unpart (s : Z) : bool := bool_decide (s = 0).
Definition ex_part (n : Z) : list (option prim) := [Some (PString (str "a")); Some (PInt n)].
Definition ex_data (p : string) (n : Z) : dfile := DFile (str p) CData (ex_part n) None false [].
Definition ex_ms : list mfile :=
  [ MFile false 1 3 [MEntry Existing (Some 1) (ex_data "f1" (-1)); MEntry Added None (ex_data "f2" 7);
                     MEntry Deleted (Some 1) (ex_data "f0" 7)];
    MFile true 1 4 [MEntry Added None (DFile (str "p1") CPos (ex_part 7) None false []);
                    MEntry Added (Some 2) (DFile (str "p2") CPos (ex_part 7) None false []);
                    MEntry Added None (DFile (str "p3") CPos (ex_part 7) (Some (str "f1")) false [])];
    MFile true 0 3 [MEntry Added None (DFile (str "e1") CEq [] None false [10])] ].
Lemma ex_plain : plain_partitions ex_ms.
Proof.
  intros m e Hm He. unfold ex_ms in Hm.
  repeat (apply elem_of_cons in Hm as [->|Hm]; [cbn [m_entries] in He;
    repeat (apply elem_of_cons in He as [->|He]; [cbn [e_file f_partition ex_data ex_part];
       repeat constructor; cbn; lia|]); by apply elem_of_nil in He|]).
  by apply elem_of_nil in Hm.
Qed.
(** [f1] (sequence 1) gets the delete that names it and the older-data equality
    delete; [f2] (sequence 3) only the position delete with sequence 4. *)
Example C28_example :
  match build_index ex_unpart ex_ms with
  | Some ix => map (fun d => let m := for_data_file ix d in
                 (f_path (r_file d), map (fun r => f_path (r_file r)) m.1, map (fun r => f_path (r_file r)) m.2))
                 (load_data_files ex_unpart ex_ms)
  | None => []
  end = [(str "f1", [str "p3"], [str "e1"]); (str "f2", [str "p1"], [])].
Proof. by vm_compute. Qed.

(** With NaN partition values the statement is false: keys are bit patterns, so a
    delete written with another NaN is not applied. *)
Theorem C28_nan_partition_refuted :
  exists unpart ms ix d r, listed unpart false ms d /\ listed unpart true ms r /\
    build_index unpart ms = Some ix /\ pos_applies d r /\ r ∉ (for_data_file ix d).1.
Proof. exact nan_refuted. Qed.
Print Assumptions C28_nan_partition_refuted.

(** ** C29 *)

(** Reading a data file returns, in file order, the rows that no listed delete
    removes, however the file is split into batches. *)
Theorem C29_file_rows : forall Row (field : Row -> Z -> option prim) unpart schema st ms ix d batches rows,
  plain_partitions ms -> listed unpart false ms d -> build_index unpart ms = Some ix ->
  read_file field schema st batches d (for_data_file ix d) = Some rows ->
  keeps (row_deleted field unpart st ms d) 0 (concat batches) rows.
Proof.
  exact (fun Row field unpart schema st ms ix d batches rows Hp Hd Hb H =>
    proj1 (proj1 (read_file_spec field unpart schema st ms ix d batches rows Hp (listed_plain _ _ _ _ Hp Hd) Hb) H)).
Qed.
Print Assumptions C29_file_rows.

(** So the result does not depend on the batches. *)
Theorem C29_batching_irrelevant : forall Row (field : Row -> Z -> option prim) st pos eqs path bs1 bs2,
  concat bs1 = concat bs2 ->
  concat (apply_batches field (load_deleted_positions st path pos) eqs 0 bs1) =
  concat (apply_batches field (load_deleted_positions st path pos) eqs 0 bs2).
Proof. exact @batching_irrelevant. Qed.
Print Assumptions C29_batching_irrelevant.

(** The whole table: the rows are those of its data files without the deleted ones. *)
Theorem C29_table_rows : forall Row (field : Row -> Z -> option prim) unpart schema st scan ms rows,
  plain_partitions ms ->
  read_table field unpart schema st scan ms = Some rows ->
  exists outs, Forall2 (fun d out =>
      keeps (row_deleted field unpart st ms d) 0 (concat (scan (f_path (r_file d)))) out)
    (snapshot_data_files unpart ms) outs /\ rows ≡ₚ concat outs.
Proof. exact @read_table_snapshot. Qed.
Print Assumptions C29_table_rows.

(** Reading succeeds unless there is a delete that cannot be applied: a deletion
    vector, a data file among the deletes, or an applicable equality delete without
    columns or with an unknown one. *)
Theorem C29_read_succeeds : forall Row (field : Row -> Z -> option prim) unpart schema st scan ms,
  plain_partitions ms ->
  is_Some (read_table field unpart schema st scan ms) <->
  (forall r, listed unpart true ms r -> f_dv (r_file r) = false /\ f_content (r_file r) <> CData) /\
  (forall d r, listed unpart false ms d -> listed unpart true ms r -> eq_applies unpart d r ->
     f_equality_ids (r_file r) <> [] /\ forall i, i ∈ f_equality_ids (r_file r) -> i ∈ schema).
Proof. exact @read_table_succeeds. Qed.
Print Assumptions C29_read_succeeds.

(** Rows are numbers, their key column [10] is the number itself. *)
Definition ex_field (row : Z) (c : Z) : option prim := if decide (row = 0) then None else Some (PInt row).
Definition ex_store : dstore := DStore
  (fun p => if decide (p = str "p1") then [(Some (str "f2"), Some 3); (Some (str "f1"), Some 0); (Some (str "f2"), Some 0); (None, Some 1); (Some (str "f2"), Some 3)]
            else if decide (p = str "p3") then [(Some (str "f1"), Some 2)]
            else if decide (p = str "p2") then [(Some (str "f2"), Some 1)] else [])
  (fun p => if decide (p = str "e1") then [[Some (PInt 5)]; [None]] else []).
Example C29_example :
  read_table ex_field ex_unpart [10] ex_store
    (fun p => if decide (p = str "f1") then [[5; 6]; [7; 8; 0]; [9]] else [[1; 2]; []; [5; 3; 4]]) ex_ms
  = Some [6; 8; 9; 2; 5; 4].
Proof. by vm_compute. Qed.
