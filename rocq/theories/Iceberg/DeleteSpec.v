(** Specification of row-level deletes, after the Iceberg table specification
    ("Scan planning", "Delete formats"). *)
From Coq Require Import NArith ZArith Lia.
From stdpp Require Import prelude list.
From Verif.Lib Require Import Text.
From Verif.Iceberg Require Import ValueModel DeleteModel.

(** Partition values are compared by value; all NaN values are the same value. *)
Definition same_value (a b : option prim) : Prop :=
  match a, b with
  | Some (PFloat x), Some (PFloat y) => x = y \/ (is_nan 23 255 x = true /\ is_nan 23 255 y = true)
  | Some (PDouble x), Some (PDouble y) => x = y \/ (is_nan 52 2047 x = true /\ is_nan 52 2047 y = true)
  | _, _ => a = b
  end.
Definition same_partition (a b : fref) : Prop :=
  r_spec a = r_spec b /\ Forall2 same_value (f_partition (r_file a)) (f_partition (r_file b)).

(** When a position delete file applies to a data file: its sequence number is not
    smaller, and it names that file, or names no file and has the same partition. *)
Definition pos_applies (d r : fref) : Prop :=
  f_content (r_file r) = CPos /\ (r_seq d <= r_seq r)%Z /\
  match f_ref (r_file r) with
  | Some p => p = f_path (r_file d)
  | None => same_partition r d
  end.
(** When an equality delete file applies: its sequence number is larger, and it was
    written with an unpartitioned spec or has the same partition. *)
Definition eq_applies (unpart : Z -> bool) (d r : fref) : Prop :=
  f_content (r_file r) = CEq /\ (r_seq d < r_seq r)%Z /\
  (unpart (r_spec r) = true \/ same_partition r d).

(** [r] is a file listed in the snapshot: an entry not marked as deleted of one of
    its data or delete manifests.  Sequence numbers that are not given are those of
    the manifest. *)
Definition listed (unpart : Z -> bool) (deletes : bool) (ms : list mfile) (r : fref) : Prop :=
  exists m e, m ∈ ms /\ m_deletes m = deletes /\ e ∈ m_entries m /\ e_status e <> Deleted /\
    r_file r = e_file e /\ r_spec r = m_spec m /\ r_unpart r = unpart (m_spec m) /\
    r_seq r = match e_seq e with Some s => s | None => m_seq m end.

(** The values are values of their types, strings are shorter than 4 GiB and there
    is only one NaN (the one Rust and Java produce). *)
Definition plain_value (v : option prim) : Prop :=
  match v with
  | None => True
  | Some p =>
      prim_ok p /\
      match p with
      | PString s | PBinary s => (N.of_nat (length s) < 2 ^ 32)%N
      | PFloat b => is_nan 23 255 b = true -> b = 0x7fc00000%N
      | PDouble b => is_nan 52 2047 b = true -> b = 0x7ff8000000000000%N
      | _ => True
      end
  end.
Definition plain_partitions (ms : list mfile) : Prop :=
  forall m e, m ∈ ms -> e ∈ m_entries m -> Forall plain_value (f_partition (e_file e)).

Section rows.
Context {Row : Type} (field : Row -> Z -> option prim).

(** The row at position [i] of data file [d] is deleted. *)
Definition row_deleted (unpart : Z -> bool) (st : dstore) (ms : list mfile) (d : fref)
    (i : nat) (row : Row) : Prop :=
  exists r, listed unpart true ms r /\
    ((pos_applies d r /\
      (Some (f_path (r_file d)), Some (Z.of_nat i)) ∈ pos_rows st (f_path (r_file r))) \/
     (eq_applies unpart d r /\
      map (field row) (f_equality_ids (r_file r)) ∈ eq_rows st (f_path (r_file r)))).
End rows.

(** [keeps del i l l']: [l'] is [l], whose first element has position [i], without
    the deleted elements. *)
Inductive keeps {Row} (del : nat -> Row -> Prop) : nat -> list Row -> list Row -> Prop :=
| keeps_nil i : keeps del i [] []
| keeps_keep i x l l' : ~ del i x -> keeps del (S i) l l' -> keeps del i (x :: l) (x :: l')
| keeps_drop i x l l' : del i x -> keeps del (S i) l l' -> keeps del i (x :: l) l'.

(** The data files of the snapshot, with multiplicity. *)
Definition snapshot_data_files (unpart : Z -> bool) (ms : list mfile) : list fref :=
  flat_map (fun m => flat_map (fun e =>
    if m_deletes m then [] else
    match e_status e with
    | Deleted => []
    | _ => [FRef (e_file e) (match e_seq e with Some s => s | None => m_seq m end) (m_spec m) (unpart (m_spec m))]
    end) (m_entries m)) ms.
