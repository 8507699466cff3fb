(** What a checkpoint is to hold. *)
From Coq Require Import NArith ZifyN Ascii String Lia.
From stdpp Require Import prelude list gmap.
From Verif Require Import Lib.Text Checkpoint.CheckpointModel.
Local Open Scope N_scope.

(** The numbers 0, 1, ..., n-1. *)
Definition numbers (n : nat) : list N := map N.of_nat (seq 0 n).

(** The file of partition [p] lies in the directory [pre] and is called
    [part-<p in at least five digits>-<uuid>.parquet]. *)
Definition well_placed (uuid_ok : text -> bool) (pre : path) (p : N) (loc : path) : Prop :=
  exists uuid, uuid_ok uuid = true /\
    loc = pre ++ [str "part-" ++ pad5 p ++ str "-" ++ uuid ++ str ".parquet"].

(** A row of metadata that says something possible: a file in its place, not empty, and only if
    there are columns to store; without a file there are no rows, unless there are no columns. *)
Definition acceptable (uuid_ok : text -> bool) (no_columns : bool) (pre : path) (m : meta) : Prop :=
  match m_location m with
  | Some loc => no_columns = false /\ m_size m <> 0 /\ m_rows m <> 0 /\
                well_placed uuid_ok pre (m_partition m) loc
  | None => m_size m = 0 /\ (m_rows m = 0 \/ no_columns = true)
  end.

(** The entry of the checkpoint for such a row. *)
Definition entry (m : meta) : part :=
  Part (m_partition m) (m_rows m) (match m_location m with Some l => Some (l, m_size m) | None => None end).

Section rows.
Context {Row K : Type}.

(** The number of rows in some batches. *)
Definition count_rows (bs : list (list Row)) : N := N.of_nat (length (concat bs)).

(** What a partitioning says of the rows of the partitions: under hash partitioning by [k], the row
    [r] is in partition [hash k r mod n]. The other partitionings say nothing of the rows. *)
Definition claim_holds (hash : K -> Row -> N) (t : partitioning K) (rows : list (list Row)) : Prop :=
  match t with
  | HashP k n => forall i l r, rows !! i = Some l -> r ∈ l -> hash k r mod n = N.of_nat i
  | _ => True
  end.

(** The identifiers of the written files in a history. *)
Definition uuids (os : list (op Row K)) : list text :=
  flat_map (fun o => match o with OWrite _ _ _ u _ => [u] | _ => [] end) os.

Definition commits (id : text) (o : op Row K) : Prop :=
  match o with OCommit id' _ _ _ => id' = id | _ => False end.
Definition writes (id : text) (o : op Row K) : Prop :=
  match o with OWrite id' _ _ _ _ => id' = id | _ => False end.
Definition writes_any (o : op Row K) : Prop :=
  match o with OWrite _ _ _ _ _ => True | _ => False end.
End rows.

(** An attempt at writing each partition: the identifier of its file and its batches. *)
Notation attempts Row := (list (text * list (list Row))).

Section attempts.
Context {Row : Type}.

(** The identifiers are well formed, and no partition has more rows than can be counted. *)
Definition sound_attempts (uuid_ok : text -> bool) (l : attempts Row) : Prop :=
  Forall (fun a => uuid_ok a.1 = true /\ count_rows a.2 <= u64_max) l.

(** Without columns, all rows are the same. *)
Definition blank_rows (no_columns : bool) (blank : Row) (l : attempts Row) : Prop :=
  no_columns = true -> forall a r, a ∈ l -> r ∈ concat a.2 -> r = blank.

(** The metadata that the attempts give, in the order of the partitions. *)
Definition metadata (psize : list Row -> N) (no_columns : bool) (pre : path) (l : attempts Row)
    : list (option meta) :=
  imap (fun i a => snd <$> write_partition psize no_columns pre (N.of_nat i) a.1 (map Some a.2)) l.
End attempts.
