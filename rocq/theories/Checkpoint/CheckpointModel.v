(** DataFrame.checkpoint(): writing the partitions of a relation, publishing the checkpoint,
    reading it, and removing it.
    crates/sail-physical-plan/src/remote_checkpoint.rs, crates/sail-cache/src/remote_checkpoint.rs,
    crates/sail-object-store/src/path.rs, crates/sail-session/src/planner.rs. *)
From Coq Require Import NArith ZifyN Ascii String Lia.
From stdpp Require Import prelude list gmap.
From Verif Require Import Lib.Text Sql.LexModel.
Local Open Scope N_scope.

(** An object store path: its segments. *)
Notation path := (list text).

(** ** Names of the files

    sail-physical-plan/src/remote_checkpoint.rs:495-498: [part-{partition:05}-{uuid}.parquet], the
    number padded with zeros to five digits. *)
Definition pad5 (n : N) : text := let d := decimal n in repeat 48 (5 - length d)%nat ++ d.
Definition part_start (p : N) : text := str "part-" ++ pad5 p ++ str "-".
Definition part_name (p : N) (uuid : text) : text := part_start p ++ uuid ++ str ".parquet".

(** [str::strip_prefix] and [str::strip_suffix]. *)
Definition strip_prefix (pre s : text) : option text :=
  if starts_with s pre then Some (drop (length pre) s) else None.
Definition strip_suffix (suf s : text) : option text :=
  if ends_with s suf then Some (take (length s - length suf) s) else None.

(** [Path::prefix_matches] of the object_store crate: segment by segment. *)
Definition under (pre loc : path) : bool := bool_decide (take (length pre) loc = pre).

(** sail-physical-plan/src/remote_checkpoint.rs:762-786 [validate_partition_location]. [uuid_ok] is
    [Uuid::parse_str] of the uuid crate, left open. *)
Definition valid_location (uuid_ok : text -> bool) (pre : path) (p : N) (loc : path) : bool :=
  match last loc with
  | None => false
  | Some name =>
    let id := strip_prefix (part_start p) name ≫= strip_suffix (str ".parquet") in
    under pre loc && (length loc =? length pre + 1)%nat &&
    match id with Some v => uuid_ok v | None => false end
  end.

(** ** What is recorded

    sail-physical-plan/src/remote_checkpoint.rs:190-197 [CheckpointPartitionMetadata]. It travels as
    JSON, which is taken to come back as it was. *)
Record meta := Meta { m_partition : N; m_location : option path; m_size : N; m_rows : N }.

(** sail-cache/src/remote_checkpoint.rs:17-28 [RemoteCheckpointPartition, RemoteCheckpointFile]. *)
Record part := Part { p_index : N; p_rows : N; p_file : option (path * N) }.

(** DataFusion's [Partitioning]; [K] are the hashed expressions. *)
Inductive partitioning (K : Type) :=
| RoundRobinP (n : N)
| HashP (k : K) (n : N)
| UnknownP (n : N).
Global Arguments RoundRobinP {K} n.
Global Arguments HashP {K} k n.
Global Arguments UnknownP {K} n.
Definition partition_count {K} (t : partitioning K) : N :=
  match t with RoundRobinP n => n | HashP _ n => n | UnknownP n => n end.

(** sail-physical-plan/src/remote_checkpoint.rs:748-760 [checkpoint_partitioning_with_count]. *)
Definition with_count {K} (t : partitioning K) (n : N) : partitioning K :=
  match t with
  | RoundRobinP _ => RoundRobinP n
  | HashP k e => if e =? n then HashP k n else UnknownP n
  | UnknownP _ => UnknownP n
  end.

(** sail-cache/src/remote_checkpoint.rs:30-40 [RemoteCheckpointDescriptor]. Of the schemas only
    whether there are columns at all is kept; the ordering is left out. *)
Record descriptor (K : Type) := Descriptor {
  d_prefix : path;
  d_no_columns : bool;
  d_partitioning : partitioning K;
  d_parts : list part
}.
Global Arguments Descriptor {K}.
Global Arguments d_prefix {K}.
Global Arguments d_no_columns {K}.
Global Arguments d_partitioning {K}.
Global Arguments d_parts {K}.

Definition u64_max : N := 18446744073709551615.

(** ** Writing and reading

    [psize] is the size of the Parquet file that holds the given rows. *)
Section write.
Context {Row : Type} (psize : list Row -> N) (uuid_ok : text -> bool).

(** The loop at sail-physical-plan/src/remote_checkpoint.rs:529-546 in [write_checkpoint_partition]:
    rows are counted up to the first batch that has to be stored. A batch that is [None] is an error
    of the input. *)
Fixpoint first_batch (no_columns : bool) (count : N) (bs : list (option (list Row)))
    : option (N * option (list Row * list (option (list Row)))) :=
  match bs with
  | [] => Some (count, None)
  | None :: _ => None
  | Some b :: bs' =>
    let c := count + N.of_nat (length b) in
    if u64_max <? c then None
    else if no_columns || (length b =? 0)%nat then first_batch no_columns c bs'
    else Some (c, Some (b, bs'))
  end.

(** sail-physical-plan/src/remote_checkpoint.rs:519-597 [write_checkpoint_partition]: the file
    written, if any, and the metadata. [None]: the task fails. A task that fails while the file is
    being written leaves no file, as the upload is never completed. *)
Definition write_partition (no_columns : bool) (pre : path) (p : N) (uuid : text)
    (bs : list (option (list Row))) : option (option (path * list Row) * meta) :=
  match first_batch no_columns 0 bs with
  | None => None
  | Some (c, None) => Some (None, Meta p None 0 c)
  | Some (_, Some (b, bs')) =>
    match mapM id bs' with
    | None => None
    | Some rest =>
      let rows := b ++ concat rest in
      let loc := pre ++ [part_name p uuid] in
      Some (Some (loc, rows), Meta p (Some loc) (psize rows) (N.of_nat (length rows)))
    end
  end.

(** One row of metadata, sail-physical-plan/src/remote_checkpoint.rs:683-711 in
    [collect_checkpoint_partitions]. *)
Definition check_meta (no_columns : bool) (pre : path) (m : meta) : option part :=
  match m_location m with
  | Some loc =>
    if no_columns then None
    else if (m_size m =? 0) || (m_rows m =? 0) then None
    else if valid_location uuid_ok pre (m_partition m) loc
    then Some (Part (m_partition m) (m_rows m) (Some (loc, m_size m)))
    else None
  | None =>
    if negb (m_size m =? 0) then None
    else if negb (m_rows m =? 0) && negb no_columns then None
    else Some (Part (m_partition m) (m_rows m) None)
  end.

(** [BTreeMap::insert] into a map kept as a list in the order of the keys; [None] when the key was
    there. *)
Fixpoint bt_insert (k : N) (v : part) (l : list (N * part)) : option (list (N * part)) :=
  match l with
  | [] => Some [(k, v)]
  | (k', v') :: l' =>
    if k =? k' then None
    else if k <? k' then Some ((k, v) :: l)
    else match bt_insert k v l' with Some r => Some ((k', v') :: r) | None => None end
  end.

(** sail-physical-plan/src/remote_checkpoint.rs:646-746 [collect_checkpoint_partitions]: the rows of
    the stream one after the other, [None] being an error of the stream; then the check that the
    partitions are numbered from 0 without a gap. *)
Fixpoint collect_rows (no_columns : bool) (pre : path) (acc : list (N * part))
    (ms : list (option meta)) : option (list (N * part)) :=
  match ms with
  | [] => Some acc
  | None :: _ => None
  | Some m :: ms' =>
    match check_meta no_columns pre m with
    | None => None
    | Some v =>
      match bt_insert (m_partition m) v acc with
      | None => None
      | Some acc' => collect_rows no_columns pre acc' ms'
      end
    end
  end.
Fixpoint check_numbers (expected : N) (l : list (N * part)) : option (list part) :=
  match l with
  | [] => Some []
  | (k, v) :: l' =>
    if k =? expected
    then match check_numbers (expected + 1) l' with Some r => Some (v :: r) | None => None end
    else None
  end.
Definition collect (no_columns : bool) (pre : path) (ms : list (option meta))
    : option (list part) :=
  match collect_rows no_columns pre [] ms with
  | None | Some [] => None
  | Some l => check_numbers 0 l
  end.

(** The scan of a checkpoint, sail-session/src/planner.rs:213-330: one file group for each
    partition, holding its file or none; without columns, as many rows as were counted. [blank] is
    the row without columns. [None]: reading that partition fails. *)
Definition read_part (blank : Row) (no_columns : bool) (store : gmap path (list Row)) (v : part)
    : option (list Row) :=
  if no_columns then Some (repeat blank (N.to_nat (p_rows v)))
  else match p_file v with
       | None => Some []
       | Some (loc, size) =>
         match store !! loc with
         | Some rows => if psize rows =? size then Some rows else None
         | None => None
         end
       end.
Definition read {K : Type} (blank : Row) (store : gmap path (list Row)) (d : descriptor K)
    : list (option (list Row)) :=
  map (read_part blank (d_no_columns d) store) (d_parts d).

(** ** A session

    sail-cache/src/remote_checkpoint.rs:42-50 [RemoteCheckpointRegistry] and the object store. The
    files that a clean-up has listed and not yet deleted are in [st_doomed]; [st_cleaning] are the
    relations whose commit has failed, [st_stopping] says that [cleanup_session] has begun. *)
Context {K : Type}.

Record state := State {
  st_store : gmap path (list Row);
  st_relations : gmap text (descriptor K);
  st_closed : bool;
  st_cleaning : list text;
  st_doomed : list path
}.
Definition init : state := State ∅ ∅ false [] [].

Inductive op :=
(** One attempt at writing a partition of a relation. *)
| OWrite (id : text) (no_columns : bool) (p : N) (uuid : text) (bs : list (option (list Row)))
(** An attempt at the commit, with the metadata its stream gives it. *)
| OCommit (id : text) (no_columns : bool) (t : partitioning K) (ms : list (option meta))
(** The clean-up after a failed commit lists the files of the relation. *)
| OList (id : text)
(** A clean-up deletes one file it has listed. *)
| ODelete (loc : path)
(** The session ends: it is marked closed; its files are listed; the registry is emptied. *)
| OClose
| OListAll
| OClear.

(** sail-cache/src/remote_checkpoint.rs:62-75, 153-155 [resolve_relation, session_prefix]. *)
Definition relation_prefix (root : path) (session id : text) : path := root ++ [session] ++ [id].

(** [store.list(Some(prefix))]. *)
Definition listing (store : gmap path (list Row)) (pre : path) : list path :=
  base.filter (fun loc => under pre loc = true) (map fst (map_to_list store)).

(** The writer, the commit (sail-physical-plan/src/remote_checkpoint.rs:600-644
    [commit_checkpoint]) with [insert] (sail-cache/src/remote_checkpoint.rs:77-98), and the
    clean-ups (107-141; sail-object-store/src/path.rs:32-47 [delete_object_store_prefix_objects]).
    The test for a closed session and the insertion are one step. A listing is taken at one moment;
    in the code it comes in pages. The result is that of the commit; other steps give [true]. *)
Definition step (root : path) (session : text) (s : state) (o : op) : state * bool :=
  match o with
  | OWrite id nc p uuid bs =>
    match write_partition nc (relation_prefix root session id) p uuid bs with
    | Some (Some (loc, rows), _) =>
      (State (<[loc := rows]> (st_store s)) (st_relations s) (st_closed s) (st_cleaning s)
         (st_doomed s), true)
    | _ => (s, true)
    end
  | OCommit id nc t ms =>
    let pre := relation_prefix root session id in
    let failed := (State (st_store s) (st_relations s) (st_closed s) (id :: st_cleaning s)
                     (st_doomed s), false) in
    match collect nc pre ms with
    | None => failed
    | Some parts =>
      if st_closed s then failed
      else match st_relations s !! id with
           | Some _ => failed
           | None =>
             let d := Descriptor pre nc (with_count t (N.of_nat (length parts))) parts in
             (State (st_store s) (<[id := d]> (st_relations s)) (st_closed s) (st_cleaning s)
                (st_doomed s), true)
           end
    end
  | OList id =>
    if bool_decide (id ∈ st_cleaning s) then
      (State (st_store s) (st_relations s) (st_closed s) (st_cleaning s)
         (listing (st_store s) (relation_prefix root session id) ++ st_doomed s), true)
    else (s, true)
  | ODelete loc =>
    if bool_decide (loc ∈ st_doomed s) then
      (State (delete loc (st_store s)) (st_relations s) (st_closed s) (st_cleaning s)
         (base.filter (fun l => l <> loc) (st_doomed s)), true)
    else (s, true)
  | OClose => (State (st_store s) (st_relations s) true (st_cleaning s) (st_doomed s), true)
  | OListAll =>
    if st_closed s then
      (State (st_store s) (st_relations s) (st_closed s) (st_cleaning s)
         (listing (st_store s) (root ++ [session]) ++ st_doomed s), true)
    else (s, true)
  | OClear =>
    if st_closed s then (State (st_store s) ∅ (st_closed s) (st_cleaning s) (st_doomed s), true)
    else (s, true)
  end.

Fixpoint run (root : path) (session : text) (s : state) (os : list op) : state :=
  match os with
  | [] => s
  | o :: os' => run root session (step root session s o).1 os'
  end.

End write.
Global Arguments state : clear implicits.
Global Arguments op : clear implicits.
