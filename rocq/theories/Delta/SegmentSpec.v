(** What a complete choice of log files is. *)
From Coq Require Import NArith ZArith.
From stdpp Require Import prelude list gmap.
From Verif.Delta Require Import ActionModel LogModel.
Local Open Scope Z_scope.

(** The versions a set of chosen commits and compacted files stands for. *)
Definition versions_of (sg : segment) : list Z :=
  (fst <$> sg_commits sg) ++ flat_map (fun c => zrange c.1.1 c.1.2) (sg_compactions sg).
(** Each version of the range is stood for exactly once, no other version is. *)
Definition covers_once (vs : list Z) (start last : Z) : Prop :=
  NoDup vs /\ forall v, v ∈ vs <-> start <= v <= last.

(** The chosen files come from the directory (or the catalog) and are what they say. *)
Definition from_log (catalog : list (Z * lfile)) (files : list lfile) (sg : segment) : Prop :=
  (forall v f, sg_checkpoint sg = Some (v, f) -> f ∈ files /\ lf_kind f = KCheckpoint v /\ v <= sg_target sg) /\
  (forall v f, (v, f) ∈ sg_commits sg -> f ∈ files /\ lf_kind f = KCommit v \/ (v, f) ∈ catalog) /\
  (forall s e f, (s, e, f) ∈ sg_compactions sg -> f ∈ files /\ lf_kind f = KCompacted s e).

(** The rows a reader goes through, version by version: [ents] lists the files in
    order with the versions each stands for. *)
Definition entry_versions (x : rentry) : list Z :=
  match x with RCommit v _ => [v] | RCompaction s e _ => zrange s e end.
Definition entry_rows (x : rentry) : list action :=
  match x with RCommit _ f => lf_rows f | RCompaction _ _ f => lf_rows f end.
Definition entry_in (sg : segment) (x : rentry) : Prop :=
  match x with
  | RCommit v f => (v, f) ∈ sg_commits sg
  | RCompaction s e f => (s, e, f) ∈ sg_compactions sg
  end.
Definition base_rows (sg : segment) : list action :=
  match sg_checkpoint sg with Some (_, f) => lf_rows f | None => [] end.

(** The directory holds what is needed to read version [v] from the checkpoint at [c]
    on ([c = -1]: from the beginning). *)
Definition readable_from (files : list lfile) (c v : Z) : Prop :=
  -1 <= c <= v /\
  (c = -1 \/ 0 <= c /\ exists f, f ∈ files /\ lf_kind f = KCheckpoint c) /\
  forall w, c < w <= v -> exists f, f ∈ files /\ lf_kind f = KCommit w.
(** The recorded last checkpoint is not after [c]; if it is [c] itself and the record
    names a file, the file exists. *)
Definition hint_upto (files : list lfile) (h : option hint) (c : Z) : Prop :=
  match h with
  | None => True
  | Some h => 0 <= h_version h <= c /\
      forall loc, h_v2 h = Some loc -> h_version h < c \/ exists f, f ∈ files /\ lf_kind f = KCheckpoint (h_version h) /\ lf_loc f = loc
  end.

(** With a checkpoint, the first commit read (if any) is the one right after it. *)
Definition starts_after_checkpoint (sg : segment) : Prop :=
  sg_checkpoint sg = None \/ sg_commits sg = [] \/
  exists f l, sg_commits sg = (segment_start (sg_checkpoint sg), f) :: l.
(** [acts] are the rows of the chosen files, in order of the versions they stand for,
    each version from [start] to the target once. *)
Definition reads_in_order (sg : segment) (acts : list action) : Prop :=
  exists ents, Forall (entry_in sg) ents /\
    flat_map entry_versions ents = zrange (segment_start (sg_checkpoint sg)) (sg_target sg) /\
    acts = base_rows sg ++ flat_map entry_rows ents.
