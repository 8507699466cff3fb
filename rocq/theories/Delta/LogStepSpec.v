(** What the versions of a table are, given what was done to its log. *)
From Coq Require Import NArith ZArith.
From stdpp Require Import prelude list gmap.
From Verif.Lib Require Import Text.
From Verif.Delta Require Import ActionModel LogModel ReplaySpec CompactSpec LogStepModel.
Local Open Scope Z_scope.

(** The commits in order: version [v] is the element at [v]. *)
Definition history (ops : list lop) : list (list action) :=
  omap (fun op => match op with LCommit acts _ => Some acts | _ => None end) ops.
Definition acts_at (hist : list (list action)) (v : Z) : list action := default [] (hist !! Z.to_nat v).
(** All actions of the versions from [s] to [e]. *)
Definition acts_between (hist : list (list action)) (s e : Z) : list action := flat_map (acts_at hist) (zrange s e).

(** The retention cut-offs of the checkpoints written so far. *)
Definition cuts_used (ops : list lop) : list (Z * Z) :=
  omap (fun op => match op with
                  | LCheckpoint v now _ _ _ _ =>
                      if (0 <=? v) && (v <? Z.of_nat (length (history ops))) then
                        m ← table_metadata (acts_between (history ops) 0 v); Some (cutoffs m now)
                      else None
                  | _ => None
                  end) ops.

(** [st] shows the live part of the table after [acts]. *)
Definition is_live_table (cuts : list (Z * Z)) (acts : list action) (st : rstate) : Prop :=
  rs_protocol st = table_protocol acts /\
  rs_metadata st = table_metadata acts /\
  (forall k, rs_adds st !! k = live_file acts k) /\
  (forall n, rs_domains st !! n = live_domain acts n) /\
  (forall a, rs_txns st !! a = live_txn acts a \/
             rs_txns st !! a = None /\ exists t, live_txn acts a = Some t /\ expired_txn cuts t).

(** No compaction asked for dropped a removal that was needed. *)
Definition faithful_compactions (ops : list lop) : Prop :=
  forall s e min_ts loc mtime, LCompact s e min_ts loc mtime ∈ ops ->
    let before := acts_between (history ops) 0 (s - 1) in
    let acts := acts_between (history ops) s e in
    e < Z.of_nat (length (history ops)) ->
    (forall k, ~ drops_removal before acts min_ts k) /\ (forall n, ~ drops_domain before acts n).
Definition no_compacted_file (files : list lfile) : Prop :=
  forall f s e, f ∈ files -> lf_kind f <> KCompacted s e.

(** Every commit made while in-commit timestamps are on carries one. *)
Definition times_recorded (ops : list lop) : Prop :=
  forall v m, 0 <= v < Z.of_nat (length (history ops)) ->
    table_metadata (acts_between (history ops) 0 v) = Some m -> md_ict m = true ->
    ict_of (acts_at (history ops) v) <> None.
