(** What log clean-up must keep. *)
From Coq Require Import NArith ZArith.
From stdpp Require Import prelude list gmap.
From Verif.Delta Require Import ActionModel LogModel SegmentSpec.
Local Open Scope Z_scope.

(** Later versions do not have earlier timestamps. *)
Definition monotone_times (time : Z -> Z) (latest : Z) : Prop :=
  forall v w, v <= w <= latest -> time v <= time w.
(** The version is younger than the cut-off, or the latest. *)
Definition retained (time : Z -> Z) (latest cutoff v : Z) : Prop :=
  v <= latest /\ (cutoff < time v \/ v = latest).
(** The last version a file is about. *)
Definition last_version (f : lfile) : Z :=
  match lf_kind f with
  | KCompacted _ e => e
  | _ => lf_first f
  end.
