(** What reading as of a timestamp should find. *)
From Coq Require Import ZArith.
From stdpp Require Import prelude gmap.
From Verif.Delta Require Import ActionModel LogModel CommitModel CommitSpec TravelModel.
Local Open Scope Z_scope.

(** [v] is the newest of the versions 0 to [latest] that is not after [ts]. *)
Definition newest_at (time : Z -> Z) (latest ts v : Z) : Prop :=
  0 <= v <= latest /\ time v <= ts /\ forall u, v < u <= latest -> ts < time u.
(** No version is that old. *)
Definition none_at (time : Z -> Z) (latest ts : Z) : Prop := forall u, 0 <= u <= latest -> ts < time u.
Definition right_answer (time : Z -> Z) (latest ts : Z) (r : found) : Prop :=
  match r with
  | FError => False
  | FMissing => none_at time latest ts
  | FVersion v => newest_at time latest ts v
  end.
Definition increasing_between (time : Z -> Z) (a b : Z) : Prop :=
  forall u v, a <= u <= v -> v <= b -> time u <= time v.
