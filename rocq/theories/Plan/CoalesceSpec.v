(** What coalesce(n) does to partitions. *)
From stdpp Require Import prelude list numbers.
From Verif.Plan Require Import CoalesceModel.

(** The partitions of [outs] are runs of adjacent partitions of [inputs], in order, and no two
    runs differ by more than one in length. *)
Definition adjacent_runs {A} (inputs : list (list A)) (outs : list (list A)) : Prop :=
  exists runs : list (list (list A)),
    concat runs = inputs /\ map (@concat A) runs = outs /\
    forall r r', r ∈ runs -> r' ∈ runs -> length r <= S (length r').
