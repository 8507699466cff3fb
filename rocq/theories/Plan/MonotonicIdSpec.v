(** What monotonically_increasing_id() promises. *)
From Coq Require Import ZArith Lia Sorted.
From stdpp Require Import prelude list numbers.
#[local] Open Scope Z_scope.

(** The ids in the order of partitions and rows. *)
Definition all_ids {A} (out : list (list (list (A * Z)))) : list Z :=
  map snd (concat (concat out)).
Definition all_rows {A} (out : list (list (list (A * Z)))) : list (list (list A)) :=
  map (map (map fst)) out.
(** No partition holds more than 2^33 rows. *)
Definition small_partitions {A} (inputs : list (list (list A))) : Prop :=
  Forall (fun bs => Z.of_nat (length (concat bs)) <= 2 ^ 33) inputs.
