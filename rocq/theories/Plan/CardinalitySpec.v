(** When MERGE must fail. *)
From stdpp Require Import prelude list.
From Verif.Plan Require Import CardinalityModel.

(** Two different rows of the join are matches for the same target row. *)
Definition doubly_matched {D} (rows : list (row D)) : Prop :=
  exists i j r r' id, i <> j /\ rows !! i = Some r /\ rows !! j = Some r' /\
    row_id r = Some id /\ row_id r' = Some id /\
    row_target r = Some true /\ row_source r = Some true /\
    row_target r' = Some true /\ row_source r' = Some true.

(** required_input_distribution (merge_cardinality_check.rs:104-123): rows with the same id are in
    the same partition, whatever the hash function and the order of arrival. *)
Definition hash_partitioned {D} (parts : list (list (list (row D)))) : Prop :=
  exists h : option nat -> nat, forall p bs r,
    parts !! p = Some bs -> r ∈ concat bs -> p = h (row_id r).
