(** What spark.range returns. *)
From Coq Require Import ZArith Lia.
From stdpp Require Import prelude list numbers.
From Verif.Plan Require Import RangeModel.
#[local] Open Scope Z_scope.

(** [i] steps from the start one is still before the end. *)
Definition before_end (s e st : Z) (i : nat) : Prop :=
  (0 < st /\ s + Z.of_nat i * st < e) \/ (st < 0 /\ e < s + Z.of_nat i * st).

(** The list of all start + i * step that lie before the end, in order. *)
Definition range_rows (s e st : Z) (l : list Z) : Prop :=
  forall i v, l !! i = Some v <-> v = s + Z.of_nat i * st /\ before_end s e st i.

Definition is_i64 (z : Z) : Prop := i64_min <= z <= i64_max.

(** Arguments the constructor accepts. *)
Definition valid (s e st : Z) (np : nat) : Prop :=
  is_i64 s /\ is_i64 e /\ is_i64 st /\ st <> 0 /\ (0 < np)%nat.

(** The outputs of all partitions, as batches. *)
Definition range_output (s e st : Z) (np : nat) (parts : list (list (list Z))) : Prop :=
  exists r, try_new s e st np = Some r /\
    Forall2 (fun p bs => exists it, execute r np p = Some it /\ batches it bs) (seq 0 np) parts.

(** The first multiple of the step that is not before the end is still a 64-bit integer. *)
Definition end_fits (s e st : Z) : Prop :=
  forall i, before_end s e st i -> is_i64 (s + (Z.of_nat i + 1) * st).
