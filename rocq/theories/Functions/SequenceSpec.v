(** What an arithmetic sequence is. *)
From Coq Require Import ZArith.
From stdpp Require Import prelude list.
#[local] Open Scope Z_scope.

(** The step leads from start to stop. *)
Definition leads (start stop step : Z) : Prop :=
  (0 < step /\ start <= stop) \/ (step < 0 /\ stop <= start) \/ (step = 0 /\ start = stop).

(** The step of a call without one. *)
Definition step_of (start stop : Z) (step : option Z) : Z :=
  default (if bool_decide (start <= stop) then 1 else -1) step.

(** [l] is the sequence from start to stop: its elements are start, start + step, start + 2 * step, ...
    as long as they do not pass stop. *)
Definition is_sequence (start stop step : Z) (l : list Z) : Prop :=
  if bool_decide (start = stop) then l = [start]
  else forall (i : nat) x,
    l !! i = Some x <->
    x = start + Z.of_nat i * step /\ (start <= x <= stop \/ stop <= x <= start).

(** Spark's limit for the length of an array. *)
Definition array_limit : Z := 2 ^ 31 - 16.

(** The number of elements of a sequence with different ends. *)
Definition len (start stop step : Z) : Z := Z.abs (stop - start) / Z.abs step + 1.

(** The sequences that Spark refuses although the step is fine: they would have too many elements, or
    the distance between the ends does not fit in 64 bits. *)
Definition too_long (start stop step : Z) : Prop :=
  start <> stop /\ (array_limit < len start stop step \/ ~ - 2 ^ 63 <= stop - start < 2 ^ 63).

(** A row of arguments (NULL if one of them is) and a row of the answer belong together. *)
Definition row_right (r : option (Z * Z * option Z)) (o : option (list Z)) : Prop :=
  match r, o with
  | None, None => True
  | Some (a, b, st), Some l =>
      leads a b (step_of a b st) /\ ~ too_long a b (step_of a b st) /\
      is_sequence a b (step_of a b st) l
  | _, _ => False
  end.

(** The arguments fit in the integer type with [bits] bits. *)
Definition row_ok (bits : Z) (r : option (Z * Z * option Z)) : Prop :=
  match r with
  | None => True
  | Some (a, b, st) =>
      - 2 ^ (bits - 1) <= a < 2 ^ (bits - 1) /\ - 2 ^ (bits - 1) <= b < 2 ^ (bits - 1)
  end.

(** The number of elements in a column of arrays. *)
Definition total_of (ls : list (option (list Z))) : Z :=
  foldr Z.add 0 ((fun o => match o with Some l => Z.of_nat (length l) | None => 0 end) <$> ls).
