(** What a job relies on from the shuffle service. *)
From Coq Require Import Lia.
From stdpp Require Import prelude list gmap.
From Verif.Celeborn Require Import ShuffleModel.

(** The batch was written by the attempt that won for its mapper. *)
Definition won (st : state) (f : frame) : Prop :=
  attempts st !! f_map f = Some (Some (f_attempt f)).

#[export] Instance won_dec st f : Decision (won st f).
Proof. unfold won. apply _. Defined.

(** The shuffle is committed: it can be read. *)
Definition is_committed (st : state) : Prop := exists ls, com st = Committed ls.

(** Every mapper has an attempt that was told that its output is complete. *)
Definition all_ended (st : state) : Prop :=
  forall m, m < length (attempts st) -> exists a, (m, a) ∈ ok_ends st.

(** No push that is answered with an error, or not answered, has stored its batch. *)
Definition honest (o : op) : Prop :=
  match o with
  | Answer _ is_stored AFailure | Answer _ is_stored AError => is_stored = false
  | _ => True
  end.

(** At most one attempt of a mapper calls mapper_end. *)
Definition one_end_per_mapper (st : state) : Prop := NoDup (map fst (ends st)).

(** The batches that were written to a partition with success. *)
Definition written (p : nat) (st : state) : list frame := filter (fun f => f_part f = p) (acked st).

(** The attempt [a] of the mapper [m] writes through the client [c]. *)
Definition through (c m a : nat) (o : op) : Prop :=
  match o with StartPush c' _ m' a' _ => (m', a') = (m, a) -> c' = c | _ => True end.
