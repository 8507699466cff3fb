(** What each exchange mode promises. *)
From stdpp Require Import prelude list.
From Verif.Exec Require Import GraphModel ExchangeModel.

(** The shape the planner gives to an exchange: a forward edge joins stages of
    equal width, a shuffle edge has one channel per consumer. *)
Definition shape_ok (m : input_mode) (ip ic op : nat) : Prop :=
  match m with
  | Forward => op = ip
  | Shuffle => op = ic
  | Rescale => 0 < op
  | Merge | Broadcast => True
  end.

(** Cut the interval from 0 to [ip] into [op] slices of equal length; consumer [p]
    owns the producers whose right end q+1 lies in the p-th slice, that is
    p*(ip/op) < q+1 <= (p+1)*(ip/op), written without division. *)
Definition owns (ip op p q : nat) : Prop :=
  p * ip < (q + 1) * op /\ (q + 1) * op <= (p + 1) * ip.

(** Stream ([q],[c]) of the producer stage is meant for consumer task [p]. *)
Definition wanted (m : input_mode) (ip ic op p q c : nat) : Prop :=
  q < ip /\ c < ic /\
  match m with
  | Forward => q = p
  | Merge | Broadcast => True
  | Shuffle => c = p
  | Rescale => owns ip op p q
  end.

(** Number of consumer tasks meant to read one stream over one edge. *)
Definition edge_readers (m : input_mode) (op : nat) : nat :=
  match m with
  | Forward | Shuffle | Rescale => 1
  | Merge | Broadcast => op
  end.

(** Every edge into stage [i] has the shape the planner gives it. *)
Definition edges_shaped (g : graph) (i : nat) : Prop :=
  forall prod cons inp, g !! i = Some prod -> cons ∈ g -> inp ∈ st_inputs cons ->
    in_stage inp = i ->
    shape_ok (in_mode inp) (st_partitions prod) (st_channels prod) (st_partitions cons).
