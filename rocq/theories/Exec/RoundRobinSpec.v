(** What round-robin dealing means. *)
From stdpp Require Import prelude list.
From Verif.Exec Require Import ExchangeModel.

(** The rows dealt to partition [p] when row number [i] goes to (start+i) mod n. *)
Fixpoint dealt {A} (start n : nat) (rows : list A) (p : nat) : list A :=
  match rows with
  | [] => []
  | r :: rest =>
      if decide (start mod n = p) then r :: dealt (S start) n rest p
      else dealt (S start) n rest p
  end.

(** The rows handed to partition [p] by a list of callback calls. *)
Definition sent {A} (calls : list (nat * list A)) (p : nat) : list A :=
  concat (map snd (filter (fun c => c.1 = p) calls)).

(** A partitioner that behaves: at most one call per channel and batch, only for
    existing channels, never with an empty batch. *)
Definition calls_ok {A} (n : nat) (calls : list (nat * list A)) : Prop :=
  NoDup (map fst calls) /\ forall c, c ∈ calls -> c.1 < n /\ c.2 <> [].

(** The rows one consumer task gets, given what each producer task wrote. *)
Definition fetched_rows {A} (written : nat -> list (list (list A))) (keys : list input_key) : list A :=
  flat_map (fun k => concat (default [] (written (ik_partition k) !! ik_channel k))) keys.
