(** What a map built from pairs is. *)
From stdpp Require Import prelude list.
From Verif Require Import Functions.MapModel.

Section spec.
  Context {K V : Type} `{EqDecision K}.

  (** The distinct elements of a list, each where it occurs first. *)
  Fixpoint firsts (l : list K) : list K :=
    match l with
    | [] => []
    | x :: l => x :: filter (fun y => y <> x) (firsts l)
    end.

  (** [m] is the map of the pairs [ps] when the last value of a key wins: it has each key once, in the
      order in which the keys occur first, with the value of the last pair that has the key. *)
  Definition last_win_map (ps m : list (K * V)) : Prop :=
    m.*1 = firsts ps.*1 /\
    forall k v, (k, v) ∈ m <-> exists before after, ps = before ++ (k, v) :: after /\ k ∉ after.*1.

  (** The list in a row of a list column. *)
  Definition row_of {A} (c : list_col A) (i : nat) : list A :=
    let lo := default 0 (c_offsets c !! i) in
    let hi := default 0 (c_offsets c !! S i) in
    take (hi - lo) (drop lo (c_values c)).
  Definition row_valid {A} (c : list_col A) (i : nat) : bool := default false (c_valid c !! i).
  Definition num_rows {A} (c : list_col A) : nat := length (c_valid c).

  (** The column is well formed: its offsets ascend and stay inside its values. *)
  Definition well_formed {A} (c : list_col A) : Prop :=
    length (c_offsets c) = S (length (c_valid c)) /\
    (forall i lo hi, c_offsets c !! i = Some lo -> c_offsets c !! S i = Some hi ->
       lo <= hi <= length (c_values c)).

  (** The column is not a slice that begins behind the first value. *)
  Definition from_start {A} (c : list_col A) : Prop := head (c_offsets c) = Some 0.

  (** The answer for a row with keys [ks] and values [vs]: [None] is an error. *)
  Definition row_ok (last_wins : bool) (ks : list (option K)) (vs : list V)
      (m : list (K * V)) : Prop :=
    exists keys, ks = Some <$> keys /\ length keys = length vs /\
      (last_wins = false -> NoDup keys) /\ last_win_map (zip keys vs) m.
End spec.
