(** Building map values from lists of keys and values: map_from_arrays and map_from_entries. *)
From Coq Require Import Lia.
From stdpp Require Import prelude list.

Section map.
  Context {K V : Type} `{EqDecision K}.

  (** A list column: the flat values, the offsets of the rows in them (one more than there are rows) and
      the validity of the rows (Arrow's List, LargeList and FixedSizeList arrays;
      crates/sail-function/src/scalar/map/utils.rs:34-66). A column that is a slice of another one shares
      its flat values, so its first offset need not be 0. Row validity is a list of flags; an absent null
      buffer is the list of all [true]. *)
  Record list_col (A : Type) := ListCol { c_values : list A; c_offsets : list nat; c_valid : list bool }.
  #[global] Arguments ListCol {A} _ _ _.
  #[global] Arguments c_values {A} _.
  #[global] Arguments c_offsets {A} _.
  #[global] Arguments c_valid {A} _.

  (** The variables of map_deduplicate_keys (utils.rs:150-168). A key is [None] if it is NULL;
      ScalarValue compares NULL equal to NULL. *)
  Record st := St {
    cur_keys : nat; cur_values : nat;
    new_last : nat; new_offsets : list nat;
    mask : list bool; indices : list nat;
    seen : list (option K * nat) }.

  Fixpoint assoc (k : option K) (l : list (option K * nat)) : option nat :=
    match l with
    | [] => None
    | (k', v) :: l => if decide (k = k') then Some v else assoc k l
    end.

  (** The loop over the entries of a row (utils.rs:185-208): [None] is the duplicate key error. *)
  Fixpoint entries (last_wins : bool) (keys : list (option K)) (value_index : nat) (s : st) : option st :=
    match keys with
    | [] => Some s
    | k :: keys =>
        match assoc k (seen s) with
        | Some out =>
            if last_wins then
              entries last_wins keys (S value_index)
                (St (cur_keys s) (cur_values s) (new_last s) (new_offsets s)
                    (mask s ++ [false]) (<[out := value_index]> (indices s)) (seen s))
            else None
        | None =>
            entries last_wins keys (S value_index)
              (St (cur_keys s) (cur_values s) (S (new_last s)) (new_offsets s)
                  (mask s ++ [true]) (indices s ++ [value_index])
                  ((k, length (indices s)) :: seen s))
        end
    end.

  (** The loop over the rows (utils.rs:168-214). *)
  Definition row (last_wins : bool) (flat_keys : list (option K)) (s : st)
      (r : nat * nat * (bool * bool)) : option st :=
    let '(next_keys, next_values, (key_valid, value_valid)) := r in
    let nk := next_keys - cur_keys s in
    let nv := next_values - cur_values s in
    s' ← (if key_valid && value_valid then
            if decide (nk = nv) then
              entries last_wins (take nk (drop (cur_keys s) flat_keys)) (cur_values s)
                (St (cur_keys s) (cur_values s) (new_last s) (new_offsets s) (mask s) (indices s) [])
            else None
          else
            Some (St (cur_keys s) (cur_values s) (new_last s) (new_offsets s)
                     (mask s ++ replicate nk false) (indices s) (seen s)));
    Some (St (cur_keys s' + nk) (cur_values s' + nv) (new_last s')
             (new_offsets s' ++ [new_last s']) (mask s') (indices s') (seen s')).

  Definition fold_rows (last_wins : bool) (flat_keys : list (option K))
      (rows : list (nat * nat * (bool * bool))) (s : st) : option st :=
    foldl (fun acc r => s ← acc; row last_wins flat_keys s r) (Some s) rows.

  (** arrow's filter: the values whose flag is set. A mask that is shorter than the values ends there, a
      longer one is an error. *)
  Fixpoint filter_mask {A} (l : list A) (m : list bool) : list A :=
    match l, m with
    | x :: l, b :: m => if b then x :: filter_mask l m else filter_mask l m
    | _, _ => []
    end.

  (** map_deduplicate_keys (utils.rs:140-221). *)
  Definition dedup (last_wins : bool) (keys : list_col (option K)) (values : list_col V) :
      option (list (option K) * list V * list nat) :=
    s ← fold_rows last_wins (c_values keys)
          (zip (zip (tail (c_offsets keys)) (tail (c_offsets values))) (zip (c_valid keys) (c_valid values)))
          (St (default 0 (head (c_offsets keys))) (default 0 (head (c_offsets values))) 0 [0] [] [] []);
    vs ← mapM (fun i => c_values values !! i) (indices s);
    if decide (length (mask s) <= length (c_values keys)) then
      Some (filter_mask (c_values keys) (mask s), vs, new_offsets s)
    else None.

  (** map_from_keys_values_offsets_nulls (utils.rs:99-138), with the map array read row by row: [None] is
      an error, a row is [None] if it is NULL. The struct array rejects NULL keys. *)
  Definition map_rows (keys : list K) (values : list V) (offsets : list nat) (valid : list bool) :
      list (option (list (K * V))) :=
    imap (fun i (b : bool) =>
            if b then
              let lo := default 0 (offsets !! i) in
              let hi := default 0 (offsets !! S i) in
              Some (take (hi - lo) (drop lo (zip keys values)))
            else None) valid.
  Definition map_from (last_wins : bool) (keys : list_col (option K)) (values : list_col V) :
      option (list (option (list (K * V)))) :=
    r ← dedup last_wins keys values;
    let '(ks, vs, offs) := r in
    ks ← mapM id ks;
    Some (map_rows ks vs offs (zip_with andb (c_valid keys) (c_valid values))).

  (** map_from_arrays (map_from.rs:64-86). *)
  Definition map_from_arrays := map_from.

  (** map_from_entries (map_from.rs:132-177): the entries are structs, with a flag that says if the struct
      itself is not NULL. A row with a NULL struct becomes a NULL map. *)
  Definition map_from_entries (last_wins : bool) (col : list_col (bool * (option K * V))) :
      option (list (option (list (K * V)))) :=
    let all_valid := (fun _ => true) <$> c_valid col in
    let entries_valid :=
      imap (fun i _ =>
              let lo := default 0 (c_offsets col !! i) in
              let hi := default 0 (c_offsets col !! S i) in
              forallb fst (take (hi - lo) (drop lo (c_values col)))) (c_valid col) in
    map_from last_wins
      (ListCol ((fun e => e.2.1) <$> c_values col) (c_offsets col) all_valid)
      (ListCol ((fun e => e.2.2) <$> c_values col) (c_offsets col)
               (zip_with andb (c_valid col) entries_valid)).
End map.
