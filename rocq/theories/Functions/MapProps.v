(** C71: maps built from lists. *)
From Coq Require Import Lia.
From stdpp Require Import prelude list.
From Verif Require Import Functions.MapModel Functions.MapSpec Functions.MapProofs
  Functions.MapRowProofs.

Section props.
  Context {K V : Type} `{EqDecision K}.

  (** Row by row, the answer is the map of the pairs of the row: each key once, where it occurs first,
      with its last value. The query fails exactly if some row has no such map: its lists differ in
      length, a key is NULL, or, unless the last value wins, a key occurs twice. Rows where one of the
      lists is NULL are NULL and never make the query fail. Missing for the full property: the columns may
      not be slices that begin behind the first value, see [C71_sliced_refuted]. *)
  Theorem C71_maps_partial (last_wins : bool) (keys : list_col (option K)) (values : list_col V) :
    well_formed keys -> well_formed values -> num_rows keys = num_rows values -> from_start keys ->
    (map_from_arrays last_wins keys values = None <->
     exists i, i < num_rows keys /\ row_valid keys i = true /\ row_valid values i = true /\
       ~ exists m, row_ok last_wins (row_of keys i) (row_of values i) m) /\
    (forall rows, map_from_arrays last_wins keys values = Some rows ->
     length rows = num_rows keys /\
     forall i r, rows !! i = Some r ->
       match r with
       | Some m => row_valid keys i = true /\ row_valid values i = true /\
                   row_ok last_wins (row_of keys i) (row_of values i) m
       | None => row_valid keys i = false \/ row_valid values i = false
       end).
  Proof.
    intros Hk Hv Hn H0. unfold map_from_arrays. rewrite (map_from_eq _ _ _ Hk Hv Hn H0).
    fold (num_rows keys). split.
    - rewrite mapM_None, Exists_exists. split.
      + intros (i & Hi & Hr). apply elem_of_seq in Hi. exists i. unfold rowans_at in Hr.
        pose proof (rowans_ok last_wins (row_of keys i) (row_of values i)
                      (row_valid keys i && row_valid values i)) as Ho. rewrite Hr in Ho.
        destruct Ho as [Ho1 Ho2]. apply andb_true_iff in Ho1 as [? ?]. split_and!; try done. lia.
      + intros (i & Hi & H1 & H2 & Ho). exists i. split; [apply elem_of_seq; lia|].
        unfold rowans_at.
        pose proof (rowans_ok last_wins (row_of keys i) (row_of values i)
                      (row_valid keys i && row_valid values i)) as Hr.
        rewrite H1, H2 in *. cbn [andb] in *.
        destruct (rowans _ _ _ _) as [[m|]|]; [|done|done]. destruct Hr as [_ Hr]. exfalso. eauto.
    - intros rows Hrows. apply mapM_Some in Hrows.
      pose proof (Forall2_length _ _ _ Hrows) as Hlen. rewrite seq_length in Hlen. split; [done|].
      intros i r Hr. destruct (Forall2_lookup_r _ _ _ _ _ Hrows Hr) as (j & Hj & Hans).
      apply lookup_seq in Hj as [-> Hj]. cbn in Hans.
      pose proof (rowans_ok last_wins (row_of keys i) (row_of values i)
                      (row_valid keys i && row_valid values i)) as Ho.
      unfold rowans_at in Hans. rewrite Hans in Ho.
      destruct r as [m|].
      + destruct Ho as [Ho ?]. apply andb_true_iff in Ho as [? ?]. done.
      + by apply andb_false_iff in Ho.
  Qed.

  (** The same for a column of lists of entries: the entries are the pairs, and a row with a NULL entry is
      NULL. *)
  Theorem C71_entries_partial (last_wins : bool) (col : list_col (bool * (option K * V))) :
    well_formed col -> from_start col ->
    let usable i := row_valid col i = true /\ Forall (fun e => e.1 = true) (row_of col i) in
    let ks i := (fun e => e.2.1) <$> row_of col i in
    let vs i := (fun e => e.2.2) <$> row_of col i in
    (map_from_entries last_wins col = None <->
     exists i, i < num_rows col /\ usable i /\ ~ exists m, row_ok last_wins (ks i) (vs i) m) /\
    (forall rows, map_from_entries last_wins col = Some rows ->
     length rows = num_rows col /\
     forall i r, rows !! i = Some r ->
       match r with
       | Some m => usable i /\ row_ok last_wins (ks i) (vs i) m
       | None => ~ usable i
       end).
  Proof.
    intros Hw H0 usable ks vs. unfold map_from_entries.
    set (ev := imap _ (c_valid col)).
    set (kcol := ListCol ((fun e => e.2.1) <$> c_values col) (c_offsets col) ((fun _ => true) <$> c_valid col)).
    set (vcol := ListCol ((fun e => e.2.2) <$> c_values col) (c_offsets col) (zip_with andb (c_valid col) ev)).
    assert (length ev = length (c_valid col)) as Hev by apply imap_length.
    assert (well_formed kcol) as Hk.
    { destruct Hw as [Hw1 Hw2]. split; cbn [kcol c_offsets c_valid c_values]; rewrite fmap_length; [done|].
      exact Hw2. }
    assert (well_formed vcol) as Hv.
    { destruct Hw as [Hw1 Hw2]. split; cbn [vcol c_offsets c_valid c_values].
      - rewrite zip_with_length, Hev. lia.
      - rewrite fmap_length. exact Hw2. }
    assert (num_rows kcol = num_rows vcol) as Hn.
    { unfold num_rows. cbn [kcol vcol c_valid]. rewrite fmap_length, zip_with_length, Hev. lia. }
    assert (num_rows kcol = num_rows col) as Hnc by (unfold num_rows; cbn [kcol c_valid]; by rewrite fmap_length).
    assert (forall i, row_of kcol i = ks i) as Hks.
    { intros i. unfold row_of, ks, row_of. cbn [kcol c_values c_offsets].
      by rewrite <- fmap_drop, <- fmap_take. }
    assert (forall i, row_of vcol i = vs i) as Hvs.
    { intros i. unfold row_of, vs, row_of. cbn [vcol c_values c_offsets].
      by rewrite <- fmap_drop, <- fmap_take. }
    assert (forall i, i < num_rows col -> row_valid kcol i = true) as Hkv.
    { intros i Hi. unfold row_valid. cbn [kcol c_valid]. rewrite list_lookup_fmap.
      unfold num_rows in Hi. by destruct (lookup_lt_is_Some_2 _ _ Hi) as [b ->]. }
    assert (forall i, i < num_rows col -> row_valid vcol i = true <-> usable i) as Hvv.
    { intros i Hi. unfold row_valid, usable, row_valid. cbn [vcol c_valid]. rewrite lookup_zip_with.
      unfold num_rows in Hi. destruct (lookup_lt_is_Some_2 _ _ Hi) as [b Hb]. rewrite Hb.
      cbn [mbind option_bind]. unfold ev. rewrite list_lookup_imap, Hb.
      cbn [fmap option_fmap option_map mbind option_bind default from_option id].
      rewrite andb_true_iff, forallb_forall, Forall_forall. unfold row_of.
      split; intros [? Hall]; (split; [done|]); intros x Hx; apply Hall; by apply elem_of_list_In. }
    destruct (C71_maps_partial last_wins kcol vcol Hk Hv Hn H0) as [Hnone Hsome].
    unfold map_from_arrays in Hnone, Hsome. rewrite Hnc in Hnone. split.
    - rewrite Hnone. split; intros (i & Hi & H).
      + destruct H as (_ & H2 & H3). exists i. split; [done|]. split; [by apply Hvv|].
        by rewrite <- Hks, <- Hvs.
      + destruct H as (H2 & H3). exists i. split; [done|]. split; [by apply Hkv|]. split; [by apply Hvv|].
        by rewrite Hks, Hvs.
    - intros rows Hrows. destruct (Hsome rows Hrows) as [Hlen Hrow]. split; [congruence|].
      intros i r Hr. assert (i < num_rows col) as Hi.
      { apply lookup_lt_Some in Hr. lia. }
      specialize (Hrow i r Hr). destruct r as [m|].
      + destruct Hrow as (_ & H2 & H3). split; [by apply Hvv|]. by rewrite <- Hks, <- Hvs.
      + rewrite <- Hvv by done. rewrite (Hkv i Hi) in Hrow. destruct Hrow as [|Hrow]; [done|].
        by rewrite Hrow.
  Qed.

  (** A row has at most one right answer. *)
  Theorem C71_answer_unique last_wins (ks : list (option K)) (vs : list V) m m' :
    row_ok last_wins ks vs m -> row_ok last_wins ks vs m' -> m = m'.
  Proof. exact (row_ok_unique last_wins ks vs m m'). Qed.
End props.
Print Assumptions C71_maps_partial.
Print Assumptions C71_entries_partial.
Print Assumptions C71_answer_unique.

(** The second row alone of a column with two rows, as left behind by a query with OFFSET 1: its key comes
    from the first row. *)
Theorem C71_sliced_refuted :
  exists (keys : list_col (option nat)) (values : list_col nat),
    well_formed keys /\ well_formed values /\ num_rows keys = num_rows values /\
    row_of keys 0 = [Some 2] /\ row_of values 0 = [20] /\
    map_from_arrays false keys values = Some [Some [(1, 20)]].
Proof.
  exists (ListCol [Some 1; Some 2] [1; 2] [true]), (ListCol [10; 20] [1; 2] [true]).
  split_and!; try done.
  - split; [done|]. intros [|[|i]] lo hi H1 H2; cbn in *; try done. simplify_eq. lia.
  - split; [done|]. intros [|[|i]] lo hi H1 H2; cbn in *; try done. simplify_eq. lia.
Qed.
Print Assumptions C71_sliced_refuted.

(** Three rows: a duplicate key, a NULL list of keys, and two keys. *)
Definition ex_keys : list_col (option nat) :=
  ListCol [Some 7; Some 8; Some 7; Some 9; Some 1; Some 2] [0; 3; 4; 6] [true; false; true].
Definition ex_values : list_col nat := ListCol [10; 11; 12; 13; 14; 15; 16] [1; 4; 5; 7] [true; true; true].
Example C71_example_last_win :
  map_from_arrays true ex_keys ex_values =
  Some [Some [(7, 13); (8, 12)]; None; Some [(1, 15); (2, 16)]].
Proof. by vm_compute. Qed.
Example C71_example_exception : map_from_arrays false ex_keys ex_values = None.
Proof. by vm_compute. Qed.
Example C71_example_well_formed :
  well_formed ex_keys /\ well_formed ex_values /\ num_rows ex_keys = num_rows ex_values /\ from_start ex_keys.
Proof.
  split_and!; try done.
  - split; [done|]. intros [|[|[|[|i]]]] lo hi H1 H2; cbn in *; try done; simplify_eq; lia.
  - split; [done|]. intros [|[|[|[|i]]]] lo hi H1 H2; cbn in *; try done; simplify_eq; lia.
Qed.
Example C71_example_entries :
  map_from_entries false
    (ListCol [(true, (Some 1, 10)); (true, (Some 2, 20)); (false, (None, 0)); (true, (Some 3, 30))]
             [0; 2; 4] [true; true]) = Some [Some [(1, 10); (2, 20)]; None].
Proof. by vm_compute. Qed.
