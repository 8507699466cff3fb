From Coq Require Import NArith ZifyN Ascii String Lia.
From stdpp Require Import prelude list gmap sorting.
From Verif Require Import Lib.Text Sql.LexModel Sql.MarkerProofs
  Checkpoint.CheckpointModel Checkpoint.CheckpointSpec.
Local Open Scope N_scope.

(** ** Names *)
Lemma fold_zeros n s : dec_value (repeat 48 n ++ s) = dec_value s.
Proof.
  unfold dec_value. rewrite fold_left_app. f_equal.
  induction n as [|n IH]; [done|]. cbn [repeat fold_left].
  replace (0 * 10 + (48 - 48)) with 0 by lia. exact IH.
Qed.
Lemma pad5_value n : dec_value (pad5 n) = n.
Proof. unfold pad5. by rewrite fold_zeros, decimal_value. Qed.
Lemma pad5_digits n : Forall (fun c => is_digit c = true) (pad5 n).
Proof.
  unfold pad5. apply Forall_app. split.
  - apply list.Forall_forall. intros c Hc. apply elem_of_list_In, repeat_spec in Hc. by subst.
  - pose proof (decimal_digits n) as H. rewrite forallb_forall in H.
    apply list.Forall_forall. intros c Hc. apply H. by apply elem_of_list_In.
Qed.
Lemma digits_dash_split a b x y :
  Forall (fun c => is_digit c = true) a -> Forall (fun c => is_digit c = true) b ->
  a ++ 45 :: x = b ++ 45 :: y -> a = b /\ x = y.
Proof.
  revert b. induction a as [|c a IH]; intros [|d b] Ha Hb H; cbn [app] in H.
  - apply (inj2 cons) in H as [_ ->]. done.
  - apply (inj2 cons) in H as [<- _]. apply Forall_cons_1 in Hb as [Hb _]. done.
  - apply (inj2 cons) in H as [-> _]. apply Forall_cons_1 in Ha as [Ha _]. done.
  - apply (inj2 cons) in H as [-> H]. apply Forall_cons_1 in Ha as [_ Ha].
    apply Forall_cons_1 in Hb as [_ Hb]. destruct (IH b Ha Hb H) as [-> ->]. done.
Qed.
Lemma start_split p q x y : part_start p ++ x = part_start q ++ y -> p = q /\ x = y.
Proof.
  unfold part_start. intros H. rewrite <- !(assoc_L app) in H. apply app_inv_head in H.
  change (str "-" ++ x) with (45 :: x) in H. change (str "-" ++ y) with (45 :: y) in H.
  apply digits_dash_split in H as [H ->]; [|apply pad5_digits..].
  split; [|done]. by rewrite <- (pad5_value p), <- (pad5_value q), H.
Qed.
Lemma part_name_inj p q u v : part_name p u = part_name q v -> p = q /\ u = v.
Proof.
  unfold part_name. intros H. apply start_split in H as [-> H]. split; [done|].
  by apply app_inv_tail in H.
Qed.

Lemma strip_prefix_app pre s : strip_prefix pre (pre ++ s) = Some s.
Proof.
  unfold strip_prefix, starts_with. rewrite take_app, bool_decide_true by done. by rewrite drop_app.
Qed.
Lemma strip_prefix_some pre s t : strip_prefix pre s = Some t -> s = pre ++ t.
Proof.
  unfold strip_prefix, starts_with. case_bool_decide as H; [|done].
  intros Ht. apply (inj Some) in Ht as <-. rewrite <- H at 1. by rewrite take_drop.
Qed.
Lemma strip_suffix_app suf s : strip_suffix suf (s ++ suf) = Some s.
Proof.
  unfold strip_suffix, ends_with. rewrite app_length.
  replace (length s + length suf - length suf)%nat with (length s) by lia.
  rewrite !bool_decide_true; [|by rewrite drop_app|lia]. cbn [andb]. by rewrite take_app.
Qed.
Lemma strip_suffix_some suf s t : strip_suffix suf s = Some t -> s = t ++ suf.
Proof.
  unfold strip_suffix, ends_with. case_bool_decide as H1; [|done].
  case_bool_decide as H2; [|done]. cbn [andb]. intros Ht. apply (inj Some) in Ht as <-.
  transitivity (take (length s - length suf) s ++ drop (length s - length suf) s);
    [by rewrite take_drop|by rewrite H2].
Qed.

Lemma under_app pre loc : under pre (pre ++ loc) = true.
Proof. unfold under. by rewrite take_app, bool_decide_true. Qed.
Lemma under_iff pre loc : under pre loc = true <-> exists r, loc = pre ++ r.
Proof.
  split.
  - unfold under. intros H%bool_decide_eq_true. exists (drop (length pre) loc).
    rewrite <- H at 1. by rewrite take_drop.
  - intros [r ->]. apply under_app.
Qed.

Lemma valid_location_iff uuid_ok pre p loc :
  valid_location uuid_ok pre p loc = true <-> well_placed uuid_ok pre p loc.
Proof.
  unfold valid_location, well_placed. split.
  - destruct (last loc) as [name|] eqn:Hl; [|done]. intros H.
    apply andb_true_iff in H as [[H1 H2]%andb_true_iff H3].
    destruct (strip_prefix (part_start p) name) as [x|] eqn:E1; cbn [mbind option_bind] in H3; [|done].
    destruct (strip_suffix (str ".parquet") x) as [v|] eqn:E2; [|done].
    exists v. split; [done|].
    apply strip_prefix_some in E1. apply strip_suffix_some in E2. subst x.
    apply under_iff in H1 as [r ->]. apply Nat.eqb_eq in H2. rewrite app_length in H2.
    assert (Hr : length r = 1%nat) by lia. destruct r as [|n [|]]; try done.
    rewrite last_snoc in Hl. apply (inj Some) in Hl. subst n. rewrite E1.
    unfold part_start. by rewrite <- !(assoc_L app).
  - intros (v & Hv & ->). rewrite last_snoc.
    replace (str "part-" ++ pad5 p ++ str "-" ++ v ++ str ".parquet")
      with (part_start p ++ (v ++ str ".parquet")) by (unfold part_start; by rewrite <- !(assoc_L app)).
    rewrite under_app, strip_prefix_app. cbn [mbind option_bind]. rewrite strip_suffix_app, Hv.
    rewrite app_length. cbn [length]. by rewrite Nat.eqb_refl.
Qed.

Lemma well_placed_one uuid_ok pre p q loc :
  well_placed uuid_ok pre p loc -> well_placed uuid_ok pre q loc -> p = q.
Proof.
  intros (u & _ & ->) (v & _ & H). apply app_inv_head in H. apply (inj2 cons) in H as [H _].
  by apply (part_name_inj p q u v); unfold part_name, part_start; rewrite <- !(assoc_L app).
Qed.

(** ** The map of the partitions *)
Definition key_lt : relation (N * part) := fun a b => a.1 < b.1.
Global Instance key_lt_antisymm : AntiSymm (=) key_lt.
Proof. intros a b H1 H2. unfold key_lt in *. lia. Qed.

Lemma bt_insert_some k v l r :
  StronglySorted key_lt l -> bt_insert k v l = Some r ->
  r ≡ₚ (k, v) :: l /\ StronglySorted key_lt r.
Proof.
  revert r. induction l as [|[k' v'] l IH]; intros r Hs H; cbn [bt_insert] in H.
  - apply (inj Some) in H as <-. split; [done|]. repeat constructor.
  - apply StronglySorted_inv in Hs as [Hs Hall].
    destruct (k =? k') eqn:E1; [done|]. destruct (k <? k') eqn:E2.
    + apply (inj Some) in H as <-. split; [done|]. constructor; [by constructor|].
      apply N.ltb_lt in E2. constructor; [done|].
      eapply list.Forall_impl; [exact Hall|]. intros [a b]. unfold key_lt. cbn [fst]. lia.
    + destruct (bt_insert k v l) as [r'|] eqn:E3; [|done]. apply (inj Some) in H as <-.
      destruct (IH r' Hs eq_refl) as [Hp Hs']. split.
      * rewrite Hp. apply Permutation_swap.
      * constructor; [done|]. rewrite Hp. constructor; [|done].
        unfold key_lt. cbn [fst]. apply N.eqb_neq in E1. apply N.ltb_ge in E2. lia.
Qed.
Lemma bt_insert_none k v l : bt_insert k v l = None -> k ∈ l.*1.
Proof.
  induction l as [|[k' v'] l IH]; cbn [bt_insert]; [done|]. intros H.
  rewrite fmap_cons. cbn [fst]. destruct (k =? k') eqn:E1.
  - apply N.eqb_eq in E1 as ->. left.
  - destruct (k <? k'); [done|]. destruct (bt_insert k v l); [done|]. right. by apply IH.
Qed.

Section collect.
Context (uuid_ok : text -> bool) (nc : bool) (pre : path).
Local Notation ok := (acceptable uuid_ok nc pre).
Local Notation kv := (fun m => (m_partition m, entry m)).

Lemma check_meta_iff m v : check_meta uuid_ok nc pre m = Some v <-> ok m /\ v = entry m.
Proof.
  unfold check_meta, acceptable, entry. destruct m as [p [loc|] sz rw]; cbn [m_location m_size m_rows m_partition].
  - destruct nc; [split; [done|by intros [[? _] _]]|].
    destruct (N.eqb_spec sz 0) as [->|H1]; cbn [orb]; [split; [done|by intros [(_ & ? & _) _]]|].
    destruct (N.eqb_spec rw 0) as [->|H2]; [split; [done|by intros [(_ & _ & ? & _) _]]|].
    destruct (valid_location uuid_ok pre p loc) eqn:E.
    + apply valid_location_iff in E. split.
      * intros H. apply (inj Some) in H as <-. done.
      * intros [_ ->]. done.
    + split; [done|]. intros [(_ & _ & _ & Hw) _]. apply valid_location_iff in Hw. congruence.
  - destruct (N.eqb_spec sz 0) as [->|H1]; cbn [negb]; [|split; [done|by intros [[? _] _]]].
    destruct (N.eqb_spec rw 0) as [->|H2]; cbn [negb andb].
    + split.
      * intros H. apply (inj Some) in H as <-. auto.
      * intros [_ ->]. done.
    + destruct nc; cbn [negb].
      * split; [intros H; apply (inj Some) in H as <-; auto|by intros [_ ->]].
      * split; [done|]. intros [[_ [?|?]] _]; done.
Qed.

Lemma collect_rows_sound ms acc out :
  StronglySorted key_lt acc -> collect_rows uuid_ok nc pre acc ms = Some out ->
  exists l, ms = map Some l /\ Forall ok l /\ out ≡ₚ map kv l ++ acc /\ StronglySorted key_lt out.
Proof.
  revert acc. induction ms as [|[m|] ms IH]; intros acc Hs H; cbn [collect_rows] in H.
  - apply (inj Some) in H as <-. exists []. done.
  - destruct (check_meta uuid_ok nc pre m) as [v|] eqn:E1; [|done].
    apply check_meta_iff in E1 as [Hok ->].
    destruct (bt_insert (m_partition m) (entry m) acc) as [acc'|] eqn:E2; [|done].
    destruct (bt_insert_some _ _ _ _ Hs E2) as [Hp Hs'].
    destruct (IH acc' Hs' H) as (l & -> & Hl & Hpo & Hso).
    exists (m :: l). split; [done|]. split; [by constructor|]. split; [|done].
    rewrite Hpo, Hp. cbn [map app]. by rewrite Permutation_middle.
  - done.
Qed.

Lemma collect_rows_complete l acc :
  StronglySorted key_lt acc -> Forall ok l -> NoDup (map m_partition l ++ acc.*1) ->
  exists out, collect_rows uuid_ok nc pre acc (map Some l) = Some out.
Proof.
  revert acc. induction l as [|m l IH]; intros acc Hs Hok Hn; cbn [map collect_rows].
  - by exists acc.
  - apply Forall_cons_1 in Hok as [Hm Hok].
    assert (E1 : check_meta uuid_ok nc pre m = Some (entry m)) by (by apply check_meta_iff).
    rewrite E1. cbn [map app] in Hn. apply NoDup_cons in Hn as [Hni Hn].
    destruct (bt_insert (m_partition m) (entry m) acc) as [acc'|] eqn:E2.
    + destruct (bt_insert_some _ _ _ _ Hs E2) as [Hp Hs'].
      apply IH; [done..|]. rewrite Hp. rewrite fmap_cons. cbn [fst].
      rewrite <- Permutation_middle. by constructor.
    + apply bt_insert_none in E2. exfalso. apply Hni. apply elem_of_app. by right.
Qed.

Lemma check_numbers_iff e l r :
  check_numbers e l = Some r <->
  l.*1 = map (fun i => e + N.of_nat i) (seq 0 (length l)) /\ r = l.*2.
Proof.
  revert e r. induction l as [|[k v] l IH]; intros e r; cbn [check_numbers].
  - split; [intros H; apply (inj Some) in H as <-; done|intros [_ ->]; done].
  - rewrite !fmap_cons. cbn [fst snd length seq map]. rewrite <- seq_shift, map_map.
    destruct (N.eqb_spec k e) as [->|Hk].
    + rewrite N.add_0_r. destruct (check_numbers (e + 1) l) as [r'|] eqn:E.
      * apply IH in E as [E1 ->]. split.
        -- intros H. apply (inj Some) in H as <-. split; [|done]. f_equal. rewrite E1.
           apply map_ext. intros i. lia.
        -- intros [_ ->]. done.
      * split; [done|]. intros [H ->]. apply (inj2 cons) in H as [_ H].
        assert (E2 : check_numbers (e + 1) l = Some l.*2).
        { apply IH. split; [|done]. rewrite H. apply map_ext. intros i. lia. }
        congruence.
    + split; [done|]. intros [H _]. apply (inj2 cons) in H as [H _]. lia.
Qed.

Lemma numbers_sorted l :
  map m_partition l = numbers (length l) -> StronglySorted key_lt (map kv l).
Proof.
  assert (G : forall l k, map m_partition l = map N.of_nat (seq k (length l)) ->
    StronglySorted key_lt (map kv l) /\ Forall (fun m => N.of_nat k <= m_partition m) l).
  { clear l. induction l as [|m l IH]; intros k H; [split; constructor|].
    cbn [map length seq] in H. apply (inj2 cons) in H as [H1 H2].
    destruct (IH (S k) H2) as [IH1 IH2]. split.
    - cbn [map]. constructor; [done|]. apply list.Forall_forall. intros x Hx.
      apply elem_of_list_In, in_map_iff in Hx as (m' & <- & Hm').
      rewrite list.Forall_forall in IH2. specialize (IH2 m' (proj2 (elem_of_list_In _ _) Hm')).
      unfold key_lt. cbn [fst]. lia.
    - constructor; [lia|]. eapply list.Forall_impl; [exact IH2|]. cbn. intros. lia. }
  intros H. by apply (G l 0%nat).
Qed.
Lemma numbers_nodup n : NoDup (numbers n).
Proof.
  unfold numbers. apply NoDup_ListNoDup. apply FinFun.Injective_map_NoDup; [|apply seq_NoDup].
  intros a b H. lia.
Qed.

Lemma collect_iff ms parts :
  collect uuid_ok nc pre ms = Some parts <->
  exists l, ms ≡ₚ map Some l /\ l <> [] /\ Forall ok l /\
    map m_partition l = numbers (length l) /\ parts = map entry l.
Proof.
  unfold collect. split.
  - destruct (collect_rows uuid_ok nc pre [] ms) as [out|] eqn:E; [|done].
    destruct (collect_rows_sound ms [] out ltac:(constructor) E) as (l0 & -> & Hok & Hp & Hs).
    rewrite app_nil_r in Hp. intros H.
    assert (Hout : check_numbers 0 out = Some parts /\ out <> []) by (destruct out; done).
    clear H. destruct Hout as [H Hne]. apply check_numbers_iff in H as [H1 H2].
    apply Permutation_map_inv in Hp as (l & -> & Hl).
    exists l. split; [by rewrite Hl|]. split; [by destruct l|]. split.
    { by rewrite <- Hl. }
    rewrite map_length in H1. split.
    + transitivity ((map kv l).*1).
      * change ((map kv l).*1) with (map fst (map kv l)). rewrite map_map. apply map_ext. done.
      * rewrite H1. unfold numbers. apply map_ext. intros i. lia.
    + rewrite H2. change ((map kv l).*2) with (map snd (map kv l)). rewrite map_map. done.
  - intros (l & Hms & Hne & Hok & Hnum & ->).
    destruct (Permutation_map_inv _ _ Hms) as (l1 & -> & Hl1).
    assert (Hok1 : Forall ok l1) by (by rewrite <- Hl1).
    assert (Hnd : NoDup (map m_partition l1 ++ ([] : list (N * part)).*1)).
    { rewrite app_nil_r. rewrite <- Hl1, Hnum. apply numbers_nodup. }
    destruct (collect_rows_complete l1 [] ltac:(constructor) Hok1 Hnd) as [out Hout].
    rewrite Hout.
    destruct (collect_rows_sound _ [] out ltac:(constructor) Hout) as (l2 & H2 & _ & Hp & Hs).
    assert (E2 : l2 = l1).
    { clear -H2. revert l2 H2. induction l1 as [|a l1 IH]; intros [|b l2] H; try done.
      cbn [map] in H. apply (inj2 cons) in H as [H1 H2]. apply (inj Some) in H1 as ->.
      f_equal. by apply IH. }
    subst l2.
    rewrite app_nil_r in Hp.
    assert (Ho : out = map kv l).
    { apply (StronglySorted_unique key_lt); [done|by apply numbers_sorted|]. by rewrite Hp, Hl1. }
    subst out.
    assert (Hc : check_numbers 0 (map kv l) = Some (map entry l)).
    { apply check_numbers_iff. split.
      - transitivity (map fst (map kv l)); [done|]. rewrite map_map.
        transitivity (map m_partition l); [by apply map_ext|].
        rewrite Hnum, map_length. unfold numbers. apply map_ext. intros i. lia.
      - transitivity (map snd (map kv l)); [|done]. rewrite map_map. by apply map_ext. }
    destruct l as [|m l]; [done|]. exact Hc.
Qed.
End collect.
