From Coq Require Import NArith ZArith ZifyN ZifyNat Lia.
From stdpp Require Import prelude list gmap sorting.
From Verif.Lib Require Import Text Sort ListFacts.
From Verif.Iceberg Require Import ValueModel DeleteModel DeleteSpec.

(** * The partition key *)
Lemma le_bytes_length k n : length (le_bytes k n) = k.
Proof. revert n. induction k as [|k IH]; intros n; cbn; [done|]. by rewrite IH. Qed.
Lemma le_bytes_inj k n m :
  (n < 256 ^ N.of_nat k)%N -> (m < 256 ^ N.of_nat k)%N -> le_bytes k n = le_bytes k m -> n = m.
Proof.
  revert n m. induction k as [|k IH]; intros n m Hn Hm.
  - change (256 ^ N.of_nat 0)%N with 1%N in *. lia.
  - rewrite Nat2N.inj_succ, N.pow_succ_r' in Hn, Hm. cbn [le_bytes]. intros [= H1 H2].
    apply IH in H2.
    + rewrite (N.div_mod' n 256), (N.div_mod' m 256). by rewrite H1, H2.
    + apply N.div_lt_upper_bound; lia.
    + apply N.div_lt_upper_bound; lia.
Qed.
Lemma signed_le_inj k a b :
  (0 < k)%nat ->
  (- 2 ^ (8 * Z.of_nat k - 1) <= a < 2 ^ (8 * Z.of_nat k - 1))%Z ->
  (- 2 ^ (8 * Z.of_nat k - 1) <= b < 2 ^ (8 * Z.of_nat k - 1))%Z ->
  signed_le k a = signed_le k b -> a = b.
Proof.
  intros Hk Ha Hb H. unfold signed_le in H.
  assert (Hp : (2 ^ (8 * Z.of_nat k) = 2 * 2 ^ (8 * Z.of_nat k - 1))%Z).
  { rewrite <- Z.pow_succ_r by lia. f_equal. lia. }
  assert (Hq : (2 ^ (8 * Z.of_nat k))%Z = Z.of_N (256 ^ N.of_nat k)).
  { rewrite N2Z.inj_pow. change (Z.of_N 256) with (2 ^ 8)%Z.
    rewrite <- Z.pow_mul_r by lia. f_equal. lia. }
  assert (Hpos : (0 < 2 ^ (8 * Z.of_nat k - 1))%Z) by (apply Z.pow_pos_nonneg; lia).
  pose proof (Z.mod_pos_bound a (2 ^ (8 * Z.of_nat k)) ltac:(lia)).
  pose proof (Z.mod_pos_bound b (2 ^ (8 * Z.of_nat k)) ltac:(lia)).
  apply le_bytes_inj in H; [|lia..].
  apply Z2N.inj in H; [|lia..].
  assert (Hd : ((a - b) mod (2 ^ (8 * Z.of_nat k)) = 0)%Z) by (rewrite Zminus_mod, H, Z.sub_diag; apply Z.mod_0_l; lia).
  apply Z.mod_divide in Hd as [q Hq']; [|lia].
  revert Hq' Hp Hpos Ha Hb. clear.
  generalize (2 ^ (8 * Z.of_nat k))%Z (2 ^ (8 * Z.of_nat k - 1))%Z. intros p h E -> Hh Ha Hb.
  assert (q = 0 \/ 1 <= q \/ q <= -1)%Z as [->|[Hq|Hq]] by lia; nia.
Qed.

Lemma len_prefix s1 s2 r1 r2 :
  (N.of_nat (length s1) < 2 ^ 32)%N -> (N.of_nat (length s2) < 2 ^ 32)%N ->
  len32 s1 ++ s1 ++ r1 = len32 s2 ++ s2 ++ r2 -> s1 = s2 /\ r1 = r2.
Proof.
  intros H1 H2 H. unfold len32 in H.
  apply app_inj_1 in H as [Hl H]; [|by rewrite !le_bytes_length].
  apply le_bytes_inj in Hl; [|exact H1|exact H2].
  apply app_inj_1 in H; [done|lia].
Qed.

(** The encodings of two values never collide, whatever follows. *)
Definition sized (v : option prim) : Prop :=
  match v with
  | None => True
  | Some p => prim_ok p /\ match p with PString s | PBinary s => (N.of_nat (length s) < 2 ^ 32)%N | _ => True end
  end.
Lemma plain_sized v : plain_value v -> sized v.
Proof. unfold plain_value, sized. destruct v as [[]|]; tauto. Qed.
Lemma cons_eq_inv {A} (a b : A) l k : a :: l = b :: k -> a = b /\ l = k.
Proof. by intros [= -> ->]. Qed.
Lemma encode_value_prefix a b r1 r2 :
  sized a -> sized b -> encode_value a ++ r1 = encode_value b ++ r2 -> a = b /\ r1 = r2.
Proof.
  intros Ha Hb H.
  destruct a as [p|], b as [q|]; cbn [encode_value app] in H; [|discriminate..|injection H as H; done].
  injection H as H. destruct Ha as [Ha Ha'], Hb as [Hb Hb'].
  destruct p as [x|x|x|x|x|x|x|x|x], q as [y|y|y|y|y|y|y|y|y]; cbn [encode_prim app] in H; try discriminate H;
    [destruct x, y; by inversion H|..];
    apply cons_eq_inv in H as [_ H]; cbn [prim_ok] in Ha, Hb.
  - apply app_inj_1 in H as [H ->]; [|by unfold signed_le; rewrite !le_bytes_length].
    apply signed_le_inj in H; [by subst|lia|done..].
  - apply app_inj_1 in H as [H ->]; [|by unfold signed_le; rewrite !le_bytes_length].
    apply signed_le_inj in H; [by subst|lia|done..].
  - apply app_inj_1 in H as [H ->]; [|by rewrite !le_bytes_length].
    apply le_bytes_inj in H; [by subst|done..].
  - apply app_inj_1 in H as [H ->]; [|by rewrite !le_bytes_length].
    apply le_bytes_inj in H; [by subst|done..].
  - apply app_inj_1 in H as [H ->]; [|by unfold signed_le; rewrite !le_bytes_length].
    apply signed_le_inj in H; [by subst|lia|done..].
  - rewrite <- !app_assoc in H. apply len_prefix in H as [-> ->]; done.
  - apply app_inj_1 in H as [H ->]; [|by rewrite !le_bytes_length].
    apply le_bytes_inj in H; [by subst|done..].
  - rewrite <- !app_assoc in H. apply len_prefix in H as [-> ->]; done.
Qed.
Lemma encode_value_ne v : encode_value v <> [].
Proof. by destruct v. Qed.
Lemma partition_key_inj s1 s2 a b :
  Forall sized a -> Forall sized b -> partition_key s1 a = partition_key s2 b -> s1 = s2 /\ a = b.
Proof.
  unfold partition_key. intros Ha Hb [= -> H]. split; [done|].
  revert b Hb H. induction Ha as [|x a Hx Ha IH]; intros [|y b] Hb H; [done| | |].
  - cbn in H. symmetry in H. apply app_eq_nil in H as [H _]. by apply encode_value_ne in H.
  - cbn in H. apply app_eq_nil in H as [H _]. by apply encode_value_ne in H.
  - cbn in H. apply Forall_cons in Hb as [Hy Hb].
    apply encode_value_prefix in H as [-> H]; [|done..]. f_equal. by apply IH.
Qed.

Lemma same_value_plain a b : plain_value a -> plain_value b -> same_value a b <-> a = b.
Proof.
  intros Ha Hb. split.
  - destruct a as [[]|], b as [[]|]; cbn; try done.
    + intros [->|[Hx Hy]]; [done|]. destruct Ha as [_ Ha], Hb as [_ Hb].
      by rewrite (Ha Hx), (Hb Hy).
    + intros [->|[Hx Hy]]; [done|]. destruct Ha as [_ Ha], Hb as [_ Hb].
      by rewrite (Ha Hx), (Hb Hy).
  - intros ->. destruct b as [[]|]; cbn; auto.
Qed.
Lemma same_partition_plain a b :
  Forall plain_value (f_partition (r_file a)) -> Forall plain_value (f_partition (r_file b)) ->
  same_partition a b <-> ref_key a = ref_key b.
Proof.
  intros Ha Hb. unfold same_partition, ref_key. split.
  - intros [-> H]. unfold partition_key. f_equal. f_equal.
    revert Ha Hb. induction H as [|x y l l' Hxy H IH]; intros Ha Hb; [done|].
    apply Forall_cons in Ha as [Hx Ha], Hb as [Hy Hb].
    apply same_value_plain in Hxy as ->; [|done..]. f_equal. auto.
  - intros H. apply partition_key_inj in H as [-> ->];
      [|eapply Forall_impl; [done|]; intros; by apply plain_sized..].
    split; [done|].
    clear Ha. induction Hb as [|x l Hx Hb IH]; constructor; [by apply same_value_plain|done].
Qed.

(** * The index *)
Definition ix_has (ix : dindex) (l : list fref) : Prop :=
  (forall r, r ∈ ix_global ix <-> r ∈ l /\ f_content (r_file r) = CEq /\ r_unpart r = true) /\
  (forall k r, r ∈ default [] (ix_eq ix !! k) <->
     r ∈ l /\ f_content (r_file r) = CEq /\ r_unpart r = false /\ ref_key r = k) /\
  (forall k r, r ∈ default [] (ix_pos ix !! k) <->
     r ∈ l /\ f_content (r_file r) = CPos /\ f_ref (r_file r) = None /\ ref_key r = k) /\
  (forall p r, r ∈ default [] (ix_path ix !! p) <->
     r ∈ l /\ f_content (r_file r) = CPos /\ f_ref (r_file r) = Some p).

Lemma push_at_spec {K} `{Countable K} (m : gmap K (list fref)) k x k' r :
  r ∈ default [] (push_at m k x !! k') <-> r ∈ default [] (m !! k') \/ (k = k' /\ r = x).
Proof.
  unfold push_at. destruct (decide (k = k')) as [->|Hne].
  - rewrite lookup_insert. cbn [from_option id]. rewrite elem_of_app, elem_of_list_singleton. tauto.
  - rewrite lookup_insert_ne by done. tauto.
Qed.

Lemma ix_insert_has ix l r ix' : ix_has ix l -> ix_insert ix r = Some ix' -> ix_has ix' (l ++ [r]).
Proof.
  intros (Hg & He & Hp & Hn) H. unfold ix_insert in H.
  destruct (f_dv (r_file r)); [done|].
  assert (Hel : forall x, x ∈ l ++ [r] <-> x ∈ l \/ x = r).
  { intros x. by rewrite elem_of_app, elem_of_list_singleton. }
  destruct (f_content (r_file r)) eqn:Ec; [done| |].
  - destruct (f_ref (r_file r)) as [p|] eqn:Er; injection H as <-;
      (split; [|split; [|split]]); cbn [ix_global ix_eq ix_pos ix_path]; intros; rewrite ?push_at_spec, ?Hg, ?He, ?Hp, ?Hn, Hel;
      intuition (subst; congruence || auto).
  - destruct (r_unpart r) eqn:Eu; injection H as <-;
      (split; [|split; [|split]]); cbn [ix_global ix_eq ix_pos ix_path]; intros; rewrite ?push_at_spec, ?elem_of_app, ?elem_of_list_singleton, ?Hg, ?He, ?Hp, ?Hn;
      intuition (subst; congruence || auto).
Qed.

Definition index_of (l : list fref) : option dindex :=
  foldl (fun acc r => match acc with Some ix => ix_insert ix r | None => None end) (Some ix_empty) l.
Lemma index_of_snoc l r :
  index_of (l ++ [r]) = match index_of l with Some ix => ix_insert ix r | None => None end.
Proof. unfold index_of. by rewrite foldl_app. Qed.
Lemma index_of_has l ix : index_of l = Some ix -> ix_has ix l.
Proof.
  revert ix. induction l as [|r l IH] using rev_ind; intros ix.
  - intros [= <-]. (split; [|split; [|split]]); intros; cbn [ix_global ix_eq ix_pos ix_path ix_empty];
      rewrite ?lookup_empty; cbn [from_option id]; rewrite !elem_of_nil; tauto.
  - rewrite index_of_snoc. destruct (index_of l) as [ix0|]; [|done]. by apply ix_insert_has, IH.
Qed.
Lemma index_of_some l :
  is_Some (index_of l) <-> forall r, r ∈ l -> f_dv (r_file r) = false /\ f_content (r_file r) <> CData.
Proof.
  induction l as [|r l IH] using rev_ind.
  - split; [|done]. intros _ r Hr. by apply elem_of_nil in Hr.
  - rewrite index_of_snoc.
    transitivity (is_Some (index_of l) /\ f_dv (r_file r) = false /\ f_content (r_file r) <> CData).
    + destruct (index_of l) as [ix|]; [|split; [by intros []|by intros [[] _]]].
      unfold ix_insert. destruct (f_dv (r_file r)); [split; [by intros []|by intros (_ & ? & _)]|].
      destruct (f_content (r_file r)); [split; [by intros []|intros (_ & _ & []); done]|..];
        [destruct (f_ref (r_file r))|destruct (r_unpart r)]; (split; [intros _; eauto|eauto]).
    + rewrite IH. setoid_rewrite elem_of_app. setoid_rewrite elem_of_list_singleton.
      split; [intros [H1 H2] x [Hx| ->]; auto|intros H; split; [intros x Hx; apply H; auto|apply H; auto]].
Qed.

Lemma elem_of_filter_list {A} (f : A -> bool) l x : x ∈ List.filter f l <-> x ∈ l /\ f x = true.
Proof. rewrite !elem_of_list_In. apply filter_In. Qed.

Lemma manifest_refs_listed unpart b ms r :
  r ∈ flat_map (manifest_refs unpart) (List.filter (fun m => Bool.eqb (m_deletes m) b) ms) <->
  listed unpart b ms r.
Proof.
  rewrite elem_of_flat_map. unfold listed, manifest_refs. split.
  - intros (m & Hm & Hr). apply elem_of_filter_list in Hm as [Hm Hb]. apply eqb_prop in Hb.
    apply elem_of_list_omap in Hr as (e & He & Hr).
    destruct (live_entry (e_status e)) eqn:El; [|done]. injection Hr as <-.
    exists m, e. cbn. repeat split; try done. by intros E; rewrite E in El.
  - intros (m & e & Hm & Hb & He & Hs & Hf & Hsp & Hu & Hq). exists m. split.
    + apply elem_of_filter_list. split; [done|]. rewrite Hb. apply eqb_reflx.
    + apply elem_of_list_omap. exists e. split; [done|].
      destruct (e_status e); try done; cbn; f_equal; destruct r; cbn in *; subst; by destruct (e_seq e).
Qed.
Lemma load_data_files_listed unpart ms r : r ∈ load_data_files unpart ms <-> listed unpart false ms r.
Proof.
  rewrite <- manifest_refs_listed. unfold load_data_files.
  rewrite (filter_ext (fun m => negb (m_deletes m)) (fun m => Bool.eqb (m_deletes m) false)); [done|].
  intros m. by destruct (m_deletes m).
Qed.
Lemma build_index_of unpart ms :
  build_index unpart ms = index_of (flat_map (manifest_refs unpart) (List.filter m_deletes ms)).
Proof. done. Qed.
Lemma delete_refs_listed unpart ms r :
  r ∈ flat_map (manifest_refs unpart) (List.filter m_deletes ms) <-> listed unpart true ms r.
Proof.
  rewrite <- manifest_refs_listed.
  rewrite (filter_ext m_deletes (fun m => Bool.eqb (m_deletes m) true)); [done|].
  intros m. by destruct (m_deletes m).
Qed.

Lemma build_index_some unpart ms :
  is_Some (build_index unpart ms) <->
  forall r, listed unpart true ms r -> f_dv (r_file r) = false /\ f_content (r_file r) <> CData.
Proof. rewrite build_index_of, index_of_some. by setoid_rewrite delete_refs_listed. Qed.

Lemma listed_plain unpart b ms r :
  plain_partitions ms -> listed unpart b ms r -> Forall plain_value (f_partition (r_file r)).
Proof. intros Hp (m & e & Hm & _ & He & _ & -> & _). by eapply Hp. Qed.

Lemma for_data_file_pos unpart ms ix d r :
  plain_partitions ms -> Forall plain_value (f_partition (r_file d)) ->
  build_index unpart ms = Some ix ->
  r ∈ (for_data_file ix d).1 <-> listed unpart true ms r /\ pos_applies d r.
Proof.
  intros Hp Hd Hb. rewrite build_index_of in Hb. apply index_of_has in Hb as (_ & _ & Hpos & Hn).
  unfold for_data_file, pos_applies. cbn [fst]. rewrite elem_of_app, !elem_of_filter_list.
  rewrite Hpos, Hn, !delete_refs_listed, bool_decide_eq_true.
  split.
  - intros [[(Hl & Hc & Hf) Hs]|[(Hl & Hc & Hf & Hk) Hs]]; (split; [done|]); rewrite Hf; [done|].
    repeat split; [done..| |];
      apply same_partition_plain in Hk; try done; [by destruct Hk|by eapply listed_plain|by destruct Hk|by eapply listed_plain].
  - intros (Hl & Hc & Hs & Hf). destruct (f_ref (r_file r)) as [p|] eqn:Er.
    + left. by subst p.
    + right. apply same_partition_plain in Hf; [done|by eapply listed_plain|done].
Qed.
Lemma for_data_file_eq unpart ms ix d r :
  plain_partitions ms -> Forall plain_value (f_partition (r_file d)) ->
  build_index unpart ms = Some ix ->
  r ∈ (for_data_file ix d).2 <-> listed unpart true ms r /\ eq_applies unpart d r.
Proof.
  intros Hp Hd Hb. rewrite build_index_of in Hb. apply index_of_has in Hb as (Hg & He & _ & _).
  unfold for_data_file, eq_applies. cbn [snd]. rewrite elem_of_app, !elem_of_filter_list.
  rewrite Hg, He, !delete_refs_listed, bool_decide_eq_true.
  assert (Hu : listed unpart true ms r -> r_unpart r = unpart (r_spec r)).
  { intros (m & e & _ & _ & _ & _ & _ & -> & Hu & _). done. }
  split.
  - intros [[(Hl & Hc & Hf & Hk) Hs]|[(Hl & Hc & Hf) Hs]]; (split; [done|]); split; try done; split; try done.
    + right. apply same_partition_plain; [by eapply listed_plain|done|done].
    + left. by rewrite <- Hu.
  - intros (Hl & Hc & Hs & Hf). destruct (r_unpart r) eqn:Er; [by right|left].
    destruct Hf as [Hf|Hf]; [rewrite <- Hu in Hf by done; congruence|].
    apply same_partition_plain in Hf; [done|by eapply listed_plain|done].
Qed.

(** * Masks *)
Lemma dedup_sorted_elem l x : x ∈ dedup_sorted l <-> x ∈ l.
Proof.
  induction l as [|a [|b l] IH]; [done..|].
  cbn [dedup_sorted]. destruct (decide (a = b)) as [->|].
  - change (x ∈ dedup_sorted (b :: l) <-> x ∈ b :: b :: l). rewrite IH, !elem_of_cons. tauto.
  - change (x ∈ a :: dedup_sorted (b :: l) <-> x ∈ a :: b :: l). rewrite elem_of_cons, IH, !elem_of_cons. tauto.
Qed.
Lemma dedup_sorted_sorted l : StronglySorted Z.le l -> StronglySorted Z.le (dedup_sorted l).
Proof.
  induction l as [|a [|b l] IH]; [done..|]. intros H.
  inversion H as [|? ? H1 H2]; subst.
  cbn [dedup_sorted]. destruct (decide (a = b)) as [->|].
  - by apply IH.
  - change (StronglySorted Z.le (a :: dedup_sorted (b :: l))). constructor; [by apply IH|].
    apply Forall_forall. intros x Hx. rewrite dedup_sorted_elem in Hx. rewrite Forall_forall in H2. exact (H2 x Hx).
Qed.

Lemma partition_point_split x l :
  StronglySorted Z.le l ->
  (forall y, y ∈ take (partition_point x l) l -> (y < x)%Z) /\
  (forall y, y ∈ drop (partition_point x l) l -> (x <= y)%Z).
Proof.
  induction 1 as [|a l Hl IH Ha]; cbn [partition_point]; [by split; intros y; rewrite ?drop_nil, ?take_nil, elem_of_nil|].
  destruct (decide (a < x)%Z).
  - cbn [take drop]. destruct IH as [IH1 IH2]. split; [|done].
    intros y [->|Hy]%elem_of_cons; auto.
  - cbn [take drop]. split; [intros y; by rewrite elem_of_nil|].
    intros y [->|Hy]%elem_of_cons; [lia|]. rewrite Forall_forall in Ha. specialize (Ha y Hy). lia.
Qed.
Lemma sorted_drop l n : StronglySorted Z.le l -> StronglySorted Z.le (drop n l).
Proof.
  revert n. induction l as [|a l IH]; intros [|n] H; cbn; try done.
  apply IH. by inversion H.
Qed.
Lemma slice_elem (ps : list Z) lo hi x :
  StronglySorted Z.le ps -> (lo <= hi)%Z ->
  x ∈ take (partition_point hi ps - partition_point lo ps) (drop (partition_point lo ps) ps) <->
  x ∈ ps /\ (lo <= x < hi)%Z.
Proof.
  intros Hs Hle.
  destruct (partition_point_split lo ps Hs) as [L1 L2].
  destruct (partition_point_split hi ps Hs) as [H1 H2].
  assert (Hpp : partition_point lo ps <= partition_point hi ps).
  { clear L1 L2 H1 H2 Hs x. induction ps as [|a ps IH]; cbn; [lia|].
    destruct (decide (a < lo)%Z), (decide (a < hi)%Z); lia. }
  rewrite take_drop_commute.
  replace (partition_point lo ps + (partition_point hi ps - partition_point lo ps)) with (partition_point hi ps) by lia.
  split.
  - intros Hx.
    assert (x ∈ take (partition_point hi ps) ps).
    { apply elem_of_list_lookup in Hx as [i Hi]. rewrite lookup_drop in Hi. by eapply elem_of_list_lookup_2. }
    assert (x ∈ drop (partition_point lo ps) ps).
    { apply elem_of_list_lookup in Hx as [i Hi]. rewrite lookup_drop in Hi.
      apply lookup_take_Some in Hi as [Hi _].
      apply elem_of_list_lookup. exists i. by rewrite lookup_drop. }
    split; [|split; auto].
    by rewrite <- (take_drop (partition_point hi ps) ps), elem_of_app; left.
  - intros (Hx & Hlo & Hhi).
    apply elem_of_list_lookup in Hx as [i Hi].
    apply elem_of_list_lookup. exists (i - partition_point lo ps).
    rewrite lookup_drop.
    assert (partition_point lo ps <= i).
    { destruct (decide (partition_point lo ps <= i)) as [|Hn]; [done|].
      assert (x < lo)%Z; [|lia]. apply L1, elem_of_list_lookup. exists i. rewrite lookup_take by lia. done. }
    replace (partition_point lo ps + (i - partition_point lo ps)) with i by lia.
    rewrite lookup_take; [done|].
    destruct (decide (i < partition_point hi ps)) as [|Hn]; [done|].
    assert (hi <= x)%Z; [|lia]. apply H2, elem_of_list_lookup. exists (i - partition_point hi ps).
    rewrite lookup_drop. by replace (partition_point hi ps + (i - partition_point hi ps)) with i by lia.
Qed.

Lemma foldl_clear_lookup (idx : Z -> nat) n l keep i :
  length keep = n ->
  foldl (fun keep p => if decide (idx p < n) then <[idx p := false]> keep else keep) keep l !! i =
  match keep !! i with
  | Some b => Some (b && negb (existsb (fun p => bool_decide (idx p = i)) l))
  | None => None
  end.
Proof.
  revert keep. induction l as [|p l IH]; intros keep Hk.
  - cbn. destruct (keep !! i) as [b|]; [|done]. by rewrite andb_true_r.
  - cbn [foldl existsb]. rewrite IH by (destruct (decide _); by rewrite ?insert_length).
    destruct (decide (idx p < n)) as [Hlt|Hlt].
    + destruct (decide (idx p = i)) as [<-|Hne].
      * rewrite list_lookup_insert by lia. rewrite bool_decide_eq_true_2 by done.
        destruct (lookup_lt_is_Some_2 keep (idx p) ltac:(lia)) as [b ->]. by destruct b.
      * rewrite list_lookup_insert_ne by done. by rewrite bool_decide_eq_false_2.
    + destruct (keep !! i) as [b|] eqn:Ei; [|done]. apply lookup_lt_Some in Ei.
      rewrite bool_decide_eq_false_2 by lia. done.
Qed.

Lemma file_positions_elem st path r i :
  i ∈ file_positions st path r <->
  (Some path, Some i) ∈ pos_rows st (f_path (r_file r)) /\ (0 <= i)%Z.
Proof.
  unfold file_positions. rewrite elem_of_list_omap. split.
  - intros ([[p|] [j|]] & Hin & H); try done.
    destruct (decide (p = path)) as [->|]; [|done].
    destruct (decide (0 <= j)%Z); [|done]. by injection H as ->.
  - intros [Hin Hi]. exists (Some path, Some i). split; [done|].
    rewrite decide_True by done. by rewrite decide_True.
Qed.
Lemma load_deleted_positions_elem st path rs i :
  i ∈ load_deleted_positions st path rs <->
  (0 <= i)%Z /\ exists r, r ∈ rs /\ (Some path, Some i) ∈ pos_rows st (f_path (r_file r)).
Proof.
  unfold load_deleted_positions. rewrite dedup_sorted_elem.
  rewrite (sort_asc_perm id), elem_of_flat_map.
  setoid_rewrite file_positions_elem. naive_solver.
Qed.
Lemma load_deleted_positions_sorted st path rs : StronglySorted Z.le (load_deleted_positions st path rs).
Proof.
  unfold load_deleted_positions. apply dedup_sorted_sorted. apply (sort_asc_sorted id).
Qed.

Section rows.
Context {Row : Type} (field : Row -> Z -> option prim).

Lemma position_mask_length n offset ps : length (position_mask n offset ps) = n.
Proof.
  unfold position_mask. generalize (take (partition_point (Z.of_nat (offset + n)) ps - partition_point (Z.of_nat offset) ps) (drop (partition_point (Z.of_nat offset) ps) ps)).
  intros l. assert (H : length (replicate n true) = n) by apply replicate_length.
  revert H. generalize (replicate n true). induction l as [|p l IH]; intros keep Hk; cbn [foldl]; [done|].
  apply IH. destruct (decide _); by rewrite ?insert_length.
Qed.
Lemma position_mask_lookup n offset ps i :
  StronglySorted Z.le ps -> i < n ->
  position_mask n offset ps !! i = Some (negb (bool_decide (Z.of_nat (offset + i) ∈ ps))).
Proof.
  intros Hs Hi. unfold position_mask.
  rewrite (foldl_clear_lookup (fun p => Z.to_nat (p - Z.of_nat offset))) by apply replicate_length.
  rewrite lookup_replicate_2 by done. cbn [andb]. do 2 f_equal.
  apply Bool.eq_true_iff_eq. rewrite bool_decide_eq_true, existsb_exists.
  setoid_rewrite <- elem_of_list_In. setoid_rewrite slice_elem; [|done|lia].
  setoid_rewrite bool_decide_eq_true. split.
  - intros (p & (Hp & Hlo & Hhi) & E). by replace (Z.of_nat (offset + i)) with p by lia.
  - intros Hp. exists (Z.of_nat (offset + i)). split; [split; [done|lia]|lia].
Qed.

Lemma eq_mask_lookup (eqs : list (list Z * list (list (option prim)))) rows (keep : list bool) i row :
  length keep = length rows -> rows !! i = Some row ->
  foldl (fun keep (e : list Z * list (list (option prim))) =>
    zip_with (fun (k : bool) row => if k then negb (bool_decide (row_key field e.1 row ∈ e.2)) else k) keep rows)
    keep eqs !! i =
  match keep !! i with
  | Some b => Some (b && forallb (fun e => negb (bool_decide (row_key field e.1 row ∈ e.2))) eqs)
  | None => None
  end.
Proof.
  intros Hl Hr. revert keep Hl. induction eqs as [|e eqs IH]; intros keep Hl; cbn [foldl forallb].
  - destruct (keep !! i); [|done]. by rewrite andb_true_r.
  - rewrite IH by (rewrite zip_with_length; lia).
    rewrite lookup_zip_with, Hr. destruct (keep !! i) as [b|]; [|done]. cbn. by destruct b.
Qed.
Lemma delete_mask_length rows offset ps eqs : length (delete_mask field rows offset ps eqs) = length rows.
Proof.
  unfold delete_mask. assert (H := position_mask_length (length rows) offset ps). revert H.
  generalize (position_mask (length rows) offset ps).
  induction eqs as [|e eqs IH]; intros keep Hk; cbn [foldl]; [done|].
  apply IH. rewrite zip_with_length. lia.
Qed.

(** What the masks mean. *)
Definition mask_del (ps : list Z) (eqs : list (list Z * list (list (option prim)))) (i : nat) (row : Row) : Prop :=
  Z.of_nat i ∈ ps \/ exists e, e ∈ eqs /\ map (field row) e.1 ∈ e.2.
Lemma delete_mask_lookup rows offset ps eqs i row :
  StronglySorted Z.le ps -> rows !! i = Some row ->
  exists b, delete_mask field rows offset ps eqs !! i = Some b /\
    (b = false <-> mask_del ps eqs (offset + i) row).
Proof.
  intros Hs Hr. unfold delete_mask. rewrite (eq_mask_lookup eqs rows _ i row) by (done || apply position_mask_length).
  rewrite position_mask_lookup by (done || by eapply lookup_lt_Some).
  eexists. split; [done|]. unfold mask_del.
  destruct (bool_decide_reflect (Z.of_nat (offset + i) ∈ ps)) as [Hp|Hp]; cbn [negb andb].
  - split; [by left|done].
  - rewrite <- not_true_iff_false, forallb_forall. split.
    + intros H. right.
      destruct (existsb (fun e : list Z * list (list (option prim)) => bool_decide (row_key field e.1 row ∈ e.2)) eqs) eqn:Ex.
      * apply existsb_exists in Ex as (e & He & Hk). exists e. rewrite elem_of_list_In. split; [done|].
        by apply bool_decide_eq_true in Hk.
      * exfalso. apply H. intros e He. rewrite negb_true_iff.
        destruct (bool_decide _) eqn:Eb; [|done].
        rewrite <- Ex. symmetry. apply existsb_exists. eauto.
    + intros [?|(e & He & Hk)]; [done|]. intros H.
      specialize (H e). rewrite <- elem_of_list_In, negb_true_iff, bool_decide_eq_false in H.
      by apply H.
Qed.

Lemma filter_rows_keeps (del : nat -> Row -> Prop) rows mask offset :
  length mask = length rows ->
  (forall i row, rows !! i = Some row -> exists b, mask !! i = Some b /\ (b = false <-> del (offset + i) row)) ->
  keeps del offset rows (filter_rows rows mask).
Proof.
  revert mask offset. induction rows as [|x rows IH]; intros [|b mask] offset Hl H; try done; [constructor|].
  destruct (H 0 x eq_refl) as (b' & [= <-] & Hb). rewrite Nat.add_0_r in Hb.
  assert (Hk : keeps del (S offset) rows (filter_rows rows mask)).
  { apply IH; [by injection Hl|]. intros i row Hi. destruct (H (S i) row Hi) as (b' & Hb' & E).
    exists b'. split; [done|]. by rewrite <- Nat.add_succ_comm in E. }
  unfold filter_rows. cbn [zip zip_with omap list_omap snd fst]. destruct b.
  - apply keeps_keep; [|exact Hk]. intros Hd. by apply Hb in Hd.
  - apply keeps_drop; [by apply Hb|exact Hk].
Qed.
Lemma keeps_app (del : nat -> Row -> Prop) i a b a' b' :
  keeps del i a a' -> keeps del (i + length a) b b' -> keeps del i (a ++ b) (a' ++ b').
Proof.
  induction 1 as [i|i x l l' Hd H IH|i x l l' Hd H IH]; intros Hb; cbn [app length] in *.
  - by rewrite Nat.add_0_r in Hb.
  - apply keeps_keep; [done|]. apply IH. by rewrite Nat.add_succ_comm.
  - apply keeps_drop; [done|]. apply IH. by rewrite Nat.add_succ_comm.
Qed.
Lemma apply_batches_keeps ps eqs offset batches :
  StronglySorted Z.le ps ->
  keeps (mask_del ps eqs) offset (concat batches) (concat (apply_batches field ps eqs offset batches)).
Proof.
  intros Hs. revert offset. induction batches as [|b bs IH]; intros offset; cbn [apply_batches concat]; [constructor|].
  rewrite concat_app.
  replace (concat (if decide (filter_rows b (delete_mask field b offset ps eqs) = []) then [] else [filter_rows b (delete_mask field b offset ps eqs)]))
    with (filter_rows b (delete_mask field b offset ps eqs)).
  2:{ destruct (decide _) as [->|]; [done|]. cbn. by rewrite app_nil_r. }
  apply keeps_app; [|apply IH].
  apply filter_rows_keeps; [apply delete_mask_length|]. intros i row Hi. by apply delete_mask_lookup.
Qed.
Lemma keeps_ext (del del' : nat -> Row -> Prop) i l l' :
  (forall i x, del i x <-> del' i x) -> keeps del i l l' -> keeps del' i l l'.
Proof.
  intros E. induction 1; [constructor|constructor 2; [by rewrite <- E|done]|constructor 3; [by apply E|done]].
Qed.
Lemma keeps_fun (del : nat -> Row -> Prop) i l a b : keeps del i l a -> keeps del i l b -> a = b.
Proof.
  intros H. revert b. induction H as [i|i x l l' Hd H IH|i x l l' Hd H IH]; intros b Hb;
    inversion Hb; subst; try done; [f_equal; auto|auto].
Qed.
Lemma keeps_none (del : nat -> Row -> Prop) i l : (forall i x, ~ del i x) -> keeps del i l l.
Proof. intros H. revert i. induction l; intros i; [constructor|apply keeps_keep; auto]. Qed.

(** * One file, and the table *)
Lemma mapM_load_equality schema st eqs es :
  mapM (load_equality schema st) eqs = Some es <->
  es = map (fun r => (f_equality_ids (r_file r), eq_rows st (f_path (r_file r)))) eqs /\
  forall r, r ∈ eqs -> f_equality_ids (r_file r) <> [] /\ forall i, i ∈ f_equality_ids (r_file r) -> i ∈ schema.
Proof.
  revert es. induction eqs as [|r eqs IH]; intros es; cbn [mapM map].
  - split; [intros [= <-]; split; [done|]; intros r Hr; by apply elem_of_nil in Hr|intros [-> _]; done].
  - assert (Hr : forall x, load_equality schema st r = Some x <->
      x = (f_equality_ids (r_file r), eq_rows st (f_path (r_file r))) /\
      f_equality_ids (r_file r) <> [] /\ forall i, i ∈ f_equality_ids (r_file r) -> i ∈ schema).
    { intros x. unfold load_equality. destruct (decide (f_equality_ids (r_file r) = [])) as [E|E]; [naive_solver|].
      destruct (forallb _ _) eqn:Ef.
      - rewrite forallb_elem in Ef. setoid_rewrite bool_decide_eq_true in Ef. naive_solver.
      - split; [done|]. intros (_ & _ & H). exfalso. rewrite <- not_true_iff_false, forallb_elem in Ef.
        apply Ef. intros i Hi. apply bool_decide_eq_true. auto. }
    cbn. rewrite bind_Some. setoid_rewrite bind_Some. setoid_rewrite Hr. setoid_rewrite IH.
    setoid_rewrite elem_of_cons. split.
    + intros (x & (-> & H1 & H2) & y & (-> & H3) & [= <-]). split; [done|]. intros q [->|Hq]; auto.
    + intros [-> H]. eexists. split; [split; [done|apply H; by left]|].
      eexists. split; [split; [done|intros q Hq; apply H; by right]|done].
Qed.

Definition eq_supported (schema : list Z) (r : fref) : Prop :=
  f_equality_ids (r_file r) <> [] /\ forall i, i ∈ f_equality_ids (r_file r) -> i ∈ schema.

Lemma read_file_spec unpart schema st ms ix d batches rows :
  plain_partitions ms -> Forall plain_value (f_partition (r_file d)) ->
  build_index unpart ms = Some ix ->
  read_file field schema st batches d (for_data_file ix d) = Some rows <->
  keeps (row_deleted field unpart st ms d) 0 (concat batches) rows /\
  forall r, listed unpart true ms r -> eq_applies unpart d r -> eq_supported schema r.
Proof.
  intros Hp Hd Hb.
  pose proof (fun r => for_data_file_pos unpart ms ix d r Hp Hd Hb) as Hpos.
  pose proof (fun r => for_data_file_eq unpart ms ix d r Hp Hd Hb) as Heq.
  destruct (for_data_file ix d) as [pos eqs]. cbn [fst snd] in Hpos, Heq.
  assert (Hsup : (forall r, r ∈ eqs -> eq_supported schema r) <->
                 forall r, listed unpart true ms r -> eq_applies unpart d r -> eq_supported schema r).
  { setoid_rewrite Heq. naive_solver. }
  rewrite <- Hsup.
  assert (Hdel : forall i row,
    mask_del (load_deleted_positions st (f_path (r_file d)) pos)
      (map (fun r => (f_equality_ids (r_file r), eq_rows st (f_path (r_file r)))) eqs) i row <->
    row_deleted field unpart st ms d i row).
  { intros i row. unfold mask_del, row_deleted. rewrite load_deleted_positions_elem.
    setoid_rewrite elem_of_map_iff. setoid_rewrite Hpos. split.
    - intros [(_ & r & (Hl & Ha) & Hin)|(e & (r & -> & Hr) & Hk)].
      + exists r. split; [done|]. by left.
      + apply Heq in Hr as [Hl Ha]. exists r. split; [done|]. by right.
    - intros (r & Hl & [[Ha Hin]|[Ha Hin]]).
      + left. split; [lia|]. eauto.
      + right. exists (f_equality_ids (r_file r), eq_rows st (f_path (r_file r))). split; [|done].
        exists r. split; [done|]. by apply Heq. }
  assert (Hgen : (es ← mapM (load_equality schema st) eqs;
      Some (concat (apply_batches field (load_deleted_positions st (f_path (r_file d)) pos) es 0 batches))) = Some rows <->
    keeps (row_deleted field unpart st ms d) 0 (concat batches) rows /\ forall r, r ∈ eqs -> eq_supported schema r).
  { rewrite bind_Some. setoid_rewrite mapM_load_equality.
    assert (Hk := keeps_ext _ _ 0 _ _ Hdel (apply_batches_keeps _ (map (fun r => (f_equality_ids (r_file r), eq_rows st (f_path (r_file r)))) eqs) 0 batches
        (load_deleted_positions_sorted st (f_path (r_file d)) pos))).
    split.
    - intros (es & [-> Hs] & [= <-]). split; [exact Hk|exact Hs].
    - intros [Hk' Hs]. eexists. split; [by split|]. f_equal. by eapply keeps_fun. }
  unfold read_file. destruct pos as [|r0 pos]; [destruct eqs as [|e0 eqs]|]; [|exact Hgen..].
  rewrite <- Hgen. cbn [mapM mbind option_bind].
  assert (E : concat (apply_batches field (load_deleted_positions st (f_path (r_file d)) []) [] 0 batches) = concat batches).
  { eapply keeps_fun; [apply apply_batches_keeps, load_deleted_positions_sorted|].
    apply keeps_none. intros i x [Hx|(e & He & _)]; [|by apply elem_of_nil in He].
    apply load_deleted_positions_elem in Hx as (_ & r & Hr & _). by apply elem_of_nil in Hr. }
  transitivity (Some (concat (apply_batches field (load_deleted_positions st (f_path (r_file d)) []) [] 0 batches)) = Some rows); [|done].
  by rewrite E.
Qed.

Lemma filter_split_perm {A} (f : A -> bool) l : List.filter f l ++ List.filter (fun x => negb (f x)) l ≡ₚ l.
Proof.
  induction l as [|a l IH]; cbn; [done|]. destruct (f a); cbn.
  - by constructor.
  - rewrite <- Permutation_middle. by constructor.
Qed.

(** Matching a permuted list against relational results. *)
Lemma Forall2_perm_l {A B} (R : A -> B -> Prop) l1 l2 k :
  l1 ≡ₚ l2 -> Forall2 R l1 k -> exists k', k ≡ₚ k' /\ Forall2 R l2 k'.
Proof.
  intros Hp. revert k. induction Hp as [|x l1 l2 Hp IH|x y l|l1 l2 l3 H1 IH1 H2 IH2]; intros k Hk.
  - exists k. done.
  - apply Forall2_cons_inv_l in Hk as (b & k0 & Hx & Hk & ->).
    apply IH in Hk as (k' & Hpk & Hk). exists (b :: k'). split; [by constructor|by constructor].
  - apply Forall2_cons_inv_l in Hk as (b & k0 & Hx & Hk & ->).
    apply Forall2_cons_inv_l in Hk as (c & k1 & Hy & Hk & ->).
    exists (c :: b :: k1). split; [constructor|by repeat constructor].
  - apply IH1 in Hk as (k1 & Hp1 & Hk1). apply IH2 in Hk1 as (k2 & Hp2 & Hk2).
    exists k2. split; [by etrans|done].
Qed.
Lemma Forall2_impl_left {A B} (R S : A -> B -> Prop) l k :
  Forall2 R l k -> (forall x y, x ∈ l -> R x y -> S x y) -> Forall2 S l k.
Proof.
  induction 1 as [|x y l k Hxy H IH]; intros HS; constructor.
  - apply HS; [apply elem_of_list_here|done].
  - apply IH. intros a b Ha. apply HS. by apply elem_of_list_further.
Qed.
Lemma concat_perm {A} (a b : list (list A)) : a ≡ₚ b -> concat a ≡ₚ concat b.
Proof. by intros ->. Qed.

Lemma read_table_rows unpart schema st scan ms rows :
  plain_partitions ms ->
  read_table field unpart schema st scan ms = Some rows ->
  exists outs, Forall2 (fun d out => keeps (row_deleted field unpart st ms d) 0 (concat (scan (f_path (r_file d)))) out)
    (load_data_files unpart ms) outs /\ rows ≡ₚ concat outs.
Proof.
  intros Hp H. unfold read_table in H. apply bind_Some in H as (ix & Hix & H).
  apply bind_Some in H as (outs & Ho & [= <-]).
  match type of Ho with mapM ?f ?l = _ => assert (Hf : Forall2 (fun d out => keeps (row_deleted field unpart st ms d) 0 (concat (scan (f_path (r_file d)))) out) l outs) end.
  { apply mapM_Some in Ho. eapply Forall2_impl_left; [exact Ho|].
    intros d out Hd Hr. apply (read_file_spec unpart schema st ms) in Hr as [Hk _]; try done.
    eapply (listed_plain unpart false); [done|]. apply load_data_files_listed.
    rewrite filter_split_perm in Hd. done. }
  eapply Forall2_perm_l in Hf as (outs' & Hpo & Hf); [|apply filter_split_perm].
  exists outs'. split; [done|]. by rewrite Hpo.
Qed.
Lemma read_table_succeeds unpart schema st scan ms :
  plain_partitions ms ->
  is_Some (read_table field unpart schema st scan ms) <->
  (forall r, listed unpart true ms r -> f_dv (r_file r) = false /\ f_content (r_file r) <> CData) /\
  (forall d r, listed unpart false ms d -> listed unpart true ms r -> eq_applies unpart d r -> eq_supported schema r).
Proof.
  intros Hp. rewrite <- build_index_some. unfold read_table.
  destruct (build_index unpart ms) as [ix|] eqn:Hix; [|split; [by intros []|by intros [[] _]]].
  cbn.
  match goal with |- context [mapM ?f ?l] =>
    assert (Hm : is_Some (mapM f l) <-> Forall (fun d => is_Some (f d)) l) by apply mapM_is_Some end.
  split.
  - intros [rows H]. split; [eauto|]. apply bind_Some in H as (outs & Ho & _).
    assert (Hi := proj1 Hm (ex_intro _ _ Ho)). rewrite Forall_forall in Hi.
    intros d r Hd Hl Ha.
    assert (Hd' := Hd). apply load_data_files_listed in Hd'.
    rewrite <- (filter_split_perm (fun d => match for_data_file ix d with ([], []) => true | _ => false end)) in Hd'.
    apply Hi in Hd' as [out Hout].
    apply (read_file_spec unpart schema st ms) in Hout as [_ Hs]; try done; [eauto|by eapply listed_plain].
  - intros [_ H].
    enough (Hs : is_Some (mapM (fun d => read_file field schema st (scan (f_path (r_file d))) d (for_data_file ix d))
      (List.filter (fun d => match for_data_file ix d with ([], []) => true | _ => false end) (load_data_files unpart ms) ++
       List.filter (fun d => negb match for_data_file ix d with ([], []) => true | _ => false end) (load_data_files unpart ms)))).
    { destruct Hs as [outs Ho]. exists (concat outs). apply bind_Some. eauto. }
    apply Hm. rewrite Forall_forall. intros d Hd. rewrite filter_split_perm in Hd.
    apply load_data_files_listed in Hd.
    assert (Hpl := listed_plain _ _ _ _ Hp Hd).
    destruct (read_file field schema st (scan (f_path (r_file d))) d (for_data_file ix d)) as [out|] eqn:Er; [eauto|exfalso].
    (* the rows exist, so the reading cannot fail *)
    assert (Hex : exists out, keeps (row_deleted field unpart st ms d) 0 (concat (scan (f_path (r_file d)))) out).
    { set (m := for_data_file ix d).
      exists (concat (apply_batches field (load_deleted_positions st (f_path (r_file d)) m.1)
         (map (fun r => (f_equality_ids (r_file r), eq_rows st (f_path (r_file r)))) m.2) 0 (scan (f_path (r_file d))))).
      eapply keeps_ext; [|apply apply_batches_keeps, load_deleted_positions_sorted].
      intros i row. unfold mask_del, row_deleted. rewrite load_deleted_positions_elem.
      setoid_rewrite elem_of_map_iff. subst m.
      setoid_rewrite (for_data_file_pos unpart ms ix d); [|done..].
      split.
      - intros [(_ & r & (Hl & Ha) & Hin)|(e & (r & -> & Hr) & Hk)].
        + exists r. split; [done|]. by left.
        + apply (for_data_file_eq unpart ms) in Hr as [Hl Ha]; [|done..]. exists r. split; [done|]. by right.
      - intros (r & Hl & [[Ha Hin]|[Ha Hin]]).
        + left. split; [lia|]. eauto.
        + right. exists (f_equality_ids (r_file r), eq_rows st (f_path (r_file r))). split; [|done].
          exists r. split; [done|]. by apply (for_data_file_eq unpart ms). }
    destruct Hex as [out Hk].
    assert (Hs : read_file field schema st (scan (f_path (r_file d))) d (for_data_file ix d) = Some out).
    { apply (read_file_spec unpart schema st ms); try done. split; [done|]. intros r Hl Ha. by eapply H. }
    congruence.
Qed.
End rows.

Lemma load_data_files_snapshot unpart ms : load_data_files unpart ms = snapshot_data_files unpart ms.
Proof.
  unfold load_data_files, snapshot_data_files. induction ms as [|m ms IH]; [done|].
  cbn [List.filter flat_map]. destruct (m_deletes m) eqn:Em; cbn [negb flat_map]; rewrite IH.
  - assert (H : flat_map (fun _ : mentry => @nil fref) (m_entries m) = []).
    { clear. induction (m_entries m) as [|e l IH]; [done|]. cbn. done. }
    by rewrite H.
  - f_equal. unfold manifest_refs. clear. induction (m_entries m) as [|e l IH]; [done|].
    cbn [flat_map]. cbn [omap list_omap]. change (list_omap) with (@omap list _).
    destruct (e_status e); cbn [live_entry app]; rewrite <- IH; [|done..]; by destruct (e_seq e).
Qed.

Lemma build_index_none unpart ms :
  build_index unpart ms = None <->
  exists r, listed unpart true ms r /\ (f_dv (r_file r) = true \/ f_content (r_file r) = CData).
Proof.
  rewrite eq_None_not_Some, build_index_of, index_of_some.
  setoid_rewrite <- delete_refs_listed.
  generalize (flat_map (manifest_refs unpart) (List.filter m_deletes ms)). intros l.
  split.
  - intros H. destruct (existsb (fun r => f_dv (r_file r) || bool_decide (f_content (r_file r) = CData)) l) eqn:Ex.
    + apply existsb_exists in Ex as (r & Hr & Hx). exists r. rewrite elem_of_list_In. split; [done|].
      apply orb_true_iff in Hx as [Hx|Hx]; [by left|right]. by apply bool_decide_eq_true in Hx.
    + exfalso. apply H. intros r Hr.
      assert (Hx : f_dv (r_file r) || bool_decide (f_content (r_file r) = CData) = false).
      { destruct (f_dv (r_file r) || bool_decide (f_content (r_file r) = CData)) eqn:E; [|done].
        rewrite <- Ex. symmetry. apply existsb_exists. exists r. by rewrite <- elem_of_list_In. }
      apply orb_false_iff in Hx as [Hx Hy]. by apply bool_decide_eq_false in Hy.
  - intros (r & Hr & Hx) H. destruct (H r Hr) as [H1 H2]. destruct Hx; congruence.
Qed.
Lemma batching_irrelevant {Row} (field : Row -> Z -> option prim) st pos eqs path bs1 bs2 :
  concat bs1 = concat bs2 ->
  concat (apply_batches field (load_deleted_positions st path pos) eqs 0 bs1) =
  concat (apply_batches field (load_deleted_positions st path pos) eqs 0 bs2).
Proof.
  intros E. eapply keeps_fun; [apply apply_batches_keeps, load_deleted_positions_sorted|].
  rewrite E. apply apply_batches_keeps, load_deleted_positions_sorted.
Qed.
Lemma read_table_snapshot {Row} (field : Row -> Z -> option prim) unpart schema st scan ms rows :
  plain_partitions ms ->
  read_table field unpart schema st scan ms = Some rows ->
  exists outs, Forall2 (fun d out =>
      keeps (row_deleted field unpart st ms d) 0 (concat (scan (f_path (r_file d)))) out)
    (snapshot_data_files unpart ms) outs /\ rows ≡ₚ concat outs.
Proof. rewrite <- load_data_files_snapshot. apply read_table_rows. Qed.

Lemma nan_refuted :
  exists unpart ms ix d r, listed unpart false ms d /\ listed unpart true ms r /\
    build_index unpart ms = Some ix /\ pos_applies d r /\ r ∉ (for_data_file ix d).1.
Proof.
  set (df := DFile [1%N] CData [Some (PFloat 0x7fc00000)] None false []).
  set (pf := DFile [2%N] CPos [Some (PFloat 0x7fc00001)] None false []).
  set (ms := [MFile false 1 1 [MEntry Added None df]; MFile true 1 2 [MEntry Added None pf]]).
  exists (fun _ => false), ms.
  destruct (build_index (fun _ => false) ms) as [ix|] eqn:Hix; [|by vm_compute in Hix].
  exists ix, (FRef df 1 1 false), (FRef pf 2 1 false).
  split; [|split; [|split; [done|split]]].
  - exists (MFile false 1 1 [MEntry Added None df]), (MEntry Added None df). repeat split; try done.
    + apply elem_of_list_here.
    + apply elem_of_list_here.
  - exists (MFile true 1 2 [MEntry Added None pf]), (MEntry Added None pf). repeat split; try done.
    + apply elem_of_list_further, elem_of_list_here.
    + apply elem_of_list_here.
  - split; [done|split; [done|]]. split; [done|]. constructor; [|constructor].
    right. by vm_compute.
  - assert (E : match build_index (fun _ => false) ms with
                | Some ix => (for_data_file ix (FRef df 1 1 false)).1 | None => [] end = []) by by vm_compute.
    rewrite Hix in E. rewrite E. by apply not_elem_of_nil.
Qed.
