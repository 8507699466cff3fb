(** Proofs about spark.range. *)
From Coq Require Import ZArith Lia.
From stdpp Require Import prelude list numbers.
From Verif.Plan Require Import RangeModel RangeSpec.
#[local] Open Scope Z_scope.

Lemma wrap64_id z : is_i64 z -> wrap64 z = z.
Proof.
  unfold is_i64, i64_min, i64_max, wrap64. intros H. rewrite Z.mod_small by lia. lia.
Qed.
Lemma wrap64_i64 z : is_i64 (wrap64 z).
Proof.
  unfold is_i64, i64_min, i64_max, wrap64.
  pose proof (Z.mod_pos_bound (z + 2 ^ 63) (2 ^ 64) ltac:(lia)). lia.
Qed.

(** The number of elements is the number of indices before the end. *)
Lemma num_elements_nonneg s e st : st <> 0 -> 0 <= num_elements (Range s e st).
Proof.
  intros Hst. cbn [num_elements]. destruct (negb _); [lia|].
  assert (0 < Z.abs st) by lia.
  pose proof (Z.div_pos (Z.abs (e - s)) (Z.abs st)). destruct (_ =? 0); lia.
Qed.
Lemma num_elements_spec s e st i :
  st <> 0 -> (Z.of_nat i < num_elements (Range s e st) <-> before_end s e st i).
Proof.
  intros Hst. cbn [num_elements]. unfold before_end.
  assert (Hd : forall d k, 0 < k -> 0 <= d ->
    (Z.of_nat i < d / k + (if d mod k =? 0 then 0 else 1) <-> Z.of_nat i * k < d)).
  { intros d k Hk Hd. pose proof (Z.div_mod d k ltac:(lia)) as E.
    pose proof (Z.mod_pos_bound d k Hk) as B.
    destruct (Z.eqb_spec (d mod k) 0) as [H0|H0]; split; intros H; nia. }
  destruct (Z.ltb_spec s e), (Z.ltb_spec 0 st); cbn [Bool.eqb negb].
  - rewrite (Z.abs_eq (e - s)), (Z.abs_eq st) by lia. rewrite Hd by lia. split; [lia|]. lia.
  - split; [lia|]. intros [[? ?]|[? ?]]; nia.
  - split; [lia|]. intros [[? ?]|[? ?]]; nia.
  - rewrite (Z.abs_neq (e - s)), (Z.abs_neq st) by lia. rewrite Hd by lia. split; [lia|]. lia.
Qed.

Definition elem (r : range) (i : Z) : Z := r_start r + i * r_step r.

(** An iterator that is [k] steps before the end of its range. *)
Definition ahead (it : iter) (k : nat) : Prop :=
  let r := it_range it in
  r_step r <> 0 /\ r_end r = it_current it + Z.of_nat k * r_step r /\
  is_i64 (it_current it) /\ is_i64 (r_end r).
Definition rest (it : iter) (k : nat) : list Z :=
  map (fun i => it_current it + Z.of_nat i * r_step (it_range it)) (seq 0 k).

Lemma next_done it : ahead it 0 -> next it = None.
Proof.
  intros (Hst & He & _ & _). unfold next. rewrite He.
  destruct (Z.ltb_spec 0 (r_step (it_range it))), (Z.ltb_spec (r_step (it_range it)) 0);
    cbn [andb orb]; try lia;
    match goal with |- context [?a <? ?b] => destruct (Z.ltb_spec a b) end;
    cbn [orb]; try done; lia.
Qed.
Lemma next_step it k :
  ahead it (S k) ->
  exists it', next it = Some (it_current it, it') /\ ahead it' k /\
    it_range it' = it_range it /\ it_current it' = it_current it + r_step (it_range it).
Proof.
  intros (Hst & He & Hc & Hend). unfold next.
  set (st := r_step (it_range it)) in *. set (c := it_current it) in *.
  set (e := r_end (it_range it)) in *.
  assert (Hcond : (0 <? st) && (c <? e) || (st <? 0) && (e <? c) = true).
  { destruct (Z.ltb_spec 0 st), (Z.ltb_spec st 0); cbn [andb orb]; try lia;
      rewrite ?orb_false_r; apply Z.ltb_lt; nia. }
  rewrite Hcond.
  assert (Hnext : is_i64 (c + st)).
  { unfold is_i64 in *. destruct (Z.ltb_spec 0 st); nia. }
  unfold checked_add. unfold is_i64 in Hnext.
  rewrite (proj2 (Z.leb_le _ _) (proj1 Hnext)), (proj2 (Z.leb_le _ _) (proj2 Hnext)).
  cbn [andb default].
  eexists. split; [reflexivity|]. cbn [it_range it_current]. split; [|done].
  unfold ahead. cbn [it_range it_current]. fold st. fold e. split_and!; try done.
  unfold id. rewrite He. lia.
Qed.

Lemma rest_S it k it' :
  it_range it' = it_range it -> it_current it' = it_current it + r_step (it_range it) ->
  rest it (S k) = it_current it :: rest it' k.
Proof.
  intros Hr Hc. unfold rest. cbn [seq map]. f_equal; [lia|].
  rewrite <- seq_shift, map_map, Hr, Hc. apply map_ext. intros i. lia.
Qed.

Lemma take_spec n it k :
  ahead it k ->
  exists it', take n it = (rest it (n `min` k)%nat, it') /\ ahead it' (k - n) /\
    it_range it' = it_range it /\
    it_current it' = it_current it + Z.of_nat (n `min` k) * r_step (it_range it).
Proof.
  revert it k. induction n as [|n IH]; intros it k Ha; cbn [take].
  - exists it. rewrite Nat.sub_0_r. split_and!; try done. cbn. lia.
  - destruct k as [|k].
    + rewrite next_done by done. exists it. split_and!; try done. cbn. lia.
    + destruct (next_step it k Ha) as (it1 & -> & Ha1 & Hr1 & Hc1).
      destruct (IH it1 k Ha1) as (it2 & -> & Ha2 & Hr2 & Hc2).
      exists it2. cbn [Nat.min Nat.sub]. rewrite (rest_S it _ it1) by done.
      split_and!; try done; [congruence|]. rewrite Hc2, Hc1, Hr1. lia.
Qed.

Lemma map_seq_shift {A} (f : nat -> A) a k :
  map f (seq a k) = map (fun i => f (a + i)%nat) (seq 0 k).
Proof.
  revert a. induction k as [|k IH]; intros a; [done|]. cbn [seq map].
  rewrite Nat.add_0_r. f_equal. rewrite IH, <- seq_shift, map_map. apply map_ext.
  intros i. f_equal. lia.
Qed.
Lemma rest_app it a b it' :
  it_range it' = it_range it ->
  it_current it' = it_current it + Z.of_nat a * r_step (it_range it) ->
  rest it (a + b) = rest it a ++ rest it' b.
Proof.
  intros Hr Hc. unfold rest. rewrite seq_app, map_app. f_equal. cbn [Nat.add].
  rewrite (map_seq_shift _ a), Hr, Hc. apply map_ext. intros i. lia.
Qed.

Lemma rest_length it k : length (rest it k) = k.
Proof. unfold rest. by rewrite map_length, seq_length. Qed.

Definition good_batch (b : list Z) : Prop := (0 < length b <= batch_size)%nat.

Lemma batch_pos : (0 < batch_size)%nat.
Proof. unfold batch_size. lia. Qed.

Lemma batches_exist it k :
  ahead it k -> exists bs, batches it bs.
Proof.
  revert it. induction (lt_wf k) as [k _ IH]. intros it Ha.
  destruct (take_spec batch_size it k Ha) as (it' & Ht & Ha' & Hr & Hc).
  destruct (batch_size `min` k)%nat as [|m] eqn:Em.
  - exists []. by eapply batches_done.
  - destruct (rest it (S m)) as [|x xs] eqn:Er.
    { apply (f_equal length) in Er. by rewrite rest_length in Er. }
    destruct (IH (k - batch_size)%nat) with (it := it') as [bs Hbs]; [|done|].
    { pose proof batch_pos. lia. }
    exists ((x :: xs) :: bs). by eapply batches_more.
Qed.
Lemma batches_spec it k bs :
  ahead it k -> batches it bs -> concat bs = rest it k /\ Forall good_batch bs.
Proof.
  intros Ha Hb. revert k Ha. induction Hb as [it it' Ht|it x xs it' bs Ht Hb IH]; intros k Ha.
  - destruct (take_spec batch_size it k Ha) as (it2 & Ht2 & Ha2 & Hr & Hc).
    rewrite Ht in Ht2. pose proof (f_equal fst Ht2) as Hn. cbn [fst] in Hn.
    apply (f_equal length) in Hn. rewrite rest_length in Hn. cbn [length] in Hn.
    assert (k = 0%nat) as -> by (pose proof batch_pos; lia). split; [done|constructor].
  - destruct (take_spec batch_size it k Ha) as (it2 & Ht2 & Ha2 & Hr & Hc).
    rewrite Ht in Ht2. pose proof (f_equal fst Ht2) as Hn. pose proof (f_equal snd Ht2) as He.
    cbn [fst snd] in Hn, He. subst it2. clear Ht2.
    destruct (IH _ Ha2) as [IH1 IH2]. split.
    + cbn [concat]. rewrite IH1.
      rewrite (Hn : x :: xs = _).
      rewrite <- rest_app by done. f_equal. lia.
    + constructor; [|done]. unfold good_batch. rewrite (Hn : x :: xs = _), rest_length.
      apply (f_equal length) in Hn. rewrite rest_length in Hn. cbn [length] in Hn. lia.
Qed.

(** The piece of a range handed to one partition. *)
Section parts.
  Context (s e st : Z) (np : nat).
  Context (Hv : valid s e st np).
  Let r := Range s e st.
  Let n := num_elements r.
  Definition cut (p : Z) : Z := p * n / Z.of_nat np.

  Lemma n_nonneg : 0 <= n.
  Proof. apply num_elements_nonneg. apply Hv. Qed.
  Lemma np_pos : 0 < Z.of_nat np.
  Proof. destruct Hv as (_ & _ & _ & _ & H). lia. Qed.
  Lemma cut_0 : cut 0 = 0.
  Proof. unfold cut. by rewrite Z.mul_0_l, Z.div_0_l by (pose proof np_pos; lia). Qed.
  Lemma cut_np : cut (Z.of_nat np) = n.
  Proof. unfold cut. rewrite Z.mul_comm. apply Z.div_mul. pose proof np_pos. lia. Qed.
  Lemma cut_mono p q : 0 <= p -> p <= q -> cut p <= cut q.
  Proof.
    intros. unfold cut. pose proof n_nonneg. apply Z.div_le_mono; [apply np_pos|]. nia.
  Qed.
  Lemma cut_lt p : 0 <= p -> p < Z.of_nat np -> 0 < n -> cut p < n.
  Proof.
    intros. unfold cut. apply Z.div_lt_upper_bound; [apply np_pos|]. nia.
  Qed.
  Lemma cut_nonneg p : 0 <= p -> 0 <= cut p.
  Proof. intros. rewrite <- cut_0. by apply cut_mono. Qed.

  (** Elements before the end are 64-bit integers. *)
  Lemma elem_fits i : 0 <= i -> i < n -> is_i64 (i * st + s).
  Proof.
    intros H0 Hi. destruct Hv as (Hs & He & _ & Hst & _).
    assert (Hb : before_end s e st (Z.to_nat i)).
    { apply num_elements_spec; [done|]. fold r. fold n. lia. }
    unfold before_end in Hb. rewrite Z2Nat.id in Hb by lia.
    unfold is_i64 in *. destruct Hb as [[? ?]|[? ?]]; nia.
  Qed.

  Lemma elem_start_fits p : 0 <= p -> p < Z.of_nat np -> is_i64 (cut p * st + s).
  Proof.
    intros H0 Hp. destruct (decide (0 < n)) as [Hn|Hn].
    - apply elem_fits; [by apply cut_nonneg|by apply cut_lt].
    - assert (n = 0) by (pose proof n_nonneg; lia).
      assert (cut p = 0) as ->.
      { unfold cut. rewrite H, Z.mul_0_r, Z.div_0_l; [done|]. pose proof np_pos. lia. }
      rewrite Z.mul_0_l, Z.add_0_l. apply Hv.
  Qed.

  Lemma partition_ahead p :
    (p < np)%nat -> is_i64 (cut (Z.of_nat p + 1) * st + s) ->
    ahead (into_iter (partition r p np)) (Z.to_nat (cut (Z.of_nat p + 1) - cut (Z.of_nat p))) /\
    rest (into_iter (partition r p np))
         (Z.to_nat (cut (Z.of_nat p + 1) - cut (Z.of_nat p))) =
      map (fun i => s + Z.of_nat i * st)
        (seq (Z.to_nat (cut (Z.of_nat p)))
             (Z.to_nat (cut (Z.of_nat p + 1) - cut (Z.of_nat p)))).
  Proof.
    intros Hp He.
    pose proof (elem_start_fits (Z.of_nat p) ltac:(lia) ltac:(lia)) as Hs.
    pose proof (cut_mono (Z.of_nat p) (Z.of_nat p + 1) ltac:(lia) ltac:(lia)) as Hm.
    pose proof (cut_nonneg (Z.of_nat p) ltac:(lia)) as Hc0.
    assert (Hpart : partition r p np =
      Range (cut (Z.of_nat p) * st + s) (cut (Z.of_nat p + 1) * st + s) st).
    { unfold partition. cbn [r_start r_step r]. fold n.
      f_equal; apply wrap64_id; [exact Hs|exact He|apply Hv]. }
    rewrite Hpart. unfold ahead, into_iter, rest.
    cbn [it_range it_current r_start r_end r_step].
    split.
    - split_and!; [apply Hv| |done|done]. rewrite Z2Nat.id by lia. lia.
    - set (k := Z.to_nat (cut (Z.of_nat p + 1) - cut (Z.of_nat p))).
      set (a := Z.to_nat (cut (Z.of_nat p))).
      assert (Ha : Z.of_nat a = cut (Z.of_nat p)) by (unfold a; lia).
      rewrite <- Ha. clearbody a k. revert a Ha. clear. intros a _.
      revert a. induction k as [|k IH]; intros a; [done|]. cbn [seq map]. f_equal; [lia|].
      rewrite <- IH, <- seq_shift, map_map. apply map_ext. intros i. lia.
  Qed.

  Lemma end_fits_n : end_fits s e st -> is_i64 (n * st + s).
  Proof.
    intros Hf. destruct (decide (0 < n)) as [Hn|Hn].
    - specialize (Hf (Z.to_nat (n - 1))).
      assert (Hb : before_end s e st (Z.to_nat (n - 1))).
      { apply num_elements_spec; [apply Hv|]. fold r. fold n. lia. }
      specialize (Hf Hb). rewrite Z2Nat.id in Hf by lia.
      replace (n * st + s) with (s + (n - 1 + 1) * st) by lia. done.
    - assert (n = 0) by (pose proof n_nonneg; lia). rewrite H, Z.mul_0_l, Z.add_0_l. apply Hv.
  Qed.

  Lemma part_end_fits p :
    (p < np)%nat -> (end_fits s e st \/ (S p < np)%nat) ->
    is_i64 (cut (Z.of_nat p + 1) * st + s).
  Proof.
    intros Hp [Hf|Hlt].
    - destruct (decide (S p < np)%nat) as [Hlt|Hge].
      + apply elem_start_fits; lia.
      + replace (Z.of_nat p + 1) with (Z.of_nat np) by lia. rewrite cut_np. by apply end_fits_n.
    - apply elem_start_fits; lia.
  Qed.

  Lemma execute_some p : (p < np)%nat -> execute r np p = Some (into_iter (partition r p np)).
  Proof. intros H. unfold execute. by rewrite decide_True. Qed.

  Lemma part_output p bs it :
    (p < np)%nat -> (end_fits s e st \/ (S p < np)%nat) ->
    execute r np p = Some it -> batches it bs ->
    concat bs = map (fun i => s + Z.of_nat i * st)
        (seq (Z.to_nat (cut (Z.of_nat p)))
             (Z.to_nat (cut (Z.of_nat p + 1) - cut (Z.of_nat p)))) /\
    Forall good_batch bs.
  Proof.
    intros Hp Hf He Hb. rewrite execute_some in He by done. injection He as <-.
    destruct (partition_ahead p Hp (part_end_fits p Hp Hf)) as [Ha Hr].
    rewrite <- Hr. by apply batches_spec.
  Qed.

  Lemma output_prefix k parts :
    (k <= np)%nat -> (end_fits s e st \/ (k < np)%nat) ->
    Forall2 (fun p bs => exists it, execute r np p = Some it /\ batches it bs) (seq 0 k) parts ->
    concat (map (@concat Z) parts) = map (fun i => s + Z.of_nat i * st) (seq 0 (Z.to_nat (cut (Z.of_nat k)))) /\
    Forall (Forall good_batch) parts.
  Proof.
    revert parts. induction k as [|k IH]; intros parts Hk Hf Hall.
    - cbn [seq] in Hall. inversion Hall; subst. change (Z.of_nat 0) with 0. rewrite cut_0. done.
    - rewrite seq_S in Hall. cbn [Nat.add] in Hall.
      apply Forall2_app_inv_l in Hall as (l1 & l2 & H1 & H2 & ->).
      inversion H2 as [|? bs ? ? (it & He & Hb) H3]; subst. inversion H3; subst.
      destruct (IH l1) as [IH1 IH2]; [lia|destruct Hf; [by left|right; lia]|done|].
      destruct (part_output k bs it) as [Hp1 Hp2]; [lia|destruct Hf; [by left|right; lia]|done|done|].
      split.
      + rewrite map_app, concat_app, IH1. cbn [map concat]. rewrite app_nil_r, Hp1.
        rewrite <- map_app. f_equal.
        replace (Z.to_nat (cut (Z.of_nat (S k)))) with
          (Z.to_nat (cut (Z.of_nat k)) +
           Z.to_nat (cut (Z.of_nat k + 1) - cut (Z.of_nat k)))%nat.
        { by rewrite seq_app. }
        pose proof (cut_nonneg (Z.of_nat k) ltac:(lia)).
        pose proof (cut_mono (Z.of_nat k) (Z.of_nat k + 1) ltac:(lia) ltac:(lia)).
        replace (Z.of_nat (S k)) with (Z.of_nat k + 1) by lia. lia.
      + apply Forall_app. split; [done|]. by constructor.
  Qed.
End parts.

Lemma range_correct s e st np parts :
  valid s e st np -> end_fits s e st -> range_output s e st np parts ->
  range_rows s e st (concat (map (@concat Z) parts)) /\ Forall (Forall good_batch) parts.
Proof.
  intros Hv Hf (r & Hr & Hall). unfold try_new in Hr. destruct (_ || _); [done|].
  injection Hr as <-.
  destruct (output_prefix s e st np Hv np parts) as [H1 H2]; [lia|by left|done|].
  split; [|done]. rewrite H1. rewrite cut_np by done.
  intros i v. change (map ?f ?l) with (f <$> l). rewrite list_lookup_fmap.
  pose proof (num_elements_spec s e st i) as Hn. destruct Hv as (_ & _ & _ & Hst & _).
  specialize (Hn Hst).
  destruct (decide (Z.of_nat i < num_elements (Range s e st))) as [Hi|Hi].
  - rewrite lookup_seq_lt by lia. cbn. split.
    + intros [= <-]. split; [done|]. tauto.
    + intros [-> _]. done.
  - rewrite lookup_seq_ge by lia. cbn. split; [done|]. intros [_ Hb]. tauto.
Qed.

Lemma range_prefix s e st np parts :
  valid s e st np -> range_output s e st np parts ->
  forall l, range_rows s e st l ->
  exists tail, l = concat (map (@concat Z) (firstn (np - 1) parts)) ++ tail.
Proof.
  intros Hv (r & Hr & Hall) l Hl. unfold try_new in Hr. destruct (_ || _); [done|].
  injection Hr as <-.
  assert (Hlen : length parts = np).
  { apply Forall2_length in Hall. by rewrite seq_length in Hall. }
  assert (Hnp : (0 < np)%nat) by apply Hv.
  assert (Hsq : seq 0 np = seq 0 (np - 1) ++ [(np - 1)%nat]).
  { replace np with (S (np - 1)) at 1 by lia. apply seq_S. }
  rewrite Hsq in Hall.
  apply Forall2_app_inv_l in Hall as (l1 & l2 & H1 & H2 & Hp).
  assert (Hl1 : length l1 = (np - 1)%nat).
  { apply Forall2_length in H1. by rewrite seq_length in H1. }
  destruct (output_prefix s e st np Hv (np - 1) l1) as [H3 _]; [lia|right; lia|done|].
  assert (Hfn : firstn (np - 1) parts = l1) by (rewrite Hp, <- Hl1; apply take_app).
  rewrite Hfn, H3.
  set (c := Z.to_nat (cut s e st np (Z.of_nat (np - 1)))).
  set (n := Z.to_nat (num_elements (Range s e st))).
  exists (map (fun i => s + Z.of_nat i * st) (seq c (n - c))). symmetry.
  rewrite <- map_app.
  assert (Hcn : (c <= n)%nat).
  { unfold c, n. pose proof (cut_mono s e st np Hv (Z.of_nat (np - 1)) (Z.of_nat np) ltac:(lia) ltac:(lia)) as Hm.
    rewrite cut_np in Hm by done. lia. }
  pose proof (seq_app c (n - c) 0) as Hsa. cbn [Nat.add] in Hsa. rewrite <- Hsa. replace (c + (n - c))%nat with n by lia.
  apply list_eq. intros i. apply option_eq. intros v. rewrite (Hl i v).
  change (map ?f ?l) with (f <$> l). rewrite list_lookup_fmap.
  assert (Hst : st <> 0) by apply Hv.
  pose proof (num_elements_spec s e st i Hst) as Hn.
  pose proof (num_elements_nonneg s e st Hst) as Hnn.
  destruct (decide (i < n)%nat) as [Hi|Hi].
  - rewrite lookup_seq_lt by lia. cbn. split.
    + intros [= <-]. split; [done|]. apply Hn. unfold n in Hi. lia.
    + intros [-> _]. done.
  - rewrite lookup_seq_ge by lia. cbn. split; [done|]. intros [_ Hb]. apply Hn in Hb.
    unfold n in Hi. lia.
Qed.

Lemma range_output_exists s e st np :
  valid s e st np -> end_fits s e st -> exists parts, range_output s e st np parts.
Proof.
  intros Hv Hf.
  assert (Hk : forall k, (k <= np)%nat -> exists parts,
    Forall2 (fun p bs => exists it, execute (Range s e st) np p = Some it /\ batches it bs)
      (seq 0 k) parts).
  { induction k as [|k IH]; intros Hk; [exists []; constructor|].
    destruct IH as [parts Hp]; [lia|].
    destruct (partition_ahead s e st np Hv k) as [Ha _]; [lia|apply part_end_fits; [done|lia|by left]|].
    destruct (batches_exist _ _ Ha) as [bs Hbs].
    exists (parts ++ [bs]). rewrite seq_S. apply Forall2_app; [done|].
    constructor; [|constructor]. eexists. split; [|exact Hbs].
    unfold execute. rewrite decide_True; [done|]. cbn. lia. }
  destruct (Hk np) as [parts Hp]; [lia|]. exists parts, (Range s e st). split; [|done].
  unfold try_new. destruct Hv as (_ & _ & _ & Hst & Hnp).
  rewrite (proj2 (Z.eqb_neq _ _) Hst), bool_decide_false by lia. done.
Qed.
