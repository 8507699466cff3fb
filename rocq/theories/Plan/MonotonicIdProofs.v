(** Proofs about monotonically_increasing_id(). *)
From Coq Require Import ZArith Lia Sorted.
From stdpp Require Import prelude list numbers.
From Verif.Plan Require Import RangeModel RangeSpec RangeProofs MonotonicIdModel MonotonicIdSpec.
#[local] Open Scope Z_scope.

Section stream.
  Context {A : Type} (p : nat) (Hp : (Z.of_nat p < 2 ^ 30)).

  Lemma make_ids_spec offset len :
    0 <= offset <= 2 ^ 33 -> Z.of_nat len < 2 ^ 63 ->
    make_ids p offset len =
      if decide (offset + Z.of_nat len <= 2 ^ 33) then
        Some (map (fun i => Z.of_nat p * 2 ^ 33 + offset + Z.of_nat i) (seq 0 len),
              offset + Z.of_nat len)
      else None.
  Proof.
    intros Ho Hl. unfold make_ids, u64.
    rewrite (Z.mod_small (offset + Z.of_nat len)) by lia.
    rewrite (Z.mod_small (Z.of_nat p * 2 ^ 33)) by lia.
    destruct (Z.ltb_spec (2 ^ 33) (offset + Z.of_nat len)).
    - rewrite decide_False by lia. done.
    - rewrite decide_True by lia. f_equal. f_equal.
      change (map ?f ?l) with (f <$> l). apply list_fmap_ext. intros i x Hx.
      apply lookup_seq in Hx as [-> Hi]. apply wrap64_id. unfold is_i64, i64_min, i64_max. lia.
  Qed.

  Lemma zip_fst {B} (l : list A) (k : list B) : length l = length k -> map fst (zip l k) = l.
  Proof.
    revert k. induction l as [|x l IH]; intros [|y k] H; try done. cbn in *. f_equal. apply IH. lia.
  Qed.
  Lemma zip_snd {B} (l : list A) (k : list B) : length l = length k -> map snd (zip l k) = k.
  Proof.
    revert k. induction l as [|x l IH]; intros [|y k] H; try done. cbn in *. f_equal. apply IH. lia.
  Qed.

  Lemma id_stream_spec (batches : list (list A)) offset :
    0 <= offset <= 2 ^ 33 -> Forall (fun b => Z.of_nat (length b) < 2 ^ 63) batches ->
    if decide (offset + Z.of_nat (length (concat batches)) <= 2 ^ 33) then
      exists out, id_stream p offset batches = Some out /\
        map (map fst) out = batches /\
        map snd (concat out) =
          map (fun i => Z.of_nat p * 2 ^ 33 + offset + Z.of_nat i) (seq 0 (length (concat batches)))
    else id_stream p offset batches = None.
  Proof.
    revert offset. induction batches as [|b batches IH]; intros offset Ho Hb.
    - cbn [concat length]. rewrite decide_True by lia. exists []. done.
    - inversion Hb; subst. cbn [concat id_stream]. rewrite make_ids_spec by done.
      rewrite app_length.
      destruct (decide (offset + Z.of_nat (length b) <= 2 ^ 33)) as [Hle|Hle].
      + specialize (IH (offset + Z.of_nat (length b)) ltac:(lia) ltac:(done)).
        destruct (decide (offset + Z.of_nat (length b) + Z.of_nat (length (concat batches)) <= 2 ^ 33)).
        * rewrite decide_True by lia. destruct IH as (out & -> & H3 & H4).
          eexists. split; [reflexivity|].
          set (ids := map (fun i => Z.of_nat p * 2 ^ 33 + offset + Z.of_nat i) (seq 0 (length b))).
          assert (Hlen : length b = length ids) by (unfold ids; by rewrite map_length, seq_length).
          split; [cbn [map]; rewrite H3, zip_fst by done; done|].
          cbn [concat]. rewrite map_app, zip_snd, H4 by done. unfold ids.
          rewrite seq_app, map_app. f_equal. cbn [Nat.add].
          rewrite (map_seq_shift _ (length b)). apply map_ext. intros i. lia.
        * rewrite decide_False by lia. by rewrite IH.
      + rewrite decide_False by lia. done.
  Qed.
End stream.

(** All partitions, numbered from [k]. *)
Definition id_from {A} (k : nat) (inputs : list (list (list A))) :=
  mapM (fun '(p, batches) => @id_stream A p 0 batches) (zip (seq k (length inputs)) inputs).

Lemma id_from_cons {A} k (bs : list (list A)) inputs :
  id_from k (bs :: inputs) =
  (out ← id_stream k 0 bs; outs ← id_from (S k) inputs; Some (out :: outs)).
Proof. reflexivity. Qed.

Definition part_ids (p n : nat) : list Z :=
  map (fun i => Z.of_nat p * 2 ^ 33 + 0 + Z.of_nat i) (seq 0 n).

Lemma id_from_spec {A} (inputs : list (list (list A))) k :
  Z.of_nat (k + length inputs) <= 2 ^ 30 ->
  Forall (Forall (fun b => Z.of_nat (length b) < 2 ^ 63)) inputs ->
  (small_partitions inputs ->
   exists out, id_from k inputs = Some out /\ all_rows out = inputs /\
     all_ids out =
       concat (map (fun '(p, bs) => part_ids p (length (concat bs)))
                   (zip (seq k (length inputs)) inputs))) /\
  (~ small_partitions inputs -> id_from k inputs = None).
Proof.
  revert k. induction inputs as [|bs inputs IH]; intros k Hk Hb.
  - split; [intros _; by exists []|]. intros H. destruct H. constructor.
  - inversion Hb; subst. cbn [length] in Hk.
    destruct (IH (S k)) as [IH1 IH2]; [lia|done|].
    pose proof (id_stream_spec k ltac:(lia) bs 0 ltac:(lia) ltac:(done)) as Hs.
    rewrite id_from_cons. split.
    + intros Hsm. inversion Hsm; subst. rewrite decide_True in Hs by lia.
      destruct Hs as (out & -> & H5 & H6). destruct (IH1 ltac:(done)) as (outs & -> & H7 & H8).
      exists (out :: outs). split; [done|]. split.
      * unfold all_rows in *. cbn [map]. by rewrite H5, H7.
      * unfold all_ids in *. cbn [concat]. rewrite concat_app, map_app, H6, H8. done.
    + intros Hsm. destruct (decide (0 + Z.of_nat (length (concat bs)) <= 2 ^ 33)) as [Hle|Hgt].
      * destruct Hs as (out & -> & _). rewrite IH2; [done|]. intros ?. apply Hsm.
        constructor; [lia|done].
      * by rewrite Hs.
Qed.

Lemma StronglySorted_app {B} (R : B -> B -> Prop) (l k : list B) :
  StronglySorted R l -> StronglySorted R k -> (forall x y, x ∈ l -> y ∈ k -> R x y) ->
  StronglySorted R (l ++ k).
Proof.
  induction 1 as [|x l Hl IH Hx]; intros Hk Hlk; [done|]. cbn. constructor.
  - apply IH; [done|]. intros ? ? ? ?. apply Hlk; [by apply elem_of_list_further|done].
  - apply Forall_app. split; [done|]. apply list.Forall_forall. intros y Hy. apply Hlk; [|done].
    apply elem_of_list_here.
Qed.

Lemma elem_of_part_ids p n x :
  x ∈ part_ids p n <-> Z.of_nat p * 2 ^ 33 <= x < Z.of_nat p * 2 ^ 33 + Z.of_nat n.
Proof.
  unfold part_ids. change (map ?f ?l) with (f <$> l). rewrite elem_of_list_fmap. split.
  - intros (i & -> & Hi). apply elem_of_seq in Hi. lia.
  - intros H. exists (Z.to_nat (x - Z.of_nat p * 2 ^ 33)). split; [lia|]. apply elem_of_seq. lia.
Qed.
Lemma part_ids_sorted p n : StronglySorted Z.lt (part_ids p n).
Proof.
  induction n as [|n IH]; [constructor|]. unfold part_ids in *. rewrite seq_S, map_app.
  apply StronglySorted_app; [done|repeat constructor|].
  intros x y Hx Hy. apply (elem_of_part_ids p n) in Hx. cbn [map] in Hy.
  apply elem_of_list_singleton in Hy. lia.
Qed.

Lemma elem_of_ids {A} (inputs : list (list (list A))) k x :
  small_partitions inputs ->
  x ∈ concat (map (fun '(p, bs) => part_ids p (length (concat bs)))
                   (zip (seq k (length inputs)) inputs)) ->
  Z.of_nat k * 2 ^ 33 <= x < Z.of_nat (k + length inputs) * 2 ^ 33.
Proof.
  revert k. induction inputs as [|bs inputs IH]; intros k Hs Hx.
  - by apply elem_of_nil in Hx.
  - inversion Hs; subst. cbn [length seq zip zip_with map concat] in Hx.
    apply elem_of_app in Hx as [Hx|Hx].
    + apply elem_of_part_ids in Hx. cbn [length]. lia.
    + apply IH in Hx; [|done]. cbn [length]. lia.
Qed.
Lemma ids_sorted {A} (inputs : list (list (list A))) k :
  small_partitions inputs ->
  StronglySorted Z.lt (concat (map (fun '(p, bs) => part_ids p (length (concat bs)))
                   (zip (seq k (length inputs)) inputs))).
Proof.
  revert k. induction inputs as [|bs inputs IH]; intros k Hs; [constructor|].
  inversion Hs; subst. cbn [length seq zip zip_with map concat].
  apply StronglySorted_app; [apply part_ids_sorted|by apply IH|].
  intros x y Hx Hy. apply elem_of_part_ids in Hx. apply elem_of_ids in Hy; [|done]. lia.
Qed.

Lemma id_exec_ok {A} (inputs : list (list (list A))) :
  Z.of_nat (length inputs) <= 2 ^ 30 ->
  Forall (Forall (fun b => Z.of_nat (length b) < 2 ^ 63)) inputs -> small_partitions inputs ->
  exists out, id_exec inputs = Some out /\ all_rows out = inputs /\
    StronglySorted Z.lt (all_ids out) /\ Forall (fun x => 0 <= x <= i64_max) (all_ids out).
Proof.
  intros Hl Hb Hs. destruct (id_from_spec inputs 0) as [H _]; [done|done|].
  destruct (H Hs) as (out & Ho & Hr & Hi). exists out. split; [done|]. split; [done|].
  rewrite Hi. split; [by apply ids_sorted|].
  apply list.Forall_forall. intros x Hx. apply elem_of_ids in Hx; [|done]. unfold i64_max. lia.
Qed.
Lemma id_exec_error {A} (inputs : list (list (list A))) :
  Z.of_nat (length inputs) <= 2 ^ 30 ->
  Forall (Forall (fun b => Z.of_nat (length b) < 2 ^ 63)) inputs -> ~ small_partitions inputs ->
  id_exec inputs = None.
Proof.
  intros Hl Hb Hs. destruct (id_from_spec inputs 0) as [_ H]; [done|done|]. by apply H.
Qed.
