From Coq Require Import ZArith Lia.
From stdpp Require Import prelude list numbers sorting.
From Verif Require Import Functions.IntModel Functions.WindowModel Functions.WindowSpec.
#[local] Open Scope Z_scope.

Lemma wrap_id bits z : 0 < bits -> fits bits z = true -> wrap bits z = z.
Proof.
  intros Hb Hf. unfold fits, int_min, int_max in Hf. unfold wrap.
  assert (2 ^ bits = 2 * 2 ^ (bits - 1)) as Hp.
  { rewrite <- Z.pow_succ_r by lia. f_equal. lia. }
  rewrite Z.mod_small; lia.
Qed.

Lemma wrap64_id z : - 2 ^ 63 <= z < 2 ^ 63 -> wrap 64 z = z.
Proof. intros H. apply wrap_id; [lia|]. unfold fits, int_min, int_max. change (64 - 1) with 63. lia. Qed.

Lemma overlapping_eq d s :
  0 < s -> 0 < d -> d + s < 2 ^ 63 -> overlapping d s = (d + s - 1) / s.
Proof.
  intros Hs Hd Hr. unfold overlapping.
  rewrite (wrap64_id (d + s)) by lia. rewrite wrap64_id by lia.
  apply Z.quot_div_nonneg; lia.
Qed.

Lemma parse_legal d slide st sp :
  parse_window_spec d slide st = Some sp ->
  d + default d slide < 2 ^ 63 ->
  sp = Spec d (default d slide) (default 0 st) /\ legal d (default d slide) (default 0 st).
Proof.
  unfold parse_window_spec. set (s := default d slide). set (t := default 0 st).
  destruct (d <=? 0) eqn:E1; [done|].
  destruct (s <=? 0) eqn:E2; [done|].
  destruct (d <? s) eqn:E3; [done|].
  destruct ((s <=? t) || (t <=? - s)) eqn:E4; [done|].
  destruct (max_overlapping <? overlapping d s) eqn:E5; [done|].
  intros H Hr. injection H as <-. split; [done|].
  rewrite overlapping_eq in E5 by lia. unfold max_overlapping in E5.
  unfold legal. split_and!; try lia.
  assert ((d + s - 1) / s <= 1000000) as H1 by lia.
  pose proof (Z.mul_div_le (d + s - 1) s ltac:(lia)).
  pose proof (Z.mul_succ_div_gt (d + s - 1) s ltac:(lia)). nia.
Qed.

Lemma parse_complete d slide st :
  legal d (default d slide) (default 0 st) ->
  d + default d slide < 2 ^ 63 ->
  parse_window_spec d slide st = Some (Spec d (default d slide) (default 0 st)).
Proof.
  unfold parse_window_spec, legal. set (s := default d slide). set (t := default 0 st).
  intros (Hs & Ht & Hn) Hr.
  destruct (d <=? 0) eqn:E1; [lia|].
  destruct (s <=? 0) eqn:E2; [lia|].
  destruct (d <? s) eqn:E3; [lia|].
  destruct ((s <=? t) || (t <=? - s)) eqn:E4; [lia|].
  destruct (max_overlapping <? overlapping d s) eqn:E5; [|done].
  rewrite overlapping_eq in E5 by lia. unfold max_overlapping in E5. exfalso.
  assert ((d + s - 1) / s < 1000001) as H1; [|lia].
  apply Z.div_lt_upper_bound; lia.
Qed.

Section one.
  Context (d s st ts : Z) (Hl : legal d s st) (Hr : in_range d s ts).

  Let last := ts - (ts - st) mod s.

  Lemma last_facts : ts - s < last <= ts /\ exists k, last = st + k * s.
  Proof using Hl.
    destruct Hl as (Hs & _ & _). unfold last.
    pose proof (Z.mod_pos_bound (ts - st) s ltac:(lia)). split; [lia|].
    exists ((ts - st) / s). pose proof (Z.div_mod (ts - st) s ltac:(lia)). lia.
  Qed.

  Lemma candidate_eq j :
    0 <= j -> j * s < d ->
    candidate (Spec d s st) ts last j =
    (if decide (ts < last - j * s + d) then Some (last - j * s, last - j * s + d) else None).
  Proof using Hl Hr.
    intros Hj Hjs. pose proof last_facts as [Hlast _].
    destruct Hl as (Hs & _ & _). destruct Hr as [Hr1 Hr2].
    unfold candidate. cbn [slide_duration window_duration].
    rewrite (wrap64_id (j * s)) by lia.
    rewrite (wrap64_id (last - j * s)) by lia.
    rewrite (wrap64_id (last - j * s + d)) by lia.
    destruct (decide _) as [H|H].
    - assert ((last - j * s <=? ts) && (ts <? last - j * s + d) = true) as -> by lia. done.
    - assert ((last - j * s <=? ts) && (ts <? last - j * s + d) = false) as -> by lia. done.
  Qed.

  Lemma buckets_eq :
    buckets (Spec d s st) ts = omap (candidate (Spec d s st) ts last) (seqZ 0 ((d + s - 1) / s)).
  Proof using Hl Hr.
    pose proof last_facts as [Hlast _].
    unfold buckets. cbn [slide_duration window_duration start_time].
    destruct Hl as (Hs & Hst & _). destruct Hr as [Hr1 Hr2].
    rewrite overlapping_eq by lia.
    rewrite (wrap64_id (ts - st)) by lia.
    rewrite (wrap64_id (ts - _)); [done|]. fold last. lia.
  Qed.

  Lemma j_small j : j < (d + s - 1) / s -> j * s < d.
  Proof using Hl.
    clear last. destruct Hl as (Hs & _). intros H.
    pose proof (Z.mul_div_le (d + s - 1) s ltac:(lia)). nia.
  Qed.

  Lemma buckets_spec a b :
    (a, b) ∈ buckets (Spec d s st) ts <-> is_window d s st a b /\ inside a b ts.
  Proof using Hl Hr.
    pose proof last_facts as [Hlast [k0 Hk0]].
    rewrite buckets_eq, elem_of_list_omap. unfold is_window, inside. split.
    - intros (j & Hj & Hc). apply elem_of_seqZ in Hj.
      pose proof (j_small j ltac:(lia)) as Hjs.
      rewrite candidate_eq in Hc by lia.
      destruct (decide _) as [H|H]; [|done].
      apply (inj Some) in Hc. apply pair_equal_spec in Hc as [<- <-].
      split_and!; [|done| |lia].
      + exists (k0 - j). lia.
      + destruct Hl as (Hs & _). nia.
    - intros ([[k Hk] Hb] & H1 & H2).
      destruct Hl as (Hs & Hst & _).
      exists (k0 - k).
      assert (0 <= k0 - k) as Hj0 by nia.
      assert ((k0 - k) * s < d) as Hjd by nia.
      split.
      + apply elem_of_seqZ. split; [lia|]. rewrite Z.add_0_l.
        assert (k0 - k + 1 <= (d + s - 1) / s) as H3; [|lia].
        apply Z.div_le_lower_bound; [lia|]. nia.
      + rewrite candidate_eq by lia.
        assert (last - (k0 - k) * s = a) as -> by lia.
        rewrite decide_True by lia. by rewrite Hb.
  Qed.

  Lemma omap_desc n m :
    0 <= m -> (m + Z.of_nat n) * s < d + s ->
    StronglySorted (fun x y => y.1 < x.1) (omap (candidate (Spec d s st) ts last) (seqZ m (Z.of_nat n))) /\
    forall x, x ∈ omap (candidate (Spec d s st) ts last) (seqZ m (Z.of_nat n)) -> x.1 <= last - m * s.
  Proof using Hl Hr.
    assert (0 < s) as Hs by (destruct Hl; lia).
    revert m; induction n as [|n IH]; intros m Hm Hb.
    - cbn. split; [constructor|]. intros x Hx. by apply elem_of_nil in Hx.
    - rewrite seqZ_cons by lia. rewrite Nat2Z.inj_succ, Z.pred_succ.
      destruct (IH (Z.succ m)) as [IH1 IH2]; [lia|lia|].
      cbn [omap list_omap]. rewrite candidate_eq; [|lia|nia].
      destruct (decide _) as [H|H].
      + split.
        * constructor; [exact IH1|]. apply Forall_forall. intros x Hx.
          specialize (IH2 x Hx). cbn [fst]. lia.
        * intros x Hx. apply elem_of_cons in Hx as [->|Hx]; [cbn [fst]; lia|].
          specialize (IH2 x Hx). lia.
      + split; [exact IH1|]. intros x Hx. specialize (IH2 x Hx). lia.
  Qed.

  Lemma buckets_sorted : StronglySorted (fun x y => y.1 < x.1) (buckets (Spec d s st) ts).
  Proof using Hl Hr.
    rewrite buckets_eq. destruct Hl as (Hs & _).
    assert (0 <= (d + s - 1) / s) as Hn by (apply Z.div_pos; lia).
    pose proof (Z.mul_div_le (d + s - 1) s ltac:(lia)) as Hm.
    replace ((d + s - 1) / s) with (Z.of_nat (Z.to_nat ((d + s - 1) / s))) by lia.
    apply omap_desc; [lia|]. lia.
  Qed.
End one.

Lemma desc_NoDup (l : list (Z * Z)) : StronglySorted (fun x y => y.1 < x.1) l -> NoDup l.
Proof.
  induction 1 as [|x l Hs IH Hf]; [constructor|]. constructor; [|done].
  intros Hx. rewrite Forall_forall in Hf. specialize (Hf x Hx). lia.
Qed.

Lemma invoke_aux sp ts flat offs :
  foldl (invoke_step sp) (flat, offs) ts =
  (flat ++ concat ((fun t => match t with Some x => buckets sp x | None => [] end) <$> ts),
   offs ++ imap (fun i _ => length flat + length (concat (take (S i)
      ((fun t => match t with Some x => buckets sp x | None => [] end) <$> ts))))%nat ts).
Proof.
  set (f := fun t => match t with Some x => buckets sp x | None => [] end).
  revert flat offs; induction ts as [|t ts IH]; intros flat offs; cbn [foldl].
  - cbn. by rewrite !app_nil_r.
  - cbn [invoke_step].
    assert (match t with Some ts0 => flat ++ buckets sp ts0 | None => flat end = flat ++ f t) as ->.
    { destruct t; cbn; [done|]. by rewrite app_nil_r. }
    rewrite IH. f_equal.
    + cbn [fmap list_fmap concat]. by rewrite app_assoc.
    + cbn [imap fmap list_fmap]. rewrite <- app_assoc. cbn [app]. f_equal. f_equal.
      * cbn [take concat]. rewrite !app_length. cbn [length concat take]. rewrite take_0. cbn. lia.
      * apply imap_ext. intros i x Hx. cbn [compose]. cbn [take concat].
        rewrite !app_length. lia.
Qed.

Lemma window_time_eq a d s ts :
  in_range d s ts -> 0 < s -> 0 < d -> inside a (a + d) ts -> window_time (a, a + d) = a + d - 1.
Proof.
  intros [H1 H2] Hs Hd [H3 H4]. unfold window_time. cbn [snd]. apply wrap64_id. lia.
Qed.

(** The exploded rows. *)
Definition rows_of (sp : spec) (times : list (option Z)) : list (nat * (Z * Z)) :=
  concat (imap (fun i t => match t with
                           | Some ts => (fun b => (i, b)) <$> buckets sp ts
                           | None => []
                           end) times).

Lemma take_drop_concat {A} (ls : list (list A)) i l :
  ls !! i = Some l ->
  take (length (concat (take (S i) ls)) - length (concat (take i ls)))%nat
       (drop (length (concat (take i ls))) (concat ls)) = l.
Proof.
  revert i; induction ls as [|l0 ls IH]; intros i Hi; [done|].
  destruct i as [|i].
  - cbn in Hi. apply (inj Some) in Hi. subst l0.
    cbn [take concat]. rewrite app_nil_r. cbn [length concat]. rewrite Nat.sub_0_r, drop_0.
    by rewrite take_app.
  - cbn [lookup list_lookup] in Hi. cbn [take concat]. rewrite !app_length.
    rewrite <- drop_drop, drop_app.
    replace (length l0 + length (concat (take (S i) ls)) - (length l0 + length (concat (take i ls))))%nat
      with (length (concat (take (S i) ls)) - length (concat (take i ls)))%nat by lia.
    by apply IH.
Qed.

Lemma explode_invoke sp times : explode (invoke sp times) = rows_of sp times.
Proof.
  unfold invoke. rewrite invoke_aux.
  set (f := fun t => match t with Some x => buckets sp x | None => [] end).
  cbn [app length]. unfold explode, rows_of.
  set (offs := 0%nat :: _).
  assert (forall i, (i <= length times)%nat ->
            offs !! i = Some (length (concat (take i (f <$> times))))) as Hoffs.
  { intros [|i] Hi; [done|]. unfold offs. rewrite lookup_cons. cbv iota.
    rewrite list_lookup_imap.
    destruct (lookup_lt_is_Some_2 times i ltac:(lia)) as [x Hx]. rewrite Hx. cbn [fmap option_fmap option_map].
    by rewrite Nat.add_0_l. }
  assert (length offs = S (length times)) as Hlen.
  { unfold offs. cbn. by rewrite imap_length. }
  set (g := fun (i lo : nat) => match offs !! S i with
      | Some hi => (fun b => (i, b)) <$> take (hi - lo)%nat (drop lo (concat (f <$> times)))
      | None => []
      end).
  set (h := fun (i : nat) (t : option Z) => match t with
      | Some ts => (fun b => (i, b)) <$> buckets sp ts | None => [] end).
  assert (imap g offs = imap h times ++ [[]]) as ->.
  { apply list_eq. intros i. rewrite list_lookup_imap.
    destruct (decide (i < length times)%nat) as [Hi|Hi].
    - rewrite lookup_app_l by (rewrite imap_length; lia).
      rewrite list_lookup_imap.
      destruct (lookup_lt_is_Some_2 times i Hi) as [t Ht]. rewrite Ht.
      rewrite (Hoffs i) by lia. cbn [fmap option_fmap option_map]. f_equal.
      unfold g, h. rewrite (Hoffs (S i)) by lia.
      rewrite (take_drop_concat (f <$> times) i (f t)).
      + unfold f. by destruct t.
      + rewrite list_lookup_fmap, Ht. done.
    - destruct (decide (i = length times)) as [->|Hne].
      + rewrite (Hoffs (length times)) by lia.
        rewrite lookup_app_r by (rewrite imap_length; lia).
        rewrite imap_length, Nat.sub_diag. cbn [fmap option_fmap option_map lookup list_lookup]. f_equal.
        unfold g. by rewrite (lookup_ge_None_2 offs) by lia.
      + rewrite (lookup_ge_None_2 offs) by lia. cbn [fmap option_fmap option_map].
        rewrite lookup_ge_None_2; [done|]. rewrite app_length, imap_length. cbn. lia. }
  rewrite concat_app. cbn. by rewrite app_nil_r.
Qed.

Lemma elem_of_imap_concat {A B} (f : nat -> A -> list B) l x :
  x ∈ concat (imap f l) <-> exists i a, l !! i = Some a /\ x ∈ f i a.
Proof.
  rewrite elem_of_list_In, in_concat. split.
  - intros (ys & Hys & Hx). apply elem_of_list_In, elem_of_lookup_imap in Hys.
    destruct Hys as (i & a & -> & Hi). exists i, a. split; [done|]. by apply elem_of_list_In.
  - intros (i & a & Hi & Hx). exists (f i a). split; [|by apply elem_of_list_In].
    apply elem_of_list_In, elem_of_lookup_imap. eauto.
Qed.

Lemma rows_NoDup sp (g : nat -> nat) times :
  (forall i j, g i = g j -> i = j) ->
  (forall ts, Some ts ∈ times -> NoDup (buckets sp ts)) ->
  NoDup (concat (imap (fun i t => match t with
                           | Some ts => (fun b => (g i, b)) <$> buckets sp ts
                           | None => []
                           end) times)).
Proof.
  revert g; induction times as [|t times IH]; intros g Hg Hnd; [constructor|].
  cbn [imap concat]. apply NoDup_app. split_and!.
  - destruct t as [ts|]; [|constructor].
    apply NoDup_fmap; [intros b b' Hb; by apply pair_equal_spec in Hb as [_ ?]|].
    apply Hnd. by left.
  - intros x Hx Hx'. apply elem_of_imap_concat in Hx' as (i & a & Hi & Hx').
    cbn [compose] in Hx'.
    destruct t as [ts|]; [|by apply elem_of_nil in Hx].
    destruct a as [ts'|]; [|by apply elem_of_nil in Hx'].
    apply elem_of_list_fmap in Hx as (b & -> & _).
    apply elem_of_list_fmap in Hx' as (b' & Hb & _).
    apply pair_equal_spec in Hb as [Hb _]. apply Hg in Hb. done.
  - apply (IH (fun i => g (S i))).
    + intros i j Hij. apply Hg in Hij. lia.
    + intros ts Hts. apply Hnd. by right.
Qed.
