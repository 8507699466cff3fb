(** Proofs about round-robin repartitioning and shuffle writing. *)
From stdpp Require Import prelude list.
From Verif.Lib Require Import ListFacts.
From Verif.Exec Require Import GraphModel ExchangeModel ExchangeSpec ExchangeProofs.
From Verif.Exec Require Import RoundRobinModel RoundRobinSpec.

(** ** Dealing *)
Lemma dealt_app {A} n (l1 l2 : list A) p : forall s,
  dealt s n (l1 ++ l2) p = dealt s n l1 p ++ dealt (s + length l1) n l2 p.
Proof.
  induction l1 as [|x l1 IH]; intros s; cbn [app dealt length].
  - by rewrite Nat.add_0_r.
  - rewrite IH. replace (S s + length l1) with (s + S (length l1)) by lia.
    by destruct (decide _).
Qed.

Lemma dealt_congr {A} n (l : list A) p : forall s s',
  n <> 0 -> s mod n = s' mod n -> dealt s n l p = dealt s' n l p.
Proof.
  induction l as [|x l IH]; intros s s' Hn Hs; [done|]. cbn [dealt].
  rewrite Hs. rewrite (IH (S s) (S s')); [done|done|].
  replace (S s) with (s + 1) by lia. replace (S s') with (s' + 1) by lia.
  rewrite (Nat.add_mod s), (Nat.add_mod s'), Hs by done. done.
Qed.

Lemma dealt_one {A} (l : list A) : forall s, dealt s 1 l 0 = l.
Proof.
  induction l as [|x l IH]; intros s; [done|]. cbn [dealt].
  rewrite Nat.mod_1_r. rewrite decide_True by done. by rewrite IH.
Qed.

Lemma dealt_out {A} n (l : list A) p : forall s, n <> 0 -> n <= p -> dealt s n l p = [].
Proof.
  induction l as [|x l IH]; intros s Hn Hp; [done|]. cbn [dealt].
  pose proof (Nat.mod_upper_bound s n Hn). rewrite decide_False by lia. by apply IH.
Qed.

Lemma dealt_sublist {A} n (l : list A) p : forall s, dealt s n l p `sublist_of` l.
Proof.
  induction l as [|x l IH]; intros s; cbn [dealt]; [constructor|].
  destruct (decide _); constructor; apply IH.
Qed.

Lemma flat_map_ext_nat {A} (f g : nat -> list A) l :
  (forall x, x ∈ l -> f x = g x) -> flat_map f l = flat_map g l.
Proof. apply flat_map_ext_in_list. Qed.

Lemma dealt_perm {A} n (l : list A) : forall s, n <> 0 ->
  flat_map (dealt s n l) (seq 0 n) ≡ₚ l.
Proof.
  induction l as [|x l IH]; intros s Hn.
  - clear Hn. generalize (seq 0 n). intros ns. induction ns; [done|]. cbn. done.
  - pose proof (Nat.mod_upper_bound s n Hn) as Hm.
    replace (seq 0 n) with (seq 0 (s mod n) ++ (s mod n) :: seq (S (s mod n)) (n - S (s mod n))).
    2: { change (s mod n :: seq (S (s mod n)) (n - S (s mod n))) with
           (seq (s mod n) (S (n - S (s mod n)))).
         rewrite <- (Nat.add_0_l (s mod n)) at 2. rewrite <- seq_app. f_equal. lia. }
    rewrite flat_map_app. cbn [flat_map].
    assert (Hne : forall a b, (forall y, y ∈ seq a b -> y <> s mod n) ->
              flat_map (dealt s n (x :: l)) (seq a b) = flat_map (dealt (S s) n l) (seq a b)).
    { intros a b Hy. apply flat_map_ext_nat. intros y Hin. cbn [dealt].
      rewrite decide_False; [done|]. intros E. by apply (Hy y Hin). }
    rewrite (Hne 0), (Hne (S (s mod n)));
      try (intros y Hy%elem_of_seq_iff; lia).
    cbn [dealt]. rewrite decide_True by done. cbn [app].
    rewrite <- Permutation_middle. constructor.
    rewrite <- (IH (S s) Hn) at 4.
    replace (seq 0 n) with (seq 0 (s mod n) ++ (s mod n) :: seq (S (s mod n)) (n - S (s mod n))) at 1.
    2: { change (s mod n :: seq (S (s mod n)) (n - S (s mod n))) with
           (seq (s mod n) (S (n - S (s mod n)))).
         rewrite <- (Nat.add_0_l (s mod n)) at 2. rewrite <- seq_app. f_equal. lia. }
    rewrite flat_map_app. cbn [flat_map]. done.
Qed.

Lemma mod_shift_inj n s r r' :
  n <> 0 -> r < n -> r' < n -> (s + r) mod n = (s + r') mod n -> r = r'.
Proof.
  intros Hn Hr Hr' E.
  assert (forall a b, a <= b -> b < n -> (s + a) mod n = (s + b) mod n -> a = b) as H.
  { clear -Hn. intros a b Hab Hb E.
    pose proof (Nat.div_mod (s + a) n Hn). pose proof (Nat.div_mod (s + b) n Hn).
    rewrite E in *. set (d1 := (s + a) / n) in *. set (d2 := (s + b) / n) in *. clearbody d1 d2.
    assert (b - a = n * (d2 - d1)) by nia. assert (d2 - d1 = 0) by nia. nia. }
  destruct (Nat.le_ge_cases r r'); [by apply H|symmetry; by apply H].
Qed.

(** The partition that is earlier in the rotation has the same number of rows or one more. *)
Lemma dealt_rank {A} n (l : list A) : forall s r r',
  n <> 0 -> r < r' -> r' < n ->
  let c := length (dealt s n l ((s + r) mod n)) in
  let c' := length (dealt s n l ((s + r') mod n)) in
  c' <= c <= c' + 1.
Proof.
  induction l as [|x l IH]; intros s r r' Hn Hr Hr'; cbn [dealt length]; [lia|].
  assert (Hs0 : s mod n = (s + 0) mod n) by (by rewrite Nat.add_0_r).
  assert (H' : s mod n <> (s + r') mod n).
  { rewrite Hs0. intros E. apply mod_shift_inj in E; lia. }
  rewrite (decide_False (P := s mod n = (s + r') mod n)) by done.
  destruct r as [|r].
  - rewrite decide_True by (by rewrite Nat.add_0_r).
    assert (E1 : (s + 0) mod n = (S s + (n - 1)) mod n).
    { replace (S s + (n - 1)) with (s + 1 * n) by lia. rewrite Nat.mod_add by done.
      by rewrite Nat.add_0_r. }
    assert (E2 : (s + r') mod n = (S s + (r' - 1)) mod n) by (f_equal; lia).
    rewrite E1, E2. specialize (IH (S s) (r' - 1) (n - 1) Hn ltac:(lia) ltac:(lia)).
    cbn zeta in IH. cbn [length]. lia.
  - rewrite decide_False.
    2: { rewrite Hs0. intros E. apply mod_shift_inj in E; lia. }
    assert (E1 : (s + S r) mod n = (S s + r) mod n) by (f_equal; lia).
    assert (E2 : (s + r') mod n = (S s + (r' - 1)) mod n) by (f_equal; lia).
    rewrite E1, E2. apply IH; lia.
Qed.

Lemma rank_exists n s p : n <> 0 -> p < n -> exists r, r < n /\ (s + r) mod n = p.
Proof.
  intros Hn Hp. pose proof (Nat.mod_upper_bound s n Hn) as Hm.
  pose proof (Nat.div_mod s n Hn) as Hd.
  destruct (Nat.le_gt_cases (s mod n) p).
  - exists (p - s mod n). split; [lia|].
    replace (s + (p - s mod n)) with (p + s / n * n) by lia.
    rewrite Nat.mod_add by done. by apply Nat.mod_small.
  - exists (n - s mod n + p). split; [lia|].
    replace (s + (n - s mod n + p)) with (p + (s / n + 1) * n) by lia.
    rewrite Nat.mod_add by done. by apply Nat.mod_small.
Qed.

Lemma dealt_balanced {A} n (l : list A) s p p' :
  p < n -> p' < n -> length (dealt s n l p) <= length (dealt s n l p') + 1.
Proof.
  intros Hp Hp'. assert (Hn : n <> 0) by lia.
  destruct (rank_exists n s p Hn Hp) as (r & Hr & <-).
  destruct (rank_exists n s p' Hn Hp') as (r' & Hr' & <-).
  destruct (Nat.lt_trichotomy r r') as [H|[->|H]]; [|lia|].
  - pose proof (dealt_rank n l s r r' Hn H Hr'). cbn zeta in *. lia.
  - pose proof (dealt_rank n l s r' r Hn H Hr). cbn zeta in *. lia.
Qed.

(** ** One batch *)
Lemma rr_indices_lookup s rows p :
  rr_n s <> 0 -> p < rr_n s ->
  rr_indices s rows !! p = Some (filter (fun i => (rr_next s + i) mod rr_n s = p) (seq 0 rows)).
Proof.
  intros Hn Hp. unfold rr_indices. induction rows as [|rows IH].
  - cbn. by apply lookup_replicate_2.
  - rewrite seq_S, foldl_app, filter_app. cbn [foldl]. rewrite Nat.add_0_l.
    destruct (decide ((rr_next s + rows) mod rr_n s = p)) as [E|E].
    + rewrite E, list_lookup_alter, IH. cbn. rewrite decide_True by done. done.
    + rewrite list_lookup_alter_ne by done. rewrite IH. cbn.
      rewrite decide_False by done. by rewrite app_nil_r.
Qed.

Lemma rr_indices_length s rows : length (rr_indices s rows) = rr_n s.
Proof.
  unfold rr_indices. induction rows as [|rows IH]; [apply replicate_length|].
  rewrite seq_S, foldl_app. cbn [foldl]. by rewrite alter_length.
Qed.

Lemma take_rows_dealt {A} n p (batch : list A) : forall s,
  take_rows batch (filter (fun i => (s + i) mod n = p) (seq 0 (length batch))) = dealt s n batch p.
Proof.
  induction batch as [|x batch IH]; intros s; [done|].
  cbn [length seq dealt]. rewrite filter_cons, Nat.add_0_r.
  assert (E : forall l, take_rows (x :: batch) (filter (fun i => (s + i) mod n = p) (map S l)) =
                        take_rows batch (filter (fun i => (S s + i) mod n = p) l)).
  { induction l as [|i l IHl]; [done|]. cbn [map]. rewrite !filter_cons.
    replace (s + S i) with (S s + i) by lia. unfold take_rows in *.
    destruct (decide _); cbn [omap list_omap]; [|done].
    change (list_omap ?f ?l) with (omap f l). cbn [lookup list_lookup].
    change (list_lookup i batch) with (batch !! i). destruct (batch !! i); by rewrite IHl. }
  rewrite <- seq_shift.
  destruct (decide _).
  - unfold take_rows in *. cbn [omap list_omap]. cbn [lookup list_lookup]. f_equal.
    change (list_omap ?f ?l) with (omap f l). rewrite E. apply IH.
  - rewrite E. apply IH.
Qed.

Lemma dealt_nonempty_iff {A} s (batch : list A) p :
  rr_n s <> 0 ->
  filter (fun i => (rr_next s + i) mod rr_n s = p) (seq 0 (length batch)) = [] <->
  dealt (rr_next s) (rr_n s) batch p = [].
Proof.
  intros Hn. rewrite <- take_rows_dealt. split; [by intros ->|].
  intros H. destruct (filter _ _) as [|i l] eqn:E; [done|]. exfalso.
  assert (Hi : i ∈ seq 0 (length batch)).
  { assert (i ∈ filter (fun i => (rr_next s + i) mod rr_n s = p) (seq 0 (length batch))) as Hin
      by (rewrite E; left). by apply elem_of_list_filter in Hin as [_ ?]. }
  apply elem_of_seq_iff in Hi.
  destruct (lookup_lt_is_Some_2 batch i ltac:(lia)) as [x Hx].
  unfold take_rows in H. cbn in H. by rewrite Hx in H.
Qed.

Lemma rr_partition_calls {A} s (batch : list A) :
  rr_n s <> 0 ->
  (rr_partition s batch).2 =
  omap (fun p => match dealt (rr_next s) (rr_n s) batch p with [] => None | l => Some (p, l) end)
       (seq 0 (rr_n s)).
Proof.
  intros Hn. unfold rr_partition.
  destruct (decide (length batch = 0)) as [H0|H0].
  - destruct batch; [|done]. cbn. clear. generalize (seq 0 (rr_n s)).
    intros l. induction l; [done|]. cbn. done.
  - destruct (decide (rr_n s = 1)) as [H1|H1].
    + rewrite H1. cbn. rewrite dealt_one. by destruct batch.
    + cbn [snd].
      assert (E : imap pair (rr_indices s (length batch)) =
        map (fun p => (p, filter (fun i => (rr_next s + i) mod rr_n s = p) (seq 0 (length batch))))
            (seq 0 (rr_n s))).
      { apply list_eq. intros p. rewrite list_lookup_imap.
        change (map ?f) with (fmap (M:=list) f). rewrite list_lookup_fmap.
        destruct (decide (p < rr_n s)) as [Hp|Hp].
        - rewrite rr_indices_lookup by done. rewrite lookup_seq_lt by done. done.
        - rewrite lookup_ge_None_2 by (rewrite rr_indices_length; lia).
          rewrite lookup_seq_ge by lia. done. }
      rewrite E. generalize (seq 0 (rr_n s)). intros ps.
      induction ps as [|p ps IH]; [done|]. cbn [map omap list_omap snd fst].
      change (list_omap ?f ?l) with (omap f l).
      rewrite take_rows_dealt.
      destruct (filter _ _) eqn:E1.
      * apply dealt_nonempty_iff in E1; [|done]. rewrite E1. exact IH.
      * destruct (dealt (rr_next s) (rr_n s) batch p) eqn:E2.
        { apply dealt_nonempty_iff in E2; [|done]. congruence. }
        f_equal. exact IH.
Qed.

Lemma select_calls_ok {A} (f : nat -> list A) n :
  let calls := omap (fun p => match f p with [] => None | l => Some (p, l) end) (seq 0 n) in
  calls_ok n calls /\ forall p, p < n -> sent calls p = f p.
Proof.
  intros calls.
  assert (Hin : forall c, c ∈ calls <-> c.1 < n /\ c.2 = f c.1 /\ c.2 <> []).
  { intros [p l]. unfold calls. rewrite elem_of_list_omap. cbn. split.
    - intros (q & Hq%elem_of_seq_iff & E). destruct (f q) eqn:Ef; [done|].
      injection E as <- <-. rewrite Ef. split_and!; [lia|done|done].
    - intros (Hp & -> & Hl). exists p. split; [apply elem_of_seq_iff; lia|].
      by destruct (f p). }
  assert (Hnd : NoDup (map fst calls)).
  { unfold calls. generalize (NoDup_seq 0 n). generalize (seq 0 n). clear.
    intros ps. induction ps as [|p ps IH]; intros Hnd; [constructor|].
    apply NoDup_cons in Hnd as [Hp Hnd]. cbn. destruct (f p); [by apply IH|].
    cbn. constructor; [|by apply IH].
    intros ([q l'] & -> & Hq)%elem_of_map_iff. apply elem_of_list_omap in Hq as (q' & Hq' & E).
    destruct (f q'); [done|]. cbn in *. congruence. }
  split; [split; [done|]|].
  - intros c Hc. apply Hin in Hc. naive_solver.
  - intros p Hp. unfold sent.
    destruct (f p) eqn:Ef.
    + assert (filter (fun c : nat * list A => c.1 = p) calls = []) as ->; [|done].
      destruct (filter _ calls) as [|c l] eqn:E; [done|].
      assert (c ∈ filter (fun c : nat * list A => c.1 = p) calls) as Hc by (rewrite E; left).
      apply elem_of_list_filter in Hc as [<- Hc]. apply Hin in Hc as (_ & H1 & H2). congruence.
    + assert (filter (fun c : nat * list A => c.1 = p) calls = [(p, f p)]) as ->.
      2: { cbn. by rewrite app_nil_r, Ef. }
      assert (Hc : (p, f p) ∈ calls) by (apply Hin; cbn; split_and!; [done|done|congruence]).
      clear -Hc Hnd. induction calls as [|c cs IH]; [by apply elem_of_nil in Hc|].
      cbn in Hnd. apply NoDup_cons in Hnd as [Hni Hnd]. rewrite filter_cons.
      apply elem_of_cons in Hc as [<-|Hc].
      * cbn. rewrite decide_True by done. f_equal.
        destruct (filter _ cs) as [|c l] eqn:E; [done|]. exfalso. apply Hni.
        assert (c ∈ filter (fun c : nat * list A => c.1 = p) cs) as H by (rewrite E; left).
        apply elem_of_list_filter in H as [<- H]. apply elem_of_map_iff. by exists c.
      * rewrite decide_False; [by apply IH|]. intros E. apply Hni. apply elem_of_map_iff.
        exists (p, f p). by rewrite E.
Qed.

Lemma rr_partition_ok {A} s (batch : list A) :
  rr_n s <> 0 ->
  calls_ok (rr_n s) (rr_partition s batch).2 /\
  forall p, p < rr_n s -> sent (rr_partition s batch).2 p = dealt (rr_next s) (rr_n s) batch p.
Proof. intros Hn. rewrite rr_partition_calls by done. apply select_calls_ok. Qed.

Lemma rr_partition_n {A} s (batch : list A) : rr_n (rr_partition s batch).1 = rr_n s.
Proof. unfold rr_partition. by destruct (decide _); [|destruct (decide _)]. Qed.

Lemma rr_partition_next {A} s (batch : list A) :
  rr_n s <> 0 ->
  rr_next (rr_partition s batch).1 mod rr_n s = (rr_next s + length batch) mod rr_n s.
Proof.
  intros Hn. unfold rr_partition. destruct (decide _) as [H0|H0]; cbn.
  - by rewrite H0, Nat.add_0_r.
  - destruct (decide _) as [H1|H1]; cbn.
    + by rewrite H1, !Nat.mod_1_r.
    + by rewrite Nat.mod_mod.
Qed.

(** ** Writing channels *)
Lemma store_calls_length {A} n (calls : list (nat * list A)) : length (store_calls n calls) = n.
Proof.
  unfold store_calls. assert (H : length (replicate n (@None (list A))) = n) by apply replicate_length.
  revert H. generalize (replicate n (@None (list A))). induction calls as [|c cs IH]; intros l Hl; [done|].
  cbn. apply IH. by rewrite insert_length.
Qed.

Lemma store_calls_lookup {A} n (calls : list (nat * list A)) p :
  p < n -> calls_ok n calls ->
  exists o, store_calls n calls !! p = Some o /\ default [] o = sent calls p.
Proof.
  intros Hp [Hnd Hc]. unfold store_calls.
  assert (G : forall acc, length acc = n ->
     (forall c, c ∈ calls -> acc !! c.1 = Some None) ->
     exists o, foldl (fun acc (c : nat * list A) => <[c.1 := Some c.2]> acc) acc calls !! p = Some o /\
       match acc !! p with
       | Some (Some b) => o = Some b
       | _ => default [] o = sent calls p
       end).
  { clear Hc. induction calls as [|c cs IH]; intros acc Hlen Hacc.
    - destruct (lookup_lt_is_Some_2 acc p ltac:(lia)) as [o Ho]. exists o. split; [done|].
      rewrite Ho. by destruct o.
    - cbn in Hnd. apply NoDup_cons in Hnd as [Hni Hnd]. cbn [foldl].
      destruct (IH Hnd (<[c.1:=Some c.2]> acc)) as (o & Ho & Hm).
      + by rewrite insert_length.
      + intros c' Hc'. rewrite list_lookup_insert_ne.
        * apply Hacc. by right.
        * intros E. apply Hni. apply elem_of_map_iff. exists c'. by rewrite E.
      + exists o. split; [exact Ho|].
        destruct (decide (c.1 = p)) as [E|E].
        * rewrite <- E in Hm. rewrite list_lookup_insert in Hm by lia. rewrite Hm.
          rewrite <- E, (Hacc c) by left. unfold sent. rewrite filter_cons.
          rewrite decide_True by done. cbn.
          assert (filter (fun c0 : nat * list A => c0.1 = c.1) cs = []) as ->.
          { destruct (filter _ cs) as [|c' l] eqn:E'; [done|]. exfalso. apply Hni.
            assert (c' ∈ filter (fun c0 : nat * list A => c0.1 = c.1) cs) as H by (rewrite E'; left).
            apply elem_of_list_filter in H as [<- H]. apply elem_of_map_iff. by exists c'. }
          cbn. by rewrite app_nil_r.
        * rewrite list_lookup_insert_ne in Hm by done.
          destruct (acc !! p) as [[b|]|]; [done| |]; rewrite Hm; unfold sent; rewrite filter_cons;
            by rewrite (decide_False (P := c.1 = p)). }
  destruct (G (replicate n None)) as (o & Ho & Hm).
  - apply replicate_length.
  - intros c Hin. apply lookup_replicate_2. by apply Hc.
  - exists o. split; [done|]. by rewrite lookup_replicate_2 in Hm by done.
Qed.

Lemma write_channels_lookup {A} n (streams : list (list (list A))) calls p st :
  length streams = n -> calls_ok n calls -> streams !! p = Some st ->
  exists st', write_channels streams (store_calls n calls) !! p = Some st' /\
    concat st' = concat st ++ sent calls p.
Proof.
  intros Hlen Hok Hst. pose proof (lookup_lt_Some _ _ _ Hst) as Hp.
  destruct (store_calls_lookup n calls p ltac:(lia) Hok) as (o & Ho & Hd).
  unfold write_channels. rewrite lookup_zip_with, Hst, Ho. cbn.
  eexists. split; [done|]. rewrite <- Hd. destruct o; cbn.
  - rewrite concat_app. cbn. by rewrite app_nil_r.
  - by rewrite app_nil_r.
Qed.

Lemma write_channels_length {A} n (streams : list (list (list A))) calls :
  length streams = n -> length (write_channels streams (store_calls n calls)) = n.
Proof.
  intros H. unfold write_channels. rewrite zip_with_length, store_calls_length. lia.
Qed.

(** The channels of a task, for a partitioner that keeps [I] and produces [out]. *)
Lemma shuffle_write_gen {S A} (part : partitioner S A) n (I : S -> list A -> Prop)
  (out : list A -> nat -> list A) (s0 : S) :
  I s0 [] -> (forall p, out [] p = []) ->
  (forall s rows batch, I s rows ->
     I (part s batch).1 (rows ++ batch) /\ calls_ok n (part s batch).2 /\
     forall p, p < n -> out (rows ++ batch) p = out rows p ++ sent (part s batch).2 p) ->
  forall batches p, p < n ->
  exists st, shuffle_write part n s0 batches !! p = Some st /\
    concat st = out (concat batches) p.
Proof.
  intros HI0 Hout0 Hstep batches p Hp. unfold shuffle_write.
  assert (G : forall acc rows, I acc.1 rows -> length acc.2 = n ->
    (exists st, acc.2 !! p = Some st /\ concat st = out rows p) ->
    exists st, (foldl (shuffle_batch part n) acc batches).2 !! p = Some st /\
      concat st = out (rows ++ concat batches) p).
  { induction batches as [|b bs IH]; intros [s streams] rows HI Hlen (st & Hst & Hc).
    - cbn. rewrite app_nil_r. eauto.
    - cbn [foldl concat]. rewrite app_assoc. cbn in HI, Hlen, Hst.
      destruct (Hstep s rows b HI) as (HI' & Hok & Hout).
      unfold shuffle_batch at 2. cbn [fst snd].
      destruct (part s b) as [s' calls] eqn:E. cbn in *.
      destruct (write_channels_lookup n streams calls p st Hlen Hok Hst) as (st' & Hst' & Hc').
      apply IH.
      + done.
      + by apply write_channels_length.
      + exists st'. split; [done|]. by rewrite Hc', Hc, Hout. }
  destruct (G (s0, replicate n []) [] HI0) as (st & Hst & Hc).
  - apply replicate_length.
  - exists []. split; [by apply lookup_replicate_2|]. by rewrite Hout0.
  - eauto.
Qed.

Lemma rr_shuffle_write {A} n input inputs s (batches : list (list A)) p :
  rr_new n input inputs = Some s -> p < n ->
  exists st, shuffle_write rr_partition n s batches !! p = Some st /\
    concat st = dealt (input * n / inputs) n (concat batches) p.
Proof.
  intros Hs Hp. unfold rr_new in Hs. destruct (decide _); [done|]. destruct (decide _); [done|].
  injection Hs as <-. set (start := input * n / inputs).
  apply (shuffle_write_gen rr_partition n
    (fun s rows => rr_n s = n /\ rr_next s mod n = (start + length rows) mod n)
    (dealt start n)).
  - cbn. by rewrite Nat.add_0_r.
  - done.
  - intros s rows batch [Hn Hnext].
    assert (Hn0 : rr_n s <> 0) by lia.
    destruct (rr_partition_ok s batch Hn0) as [Hok Hsent].
    pose proof (rr_partition_next s batch Hn0) as Hnx. rewrite Hn in *.
    split_and!; [by rewrite rr_partition_n| | |].
    + rewrite Hnx, app_length. rewrite Nat.add_assoc.
      rewrite Nat.add_mod, Hnext, <- Nat.add_mod by done. done.
    + done.
    + intros q Hq. rewrite dealt_app, Hsent by done. f_equal.
      by apply dealt_congr.
  - done.
Qed.

Lemma hash_shuffle_write {A} (h : A -> nat) n (batches : list (list A)) p :
  p < n ->
  exists st, shuffle_write (hash_partition h n) n tt batches !! p = Some st /\
    concat st = filter (fun r => h r = p) (concat batches).
Proof.
  intros Hp. set (out := fun (rows : list A) p => filter (fun r => h r = p) rows).
  change (exists st, shuffle_write (hash_partition h n) n tt batches !! p = Some st /\
    concat st = out (concat batches) p).
  apply (shuffle_write_gen (hash_partition h n) n (fun _ _ => True) out); [done|done| |done].
  unfold out.
  intros s rows batch _. split; [done|].
  destruct (select_calls_ok (fun c => filter (fun r => h r = c) batch) n) as [Hok Hs].
  split; [exact Hok|]. intros q Hq. rewrite filter_app. f_equal. symmetry. exact (Hs q Hq).
Qed.

(** ** A whole shuffle *)

Lemma flat_map_swap {A} (f : nat -> nat -> list A) (ps qs : list nat) :
  flat_map (fun p => flat_map (fun q => f p q) qs) ps ≡ₚ
  flat_map (fun q => flat_map (fun p => f p q) ps) qs.
Proof.
  induction ps as [|p ps IH]; cbn.
  - induction qs; [done|]. cbn. done.
  - rewrite IH. clear IH. induction qs as [|q qs IH]; cbn; [done|].
    rewrite <- !(assoc_L (++)). apply Permutation_app_head.
    rewrite (assoc_L (++)), (Permutation_app_comm (flat_map _ qs)), <- (assoc_L (++)).
    apply Permutation_app_head. exact IH.
Qed.

Lemma consumer_fetches {A} (written : nat -> list (list (list A))) att ip n p keys :
  p < n -> (forall q, q < ip -> is_Some (att q)) ->
  read_task Shuffle att ip n n p = Some keys ->
  fetched_rows written keys =
  flat_map (fun q => concat (default [] (written q !! p))) (seq 0 ip).
Proof.
  intros Hp Hatt Hk.
  assert (Ha : forall q, q < ip -> att q = Some (default 0 (att q))).
  { intros q Hq. destruct (Hatt q Hq) as [x Hx]. by rewrite Hx. }
  rewrite (read_task_closed _ _ _ _ _ Ha Shuffle p eq_refl Hp) in Hk. injection Hk as <-.
  unfold fetched_rows. cbn [read_closed]. rewrite !flat_map_concat_map, map_map. done.
Qed.

Lemma flat_map_perm_ext {A} (f g : nat -> list A) l :
  (forall x, x ∈ l -> f x ≡ₚ g x) -> flat_map f l ≡ₚ flat_map g l.
Proof.
  induction l as [|x l IH]; intros H; cbn; [done|].
  rewrite (H x) by left. rewrite IH; [done|]. intros y Hy. apply H. by right.
Qed.

Lemma shuffle_rr_conserves {A} (data : nat -> list (list A)) att ip n
  (start : nat -> rr) (keys : nat -> list input_key) :
  (forall q, q < ip -> is_Some (att q)) ->
  (forall q, q < ip -> rr_new n q ip = Some (start q)) ->
  (forall p, p < n -> read_task Shuffle att ip n n p = Some (keys p)) ->
  flat_map (fun p => fetched_rows (fun q => shuffle_write rr_partition n (start q) (data q)) (keys p))
           (seq 0 n) ≡ₚ
  flat_map (fun q => concat (data q)) (seq 0 ip).
Proof.
  intros Hatt Hstart Hkeys.
  rewrite (flat_map_ext_nat _
    (fun p => flat_map (fun q => dealt (q * n / ip) n (concat (data q)) p) (seq 0 ip))).
  - rewrite flat_map_swap. apply flat_map_perm_ext. intros q Hq%elem_of_seq_iff.
    apply dealt_perm. specialize (Hstart q ltac:(lia)). unfold rr_new in Hstart.
    by destruct (decide (n = 0)).
  - intros p Hp%elem_of_seq_iff.
    rewrite (consumer_fetches _ att ip n p); [|lia|done|apply Hkeys; lia].
    apply flat_map_ext_nat. intros q Hq%elem_of_seq_iff.
    destruct (rr_shuffle_write n q ip (start q) (data q) p) as (st & -> & Hc);
      [apply Hstart; lia|lia|]. exact Hc.
Qed.

Lemma shuffle_hash_places {A} (h : A -> nat) (data : nat -> list (list A)) att ip n p keys :
  (forall q, q < ip -> is_Some (att q)) -> p < n ->
  read_task Shuffle att ip n n p = Some keys ->
  fetched_rows (fun q => shuffle_write (hash_partition h n) n tt (data q)) keys =
  filter (fun r => h r = p) (flat_map (fun q => concat (data q)) (seq 0 ip)).
Proof.
  intros Hatt Hp Hk. rewrite (consumer_fetches _ att ip n p) by done.
  generalize (seq 0 ip). intros qs. induction qs as [|q qs IH]; [done|]. cbn.
  rewrite filter_app. f_equal; [|exact IH].
  destruct (hash_shuffle_write h n (data q) p Hp) as (st & -> & Hc). exact Hc.
Qed.
