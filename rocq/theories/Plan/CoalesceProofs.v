(** Proofs about coalesce(n). *)
From Coq Require Import Lia.
From stdpp Require Import prelude list numbers.
From Verif.Plan Require Import CoalesceModel CoalesceSpec.

Definition weight {A} (q : list (stream A)) : nat := sum_list (map (fun s => S (length s)) q).

Lemma poll_next_spec {A} (q : list (stream A)) :
  match poll_next q with
  | (Finished, q') => concat (map items q) = []
  | (Pending, q') => concat (map items q) = concat (map items q') /\ weight q' < weight q
  | (Item x, q') => concat (map items q) = x :: concat (map items q') /\ weight q' < weight q
  end.
Proof.
  induction q as [|s q IH]; [done|]. destruct s as [|[x|] s]; cbn [poll_next].
  - destruct (poll_next q) as [[| |x] q']; cbn [map concat items omap list_omap app].
    + destruct IH as [-> Hw]. split; [done|]. unfold weight in *. cbn [map sum_list_with]. cbn. lia.
    + done.
    + destruct IH as [-> Hw]. split; [done|]. unfold weight in *. cbn. lia.
  - split; [done|]. unfold weight. cbn. lia.
  - split; [done|]. unfold weight. cbn. lia.
Qed.

Lemma drains_spec {A} (q : list (stream A)) l : drains q l -> l = concat (map items q).
Proof.
  induction 1 as [q q' H|q q' l H Hd IH|q q' x l H Hd IH];
    pose proof (poll_next_spec q) as P; rewrite H in P.
  - done.
  - by destruct P as [-> _].
  - destruct P as [-> _]. by rewrite IH.
Qed.
Lemma drains_exists {A} (q : list (stream A)) : exists l, drains q l.
Proof.
  remember (weight q) as n eqn:Hn. revert q Hn. induction (lt_wf n) as [n _ IH]. intros q ->.
  pose proof (poll_next_spec q) as P. destruct (poll_next q) as [[| |x] q'] eqn:E.
  - destruct P as [_ Hw]. destruct (IH _ Hw q' eq_refl) as [l Hl]. exists l.
    by eapply drains_pending.
  - exists []. by eapply drains_finished.
  - destruct P as [_ Hw]. destruct (IH _ Hw q' eq_refl) as [l Hl]. exists (x :: l).
    by eapply drains_item.
Qed.

Section cuts.
  Context (n m : nat) (Hm : 0 < m).
  Definition cut (p : nat) : nat := p * n / m.
  Lemma cut_0 : cut 0 = 0.
  Proof. unfold cut. rewrite Nat.mul_0_l. apply Nat.div_0_l. lia. Qed.
  Lemma cut_m : cut m = n.
  Proof. unfold cut. rewrite Nat.mul_comm. apply Nat.div_mul. lia. Qed.
  Lemma cut_step p : cut p + n / m <= cut (S p) <= cut p + S (n / m).
  Proof.
    unfold cut.
    pose proof (Nat.div_mod (p * n) m ltac:(lia)) as E1.
    pose proof (Nat.div_mod (S p * n) m ltac:(lia)) as E2.
    pose proof (Nat.div_mod n m ltac:(lia)) as E3.
    pose proof (Nat.mod_upper_bound (p * n) m ltac:(lia)).
    pose proof (Nat.mod_upper_bound (S p * n) m ltac:(lia)).
    pose proof (Nat.mod_upper_bound n m ltac:(lia)).
    generalize dependent (p * n / m). generalize dependent (S p * n / m).
    generalize dependent (n / m). generalize dependent ((p * n) mod m).
    generalize dependent ((S p * n) mod m). generalize dependent (n mod m).
    intros. rewrite Nat.mul_succ_l in *. nia.
  Qed.
  Lemma cut_mono p q : p <= q -> cut p <= cut q.
  Proof.
    induction 1 as [|q _ IH]; [done|]. pose proof (cut_step q). lia.
  Qed.
End cuts.

Definition runs_of {A} (l : list A) (m k : nat) : list (list A) :=
  map (fun p => take (cut (length l) m (S p) - cut (length l) m p) (drop (cut (length l) m p) l))
    (seq 0 k).

Lemma runs_of_concat {A} (l : list A) m k :
  0 < m -> m <= length l -> k <= m -> concat (runs_of l m k) = take (cut (length l) m k) l.
Proof.
  intros Hm Hn. induction k as [|k IH]; intros Hk.
  - cbn. by rewrite cut_0.
  - unfold runs_of in *. rewrite seq_S, map_app, concat_app, IH by lia. cbn [map concat Nat.add].
    rewrite app_nil_r.
    pose proof (cut_step (length l) m Hm k).
    replace (cut (length l) m (S k)) with
      (cut (length l) m k + (cut (length l) m (S k) - cut (length l) m k)) at 2 by lia.
    by rewrite <- take_take_drop.
Qed.

Lemma runs_of_all {A} (l : list A) m :
  0 < m -> m <= length l -> concat (runs_of l m m) = l.
Proof.
  intros Hm Hn. rewrite runs_of_concat by done. rewrite cut_m by done. by rewrite firstn_all.
Qed.
Lemma runs_of_length {A} (l : list A) m k r :
  0 < m -> m <= length l -> k <= m -> r ∈ runs_of l m k ->
  length l / m <= length r <= S (length l / m).
Proof.
  intros Hm Hn Hk Hr. unfold runs_of in Hr. change (map ?f ?l) with (f <$> l) in Hr.
  apply elem_of_list_fmap in Hr as (p & -> & Hp). apply elem_of_seq in Hp.
  rewrite take_length, drop_length.
  pose proof (cut_step (length l) m Hm p) as Hs.
  pose proof (cut_mono (length l) m Hm (S p) m ltac:(lia)) as Hc. rewrite cut_m in Hc by done.
  lia.
Qed.

Lemma concat_concat {A} (l : list (list (list A))) :
  concat (map (@concat A) l) = concat (concat l).
Proof. induction l as [|x l IH]; [done|]. cbn. by rewrite concat_app, IH. Qed.

Lemma runs_of_map {A B} (f : A -> B) (l : list A) m k :
  runs_of (map f l) m k = map (map f) (runs_of l m k).
Proof.
  unfold runs_of. rewrite map_length, map_map. apply map_ext. intros p.
  change (map f) with (fmap (M := list) f). by rewrite fmap_take, fmap_drop.
Qed.

Lemma coalesce_outputs {A} (inputs : list (stream A)) m outs :
  0 < m -> m <= length inputs -> output (CoalesceTo m) inputs outs ->
  outs = map (@concat A) (runs_of (map items inputs) m m).
Proof.
  intros Hm Hn Ho. cbn [output] in Ho.
  assert (Hk : forall k outs, k <= m ->
    Forall2 (fun p out => exists q, execute inputs m p = Some q /\ drains q out) (seq 0 k) outs ->
    outs = map (@concat A) (runs_of (map items inputs) m k)).
  { clear outs Ho. induction k as [|k IH]; intros outs Hk Ho.
    - by inversion Ho.
    - rewrite seq_S in Ho. apply Forall2_app_inv_l in Ho as (l1 & l2 & H1 & H2 & ->).
      inversion H2 as [|? out ? ? (q & He & Hd) H3]; subst. inversion H3; subst.
      rewrite (IH l1) by (done || lia).
      rewrite !runs_of_map. unfold runs_of. rewrite seq_S, !map_app. f_equal.
      cbn [map Nat.add] in *. f_equal.
      unfold execute in He. rewrite decide_False in He by lia. rewrite decide_False in He by lia.
      cbn [input_range] in He. injection He as <-.
      apply drains_spec in Hd. rewrite Hd. unfold cut.
      replace (k + 1) with (S k) by lia. done. }
  by apply Hk.
Qed.

Lemma coalesce_exact {A} (inputs : list (stream A)) m outs :
  0 < m -> m <= length inputs -> output (CoalesceTo m) inputs outs ->
  length outs = m /\ adjacent_runs (map items inputs) outs.
Proof.
  intros Hm Hn Ho. rewrite (coalesce_outputs inputs m outs Hm Hn Ho).
  split; [unfold runs_of; by rewrite !map_length, seq_length|].
  exists (runs_of (map items inputs) m m).
  assert (Hl : m <= length (map items inputs)) by (by rewrite map_length).
  split_and!; [by apply runs_of_all|done|].
  intros r r' Hr Hr'.
  apply runs_of_length in Hr; [|done|done|done]. apply runs_of_length in Hr'; [|done|done|done].
  lia.
Qed.

Lemma interleaves_perm {A} (ls : list (list A)) out : interleaves ls out -> out ≡ₚ concat ls.
Proof.
  induction 1 as [ls H|ls1 x l ls2 out H IH].
  - induction H as [|l ls -> H IH]; done.
  - rewrite IH, !concat_app. cbn. by rewrite Permutation_middle.
Qed.

Lemma coalesce_perm {A} (n planned : nat) (inputs : list (stream A)) outs :
  0 < length inputs ->
  plan_count n planned = Some (n `min` planned) -> 0 < planned ->
  output (rewrite (n `min` planned) (length inputs)) inputs outs ->
  length outs = (n `min` planned) `min` length inputs /\
  concat outs ≡ₚ concat (map items inputs).
Proof.
  intros Hin Hp Hpl Ho. unfold plan_count in Hp. destruct (decide (n = 0)); [done|].
  set (k := n `min` planned) in *. assert (0 < k) by lia.
  unfold rewrite in Ho. destruct (decide (length inputs <= k)).
  - cbn in Ho. subst outs. rewrite map_length. split; [lia|done].
  - destruct (decide (k = 1)) as [Hk|Hk].
    + destruct Ho as (out & -> & Hi). rewrite Hk. cbn [length concat]. rewrite app_nil_r.
      split; [lia|]. by apply interleaves_perm.
    + apply coalesce_exact in Ho as (Hl & runs & H1 & H2 & H3); [|lia|lia].
      split; [lia|]. rewrite <- H2, concat_concat, H1. done.
Qed.

Lemma coalesce_exists {A} (n : nat) (inputs : list (stream A)) :
  0 < n -> n <= length inputs -> exists outs, output (CoalesceTo n) inputs outs.
Proof.
  intros Hn Hl. cbn [output].
  assert (Hk : forall k, k <= n -> exists outs,
    Forall2 (fun p out => exists q, execute inputs n p = Some q /\ drains q out) (seq 0 k) outs).
  { induction k as [|k IH]; intros Hk; [exists []; constructor|].
    destruct IH as [outs Ho]; [lia|].
    destruct (drains_exists (take ((k + 1) * length inputs / n - k * length inputs / n)
       (drop (k * length inputs / n) inputs))) as [out Hout].
    exists (outs ++ [out]). rewrite seq_S. apply Forall2_app; [done|]. constructor; [|constructor].
    eexists. split; [|exact Hout]. unfold execute. rewrite decide_False by (cbn; lia).
    rewrite decide_False by lia. done. }
  by apply Hk.
Qed.
