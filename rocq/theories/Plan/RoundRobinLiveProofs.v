(** Proofs about the end of dealing rows out, and about counting them. *)
From stdpp Require Import prelude list numbers.
From Verif.Plan Require Import CoalesceModel RoundRobinModel RoundRobinSpec RoundRobinProofs.

(** ** Waiting *)
Section live.
Context {A : Type}.
Implicit Types (w : world A).

Lemma push_none w i k m : 0 < w_cap w -> chan_open w k = true -> push w i k m = None -> exists w', receive w k = Some w'.
Proof.
  intros Hcap Ho Hp. unfold push, receive, chan_open in *. destruct (w_chans w !! k) as [c|]; [|done]. cbn in Ho |- *.
  cbn [mbind option_bind] in Hp. destruct (length (c_queue c) <? w_cap w) eqn:E; [done|]. apply Nat.ltb_ge in E.
  destruct (c_queue c) as [|x q]; [cbn in E; lia|]. rewrite Ho. eauto.
Qed.
Lemma produce_none w i t : 0 < w_cap w -> w_tasks w !! i = Some t -> produce w i = None ->
  t_phase t = PDone \/ exists k w', receive w k = Some w'.
Proof.
  intros Hcap Ht Hp. unfold produce in Hp. rewrite Ht in Hp. cbn [mbind option_bind] in Hp.
  destruct (t_phase t) as [|k [|x rest] active|k|]; [| | | |by left].
  - by destruct (existsb id _).
  - done.
  - destruct (default false (t_senders t !! k)); [|done]. destruct (chan_open w k) eqn:Eo; [|done].
    destruct x as [b|]; [|done]. destruct (push w i k (Batch b)) eqn:Ep; [done|].
    right. exists k. by eapply push_none.
  - destruct (_ <=? k); [done|]. destruct (default false (t_senders t !! k)); [|done].
    destruct (chan_open w k) eqn:Eo; [|done]. destruct (push w i k Error) eqn:Ep; [done|].
    right. exists k. by eapply push_none.
Qed.
Lemma stuck_ended w : 0 < w_cap w -> (forall i, produce w i = None) -> (forall k, receive w k = None) ->
  forall k, chan_open w k = true -> ended w k = true.
Proof.
  intros Hcap Hp Hr k Ho. unfold ended. pose proof (Hr k) as Hk. unfold chan_open in Ho. unfold receive in Hk.
  destruct (w_chans w !! k) as [c|]; [|done]. cbn [mbind option_bind] in Hk. cbn in Ho. rewrite Ho in Hk |- *.
  destruct (c_queue c); [|done]. cbn [length andb]. rewrite bool_decide_true by done. cbn [andb].
  apply forallb_forall. intros t Ht. apply elem_of_list_In, elem_of_list_lookup in Ht as [i Hi].
  destruct (produce_none w i t Hcap Hi (Hp i)) as [Hd|(k' & w' & Hk')]; [|by rewrite Hr in Hk'].
  unfold has_sender. by rewrite Hd.
Qed.
Lemma push_cap w i k m w' : push w i k m = Some w' -> w_cap w' = w_cap w.
Proof. unfold push. destruct (w_chans w !! k) as [c|]; [|done]. cbn [mbind option_bind]. destruct (_ <? _); [|done]. intros H. by apply (inj Some) in H as <-. Qed.
Lemma step_cap w a w' : step w a = Some w' -> w_cap w' = w_cap w.
Proof.
  destruct a as [i|k|k]; cbn [step].
  - unfold produce. destruct (w_tasks w !! i) as [t|]; [|done]. cbn [mbind option_bind].
    destruct (t_phase t) as [|k [|x rest] active|k|]; [| | | |done].
    + destruct (existsb id _); intros H; by apply (inj Some) in H as <-.
    + intros H; by apply (inj Some) in H as <-.
    + destruct (default false (t_senders t !! k)); [|intros H; by apply (inj Some) in H as <-].
      destruct (chan_open w k); [|intros H; by apply (inj Some) in H as <-].
      destruct x as [b|]; [|intros H; by apply (inj Some) in H as <-].
      destruct (push w i k (Batch b)) as [w1|] eqn:Ep; [|done]. intros H. apply (inj Some) in H as <-. exact (push_cap _ _ _ _ _ Ep).
    + destruct (_ <=? k); [intros H; by apply (inj Some) in H as <-|].
      destruct (default false (t_senders t !! k)); [|intros H; by apply (inj Some) in H as <-].
      destruct (chan_open w k); [|intros H; by apply (inj Some) in H as <-].
      destruct (push w i k Error) as [w1|] eqn:Ep; [|done]. intros H. apply (inj Some) in H as <-. exact (push_cap _ _ _ _ _ Ep).
  - unfold receive. destruct (w_chans w !! k) as [c|]; [|done]. cbn [mbind option_bind].
    destruct (c_queue c); [done|]. destruct (c_open c); [|done]. intros H. by apply (inj Some) in H as <-.
  - unfold close. destruct (w_chans w !! k) as [c|]; [|done]. cbn [mbind option_bind].
    destruct (c_open c); [|done]. intros H. by apply (inj Some) in H as <-.
Qed.
Lemma run_cap w l w' : run w l = Some w' -> w_cap w' = w_cap w.
Proof.
  induction l as [|a l IH] in w |- *; cbn [run]; intros H; [by apply (inj Some) in H as <-|].
  destruct (step w a) as [w1|] eqn:Es; [|done]. cbn in H. rewrite (IH _ H). by eapply step_cap.
Qed.

(** ** The number of steps *)
Definition task_weight (n : nat) (t : @task A) : nat :=
  (2 * n + 3) * length (t_input t) +
  match t_phase t with PNext => 1 | PSend k rest _ => 2 * length rest + 2 | PFail k => 2 * (n - k) + 1 | PDone => 0 end.
Definition chan_weight (c : @chan A) : nat := length (c_queue c) + (if c_open c then 1 else 0).
Definition weight w : nat := sum_list (map (task_weight (length (w_chans w))) (w_tasks w)) + sum_list (map chan_weight (w_chans w)).

Lemma sum_list_insert {B} (f : B -> nat) (l : list B) i x y : l !! i = Some x ->
  sum_list (map f (<[i := y]> l)) + f x = sum_list (map f l) + f y.
Proof.
  induction l as [|z l IH] in i |- *; [done|]. destruct i as [|i]; cbn [lookup list_lookup].
  - intros H. apply (inj Some) in H as ->. cbn [insert list_insert map]. 
    change (sum_list (f y :: map f l)) with (f y + sum_list (map f l)). change (sum_list (f x :: map f l)) with (f x + sum_list (map f l)). lia.
  - intros H. change (<[S i := y]> (z :: l)) with (z :: <[i := y]> l). cbn [map].
    change (sum_list (f z :: map f (<[i:=y]> l))) with (f z + sum_list (map f (<[i := y]> l))).
    change (sum_list (f z :: map f l)) with (f z + sum_list (map f l)). specialize (IH i H). lia.
Qed.
Lemma weight_set_task w i t t' : w_tasks w !! i = Some t ->
  weight (set_task i t' w) + task_weight (length (w_chans w)) t = weight w + task_weight (length (w_chans w)) t'.
Proof.
  intros Ht. unfold weight, set_task. cbn [w_chans w_tasks].
  pose proof (sum_list_insert (task_weight (length (w_chans w))) (w_tasks w) i t t' Ht). lia.
Qed.
Lemma weight_push w i k m w' : push w i k m = Some w' ->
  weight w' = weight w + 1 /\ w_tasks w' = w_tasks w /\ length (w_chans w') = length (w_chans w).
Proof.
  unfold push. destruct (w_chans w !! k) as [c|] eqn:Hc; [|done]. cbn [mbind option_bind].
  destruct (_ <? _); [|done]. intros H. apply (inj Some) in H as <-. unfold weight, set_chan. cbn [w_chans w_tasks].
  rewrite insert_length. split; [|done].
  pose proof (sum_list_insert chan_weight (w_chans w) k c (Chan (c_queue c ++ [(i, m)]) (c_open c) (c_got c)) Hc) as H.
  unfold chan_weight at 2 4 in H. cbn [c_queue c_open] in H. rewrite app_length in H. cbn [length] in H. lia.
Qed.
Lemma weight_produce w i w' : produce w i = Some w' -> weight w' < weight w.
Proof.
  intros Hp. unfold produce in Hp. destruct (w_tasks w !! i) as [t|] eqn:Ht; [|done]. cbn [mbind option_bind] in Hp.
  pose proof (fun t' => weight_set_task w i t t' Ht) as Hw. unfold task_weight in Hw.
  destruct t as [input next senders ph]. cbn [t_input t_next t_senders t_phase] in Hp, Hw.
  destruct ph as [|k0 [|x rest] active|k0|]; [| | | |done].
  - destruct (existsb id _).
    + apply (inj Some) in Hp as <-. destruct input as [|[b|] input].
      * specialize (Hw (Task [] next (prune w senders) PDone)). cbn [t_input t_phase length] in Hw. lia.
      * destruct (partition (length (w_chans w)) next b) as [next' parts] eqn:Epart.
        specialize (Hw (Task input next' (prune w senders) (PSend 0 parts 0))). cbn [t_input t_phase length] in Hw.
        pose proof (partition_length (length (w_chans w)) next b) as Hl. rewrite Epart in Hl. cbn [snd] in Hl.
        rewrite Hl in Hw. rewrite Nat.mul_succ_r in Hw. lia.
      * specialize (Hw (Task input next (prune w senders) (PFail 0))). cbn [t_input t_phase length] in Hw.
        rewrite Nat.mul_succ_r in Hw. lia.
    + apply (inj Some) in Hp as <-. specialize (Hw (Task input next (prune w senders) PDone)).
      cbn [t_input t_phase] in Hw. lia.
  - apply (inj Some) in Hp as <-. specialize (Hw (Task input next senders (if 0 <? active then PNext else PDone))).
    cbn [t_input t_phase length] in Hw. destruct (0 <? active); lia.
  - destruct (default false (senders !! k0)).
    + destruct (chan_open w k0).
      * destruct x as [b|].
        -- destruct (push w i k0 (Batch b)) as [w1|] eqn:Ep; [|done]. cbn [mbind option_bind] in Hp.
           apply (inj Some) in Hp as <-. destruct (weight_push _ _ _ _ _ Ep) as (H1 & H2 & H3).
           pose proof (weight_set_task w1 i _ (Task input next senders (PSend (S k0) rest (S active))) ltac:(by rewrite H2)) as Hw1.
           rewrite H3 in Hw1. unfold task_weight in Hw1. cbn [t_input t_phase length] in Hw1. lia.
        -- apply (inj Some) in Hp as <-. specialize (Hw (Task input next senders (PSend (S k0) rest (S active)))).
           cbn [t_input t_phase length] in Hw. lia.
      * apply (inj Some) in Hp as <-. specialize (Hw (Task input next (<[k0:=false]> senders) (PSend (S k0) rest active))).
        cbn [t_input t_phase length] in Hw. lia.
    + apply (inj Some) in Hp as <-. specialize (Hw (Task input next senders (PSend (S k0) rest active))).
      cbn [t_input t_phase length] in Hw. lia.
  - destruct (_ <=? k0) eqn:En; [|apply Nat.leb_gt in En].
    + apply (inj Some) in Hp as <-. specialize (Hw (Task input next senders PDone)). cbn [t_input t_phase] in Hw. lia.
    + destruct (default false (senders !! k0)).
      * destruct (chan_open w k0).
        -- destruct (push w i k0 Error) as [w1|] eqn:Ep; [|done]. cbn [mbind option_bind] in Hp.
           apply (inj Some) in Hp as <-. destruct (weight_push _ _ _ _ _ Ep) as (H1 & H2 & H3).
           pose proof (weight_set_task w1 i _ (Task input next senders (PFail (S k0))) ltac:(by rewrite H2)) as Hw1.
           rewrite H3 in Hw1. unfold task_weight in Hw1. cbn [t_input t_phase] in Hw1. lia.
        -- apply (inj Some) in Hp as <-. specialize (Hw (Task input next (<[k0:=false]> senders) (PFail (S k0)))).
           cbn [t_input t_phase] in Hw. lia.
      * apply (inj Some) in Hp as <-. specialize (Hw (Task input next senders (PFail (S k0)))).
        cbn [t_input t_phase] in Hw. lia.
Qed.
Lemma weight_step w a w' : step w a = Some w' -> weight w' < weight w.
Proof.
  destruct a as [i|k|k]; cbn [step]; [apply weight_produce| |].
  - unfold receive. destruct (w_chans w !! k) as [c|] eqn:Hc; [|done]. cbn [mbind option_bind].
    destruct (c_queue c) as [|m q] eqn:Eq; [done|]. destruct (c_open c) eqn:Eo; [|done]. intros H. apply (inj Some) in H as <-.
    unfold weight, set_chan. cbn [w_chans w_tasks]. rewrite insert_length.
    pose proof (sum_list_insert chan_weight (w_chans w) k c (Chan q true (c_got c ++ [m])) Hc) as H.
    unfold chan_weight at 2 4 in H. rewrite Eq, Eo in H. cbn [c_queue c_open length] in H. lia.
  - unfold close. destruct (w_chans w !! k) as [c|] eqn:Hc; [|done]. cbn [mbind option_bind].
    destruct (c_open c) eqn:Eo; [|done]. intros H. apply (inj Some) in H as <-.
    unfold weight, set_chan. cbn [w_chans w_tasks]. rewrite insert_length.
    pose proof (sum_list_insert chan_weight (w_chans w) k c (Chan [] false (c_got c)) Hc) as H.
    unfold chan_weight at 2 4 in H. rewrite Eo in H. cbn [c_queue c_open length] in H. lia.
Qed.
Lemma run_weight w l w' : run w l = Some w' -> length l + weight w' <= weight w.
Proof.
  induction l as [|a l IH] in w |- *; cbn [run]; intros H; [apply (inj Some) in H as <-; cbn; lia|].
  destruct (step w a) as [w1|] eqn:Es; [|done]. cbn in H. specialize (IH _ H). apply weight_step in Es. cbn [length]. lia.
Qed.
Lemma weight_start cap n inputs :
  weight (start cap n inputs) = sum_list (map (fun input : list (item A) => (2 * n + 3) * length input + 1) inputs) + n.
Proof.
  unfold weight, start. cbn [w_chans w_tasks]. rewrite replicate_length. f_equal.
  - f_equal. generalize (length inputs). intros m. 
    enough (forall j, map (task_weight n) (imap (fun i input => Task input (first_output n (j + i) m) (replicate n true) PNext) inputs)
      = map (fun input : list (item A) => (2 * n + 3) * length input + 1) inputs) as H by apply (H 0).
    induction inputs as [|x inputs IH]; intros j; [done|]. cbn [imap map]. f_equal.
    rewrite <- (IH (S j)). f_equal. apply imap_ext. intros i y _. cbn. by rewrite Nat.add_succ_r.
  - induction n as [|n IH]; [done|]. cbn [replicate map]. change (sum_list (chan_weight (Chan [] true []) :: map chan_weight (replicate n (Chan [] true []))))
      with (1 + sum_list (map chan_weight (replicate n (@Chan A [] true [])))). lia.
Qed.

(** ** Reading in turn *)
Lemma run_in_turn_run n m w l w' : run_in_turn n m w l = Some w' -> run w l = Some w'.
Proof.
  induction l as [|a l IH] in w |- *; cbn [run run_in_turn]; [done|].
  destruct (in_turn n m w a); [|done]. destruct (step w a) as [w1|]; [|done]. cbn. apply IH.
Qed.
(** Nothing of output [k] was read, and no more than fits is waiting. *)
Definition unread (cap k : nat) w : Prop :=
  forall c, w_chans w !! k = Some c -> c_got c = [] /\ length (c_queue c) <= cap.
Lemma unread_set_task cap k i t w : unread cap k w -> unread cap k (set_task i t w).
Proof. done. Qed.
Lemma unread_push cap k i j m w w' : w_cap w = cap -> unread cap k w -> push w i j m = Some w' -> unread cap k w'.
Proof.
  intros Hcap Hu. unfold push. destruct (w_chans w !! j) as [c|] eqn:Hc; [|done]. cbn [mbind option_bind].
  destruct (_ <? _) eqn:E; [|done]. apply Nat.ltb_lt in E. intros H. apply (inj Some) in H as <-.
  intros d Hd. cbn [set_chan w_chans] in Hd. destruct (decide (j = k)) as [->|Hne].
  - rewrite list_lookup_insert in Hd by (by eapply lookup_lt_Some). apply (inj Some) in Hd as <-. cbn.
    destruct (Hu c Hc) as [H1 H2]. split; [done|]. rewrite app_length. cbn. lia.
  - rewrite list_lookup_insert_ne in Hd by done. by apply Hu.
Qed.
Lemma unread_produce cap k i w w' : w_cap w = cap -> unread cap k w -> produce w i = Some w' -> unread cap k w'.
Proof.
  intros Hcap Hu. unfold produce. destruct (w_tasks w !! i) as [t|]; [|done]. cbn [mbind option_bind].
  destruct (t_phase t) as [|k0 [|x rest] active|k0|]; [| | | |done].
  - destruct (existsb id _); intros H; by apply (inj Some) in H as <-.
  - intros H; by apply (inj Some) in H as <-.
  - destruct (default false (t_senders t !! k0)); [|intros H; by apply (inj Some) in H as <-].
    destruct (chan_open w k0); [|intros H; by apply (inj Some) in H as <-].
    destruct x as [b|]; [|intros H; by apply (inj Some) in H as <-].
    destruct (push w i k0 (Batch b)) as [w1|] eqn:Ep; [|done]. intros H. apply (inj Some) in H as <-.
    apply unread_set_task. by eapply unread_push.
  - destruct (_ <=? k0); [intros H; by apply (inj Some) in H as <-|].
    destruct (default false (t_senders t !! k0)); [|intros H; by apply (inj Some) in H as <-].
    destruct (chan_open w k0); [|intros H; by apply (inj Some) in H as <-].
    destruct (push w i k0 Error) as [w1|] eqn:Ep; [|done]. intros H. apply (inj Some) in H as <-.
    apply unread_set_task. by eapply unread_push.
Qed.
Lemma not_ended n inputs w cap j k i input : inv n inputs w -> unread cap k w ->
  inputs !! i = Some input -> cap < length (messages n (first_output n i (length inputs)) input k) ->
  chan_open w k = true -> ended w j = false.
Proof.
  intros Hinv Hu Hin Hlen Hok. destruct (ended w j) eqn:He; [exfalso|done].
  unfold ended in He. destruct (w_chans w !! j) as [c|] eqn:Hc; [|done].
  apply andb_true_iff in He as [He Hall]. apply andb_true_iff in He as [Ho _].
  destruct (lookup_lt_is_Some_2 (w_tasks w) i) as [t Ht].
  { rewrite (inv_tasks _ _ _ Hinv). by eapply lookup_lt_Some. }
  destruct (inv_ok _ _ _ Hinv j c i t input Hc Ho Ht Hin) as [(Hs & _ & _) _].
  rewrite forallb_forall in Hall. specialize (Hall t). rewrite <- elem_of_list_In in Hall.
  specialize (Hall ltac:(by eapply elem_of_list_lookup_2)). unfold has_sender in Hall. rewrite Hs in Hall.
  unfold chan_open in Hok. destruct (w_chans w !! k) as [d|] eqn:Hd; [|done]. cbn in Hok.
  destruct (inv_ok _ _ _ Hinv k d i t input Hd Hok Ht Hin) as [_ Heq].
  unfold to_send in Heq. destruct (t_phase t); [done|done|done|]. rewrite app_nil_r in Heq.
  destruct (Hu d Hd) as [Hg Hq]. rewrite Hg in Heq. cbn [app] in Heq. rewrite <- Heq in Hlen.
  assert (length (from_input i (c_queue d)) <= length (c_queue d)); [|lia].
  unfold from_input. generalize (c_queue d). intros q. induction q as [|[x y] q IH]; [done|]. cbn.
  destruct (x =? i); cbn; lia.
Qed.
Lemma ended_open w k : ended w k = true -> chan_open w k = true.
Proof. unfold ended, chan_open. destruct (w_chans w !! k); [|done]. cbn. intros H. apply andb_true_iff in H as [H _]. by apply andb_true_iff in H as [H _]. Qed.

Lemma in_turn_unread cap n m p j k inputs i input w l w' :
  p < m -> input_range p n m = (j, (j + (k - j) + 1)) -> j < k ->
  inputs !! i = Some input -> cap < length (messages n (first_output n i (length inputs)) input k) ->
  inv n inputs w -> w_cap w = cap -> unread cap k w -> run_in_turn n m w l = Some w' ->
  inv n inputs w' /\ unread cap k w'.
Proof.
  intros Hp Hr Hjk Hin Hlen. induction l as [|a l IH] in w |- *; intros Hinv Hcap Hu H; cbn [run_in_turn] in H.
  { by apply (inj Some) in H as <-. }
  destruct (in_turn n m w a) eqn:Et; [|done]. destruct (step w a) as [w1|] eqn:Es; [|done]. cbn [mbind option_bind] in H.
  eapply IH; [by eapply inv_step|by erewrite step_cap| |done].
  destruct a as [i'|k'|k']; cbn [step] in Es.
  - by eapply unread_produce.
  - unfold receive in Es. destruct (w_chans w !! k') as [c|] eqn:Hc; [|done]. cbn [mbind option_bind] in Es.
    destruct (c_queue c) as [|x q] eqn:Eq; [done|]. destruct (c_open c) eqn:Eo; [|done]. apply (inj Some) in Es as <-.
    assert (k' <> k) as Hne.
    { intros ->. cbn [in_turn] in Et. rewrite forallb_forall in Et. specialize (Et p).
      rewrite <- elem_of_list_In in Et. specialize (Et ltac:(apply elem_of_seq; lia)). rewrite Hr in Et.
      rewrite (proj2 (Nat.leb_le j k)) in Et by lia. rewrite (proj2 (Nat.ltb_lt k _)) in Et by lia. cbn [negb andb orb] in Et.
      rewrite forallb_forall in Et. specialize (Et j). rewrite <- elem_of_list_In in Et.
      specialize (Et ltac:(apply elem_of_seq; lia)).
      rewrite (not_ended n inputs w cap j k i input) in Et; [done..|]. unfold chan_open. by rewrite Hc. }
    intros d Hd. cbn [set_chan w_chans] in Hd. rewrite list_lookup_insert_ne in Hd by done. by apply Hu.
  - unfold close in Es. destruct (w_chans w !! k') as [c|] eqn:Hc; [|done]. cbn [mbind option_bind] in Es.
    destruct (c_open c) eqn:Eo; [|done]. apply (inj Some) in Es as <-.
    intros d Hd. cbn [set_chan w_chans] in Hd. destruct (decide (k' = k)) as [->|Hne].
    + rewrite list_lookup_insert in Hd by (by eapply lookup_lt_Some). apply (inj Some) in Hd as <-. cbn.
      split; [by apply (Hu c)|lia].
    + rewrite list_lookup_insert_ne in Hd by done. by apply Hu.
Qed.

(** An input with a row for each output in every batch. *)
Lemma messages_many n (b : list A) count k : 1 < n -> k < n -> length b = n ->
  length (messages n 0 (replicate count (Rows b)) k) = count.
Proof.
  intros Hn Hk Hb. induction count as [|count IH]; [done|]. cbn [replicate messages]. rewrite app_length.
  assert ((partition n 0 b).1 = 0) as ->.
  { unfold partition. rewrite (proj2 (Nat.eqb_neq (length b) 0)) by lia. rewrite (proj2 (Nat.eqb_neq n 1)) by lia.
    cbn [fst]. rewrite Hb. cbn [Nat.add]. apply Nat.mod_same. lia. }
  rewrite IH. pose proof (partition_sent n 0 b k ltac:(lia) Hk) as Hs. unfold sent in *.
  destruct ((partition n 0 b).2 !! k) as [[b'|]|]; [done| |]; exfalso; cbn in Hs; rewrite <- omap_filter_dealt in Hs.
  all: destruct (lookup_lt_is_Some_2 b k ltac:(lia)) as [x Hx].
  all: assert (x ∈ @nil A) as Hbad; [|by apply elem_of_nil in Hbad].
  all: rewrite Hs; apply elem_of_list_omap; exists k; split; [|done]; apply elem_of_list_filter; split;
    [cbn [Nat.add]; by apply Nat.mod_small|apply elem_of_seq; lia].
Qed.
(** Some range has two outputs. *)
Lemma wide_range n m : 1 <= m -> m < n -> exists p j k, p < m /\ k < n /\ j < k /\ input_range p n m = (j, j + (k - j) + 1).
Proof.
  intros Hm Hmn.
  assert (exists p, p < m /\ p * n / m + 1 < (p + 1) * n / m) as (p & Hp & Hw).
  { destruct (decide (Exists (fun p => p * n / m + 1 < (p + 1) * n / m) (seq 0 m))) as [E|E].
    - apply list.Exists_exists in E as (p & Hp & H). apply elem_of_seq in Hp. exists p. split; [lia|done].
    - exfalso. assert (forall q, q <= m -> q * n / m <= q) as Hq.
      { induction q as [|q IH]; intros Hq; [rewrite Nat.mul_0_l, Nat.div_0_l; lia|].
        destruct (decide (q * n / m + 1 < (q + 1) * n / m)) as [Hlt|Hge].
        - exfalso. apply E. apply list.Exists_exists. exists q. split; [apply elem_of_seq; lia|done].
        - rewrite (Nat.add_1_r q) in Hge. specialize (IH ltac:(lia)). apply Nat.nlt_ge in Hge.
          etransitivity; [exact Hge|]. generalize dependent (q * n / m). intros. lia. }
      specialize (Hq m ltac:(lia)). rewrite Nat.mul_comm, Nat.div_mul in Hq by lia. lia. }
  exists p, (p * n / m), ((p + 1) * n / m - 1). unfold input_range.
  assert ((p + 1) * n / m <= n).
  { transitivity (m * n / m); [apply Nat.div_le_mono; [lia|]; apply Nat.mul_le_mono_r; lia|].
    rewrite Nat.mul_comm, Nat.div_mul by lia. lia. }
  split_and!; [done|lia|lia|]. f_equal. lia.
Qed.
Theorem never_ends cap n m (x : A) : 1 <= m -> m < n -> exists input p j k,
  p < m /\ input_range p n m = (j, k + 1) /\ j < k /\ fails input = false /\
  forall l w, run_in_turn n m (start cap n [input]) l = Some w -> ended w k = false.
Proof.
  intros Hm Hmn. destruct (wide_range n m Hm Hmn) as (p & j & k & Hp & Hk & Hjk & Hr).
  exists (replicate (S cap) (Rows (replicate n x))), p, j, k. split_and!; [done| |done| |].
  - rewrite Hr. f_equal. lia.
  - unfold fails. induction (S cap); [done|]. done.
  - intros l w H.
    assert (Hlen : cap < length (messages n (first_output n 0 (length [replicate (S cap) (Rows (replicate n x))])) (replicate (S cap) (Rows (replicate n x))) k)).
    { cbn [length]. change (first_output n 0 1) with 0. rewrite messages_many; [lia|lia|done|apply replicate_length]. }
    destruct (in_turn_unread cap n m p j k [replicate (S cap) (Rows (replicate n x))] 0 (replicate (S cap) (Rows (replicate n x)))
      (start cap n [replicate (S cap) (Rows (replicate n x))]) l w Hp Hr Hjk eq_refl Hlen (inv_start _ _ _) eq_refl) as [Hinv Hu].
    { intros c Hc. cbn [start w_chans] in Hc. apply lookup_replicate in Hc as [-> _]. cbn. split; [done|lia]. }
    { done. }
    destruct (ended w k) eqn:He; [|done]. rewrite <- He.
    eapply (not_ended n _ w cap k k 0); [done|done|done|done|]. by apply ended_open.
Qed.
End live.

(** ** Counting *)
Section counting.
Context {A : Type}.

Lemma dealt_outside n from k (l : list A) : n <> 0 -> n <= k -> dealt n from k l = [].
Proof.
  intros Hn Hk. induction l as [|x l IH] in from |- *; [done|]. cbn [dealt]. rewrite IH.
  rewrite (proj2 (Nat.eqb_neq _ _)); [done|]. pose proof (Nat.mod_upper_bound from n Hn). lia.
Qed.
Lemma flat_map_one (a n k : nat) (l : list A) (f : nat -> list A) : a <= k -> k < a + n ->
  flat_map (fun j => (if k =? j then l else []) ++ f j) (seq a n) ≡ₚ l ++ flat_map f (seq a n).
Proof.
  induction n as [|n IH] in a |- *; intros Ha Hk; [lia|]. cbn [seq flat_map].
  destruct (decide (k = a)) as [->|Hne].
  - rewrite Nat.eqb_refl. rewrite <- !app_assoc. f_equiv. f_equiv.
    assert (forall j m, a < j -> flat_map (fun j0 => (if a =? j0 then l else []) ++ f j0) (seq j m) = flat_map f (seq j m)) as H.
    { intros j m. induction m as [|m IHm] in j |- *; intros Hj; [done|]. cbn [seq flat_map]. rewrite IHm by lia.
      by rewrite (proj2 (Nat.eqb_neq a j)) by lia. }
    rewrite H by lia. done.
  - rewrite (proj2 (Nat.eqb_neq k a)) by done. cbn [app]. rewrite IH by lia. by rewrite Permutation_app_swap_app.
Qed.
Lemma dealt_perm n from (l : list A) : n <> 0 -> flat_map (fun k => dealt n from k l) (seq 0 n) ≡ₚ l.
Proof.
  intros Hn. induction l as [|x l IH] in from |- *.
  - cbn [dealt]. by induction (seq 0 n).
  - cbn [dealt]. rewrite (flat_map_one 0 n (from mod n) [x] (fun k => dealt n (S from) k l)).
    + cbn [app]. by rewrite IH.
    + lia.
    + cbn. by apply Nat.mod_upper_bound.
Qed.
Lemma dealt_count n from k (l : list A) : k < n ->
  length (dealt n from k l) + (from + (n - 1 - k)) / n = (from + length l + (n - 1 - k)) / n.
Proof.
  intros Hk. induction l as [|x l IH] in from |- *; [cbn; by rewrite Nat.add_0_r|].
  cbn [dealt length]. rewrite app_length. specialize (IH (S from)).
  replace (from + S (length l) + (n - 1 - k)) with (S from + length l + (n - 1 - k)) by lia. rewrite <- IH.
  enough (length (if from mod n =? k then [x] else []) + (from + (n - 1 - k)) / n = (S from + (n - 1 - k)) / n) by lia.
  pose proof (Nat.div_mod from n ltac:(lia)) as Hd. pose proof (Nat.mod_upper_bound from n ltac:(lia)) as Hm.
  set (q := from / n) in *. set (r := from mod n) in *. clearbody q r. subst from.
  destruct (r =? k) eqn:E; [apply Nat.eqb_eq in E; subst r|apply Nat.eqb_neq in E]; cbn [length].
  - rewrite <- (Nat.div_unique (n * q + k + (n - 1 - k)) n q (n - 1)) by lia.
    rewrite <- (Nat.div_unique (S (n * q + k) + (n - 1 - k)) n (S q) 0) by lia.
    reflexivity.
  - destruct (decide (r < k)).
    + rewrite <- (Nat.div_unique (n * q + r + (n - 1 - k)) n q (r + (n - 1 - k))) by lia.
      rewrite <- (Nat.div_unique (S (n * q + r) + (n - 1 - k)) n q (S r + (n - 1 - k))) by lia. lia.
    + rewrite <- (Nat.div_unique (n * q + r + (n - 1 - k)) n (S q) (r - 1 - k)) by lia.
      rewrite <- (Nat.div_unique (S (n * q + r) + (n - 1 - k)) n (S q) (r - k)) by lia. lia.
Qed.
Lemma dealt_balanced n from k k' (l : list A) : k < n -> k' < n -> length (dealt n from k l) <= S (length (dealt n from k' l)).
Proof.
  intros Hk Hk'. pose proof (dealt_count n from k l Hk) as H1. pose proof (dealt_count n from k' l Hk') as H2.
  set (x := from + (n - 1 - k)) in *. set (y := from + (n - 1 - k')) in *.
  replace (from + length l + (n - 1 - k)) with (x + length l) in H1 by (unfold x; lia).
  replace (from + length l + (n - 1 - k')) with (y + length l) in H2 by (unfold y; lia).
  clearbody x y. generalize dependent (length (dealt n from k l)). generalize dependent (length (dealt n from k' l)).
  generalize dependent (length l). intros L a H2 b H1.
  pose proof (Nat.div_mod x n ltac:(lia)). pose proof (Nat.mod_upper_bound x n ltac:(lia)).
  pose proof (Nat.div_mod y n ltac:(lia)). pose proof (Nat.mod_upper_bound y n ltac:(lia)).
  pose proof (Nat.div_mod (x + L) n ltac:(lia)). pose proof (Nat.mod_upper_bound (x + L) n ltac:(lia)).
  pose proof (Nat.div_mod (y + L) n ltac:(lia)). pose proof (Nat.mod_upper_bound (y + L) n ltac:(lia)).
  set (X := x / n) in *. set (Y := y / n) in *. set (X' := (x + L) / n) in *. set (Y' := (y + L) / n) in *.
  assert (n * b < n * (a + 2)); [|nia].
  assert (n * b = n * X' - n * X) as -> by (rewrite <- H1; nia).
  assert (n * (a + 2) = n * Y' - n * Y + 2 * n) as -> by (rewrite <- H2; nia).
  assert (n * Y <= n * Y') by (apply Nat.mul_le_mono_l; lia). lia.
Qed.

(** Every message comes from an input. *)
Definition from_inputs (w : world A) : Prop := forall k c, w_chans w !! k = Some c -> forall x, x ∈ c_got c ++ c_queue c -> x.1 < length (w_tasks w).
Lemma from_inputs_chan w k c c' : from_inputs w -> w_chans w !! k = Some c ->
  (forall x, x ∈ c_got c' ++ c_queue c' -> x ∈ c_got c ++ c_queue c \/ x.1 < length (w_tasks w)) -> from_inputs (set_chan k c' w).
Proof.
  intros Hw Hc H j d Hd x Hx. cbn [set_chan w_chans w_tasks] in *. destruct (decide (k = j)) as [<-|Hne].
  - rewrite list_lookup_insert in Hd by (by eapply lookup_lt_Some). apply (inj Some) in Hd as <-.
    destruct (H x Hx) as [Hx'|]; [|done]. by eapply Hw.
  - rewrite list_lookup_insert_ne in Hd by done. by eapply Hw.
Qed.
Lemma from_inputs_task w i t : from_inputs w -> from_inputs (set_task i t w).
Proof. intros Hw j d Hd x Hx. cbn [set_task w_chans w_tasks] in *. rewrite insert_length. by eapply Hw. Qed.
Lemma from_inputs_push w i k m w' : from_inputs w -> i < length (w_tasks w) -> push w i k m = Some w' -> from_inputs w'.
Proof.
  intros Hw Hi. unfold push. destruct (w_chans w !! k) as [c|] eqn:Hc; [|done]. cbn [mbind option_bind].
  destruct (_ <? _); [|done]. intros H. apply (inj Some) in H as <-. eapply from_inputs_chan; [done|exact Hc|].
  cbn. intros x Hx. rewrite app_assoc in Hx. apply elem_of_app in Hx as [Hx|Hx]; [by left|].
  apply elem_of_list_singleton in Hx as ->. by right.
Qed.
Lemma from_inputs_step w a w' : from_inputs w -> step w a = Some w' -> from_inputs w'.
Proof.
  intros Hw. destruct a as [i|k|k]; cbn [step].
  - unfold produce. destruct (w_tasks w !! i) as [t|] eqn:Ht; [|done]. cbn [mbind option_bind]. apply lookup_lt_Some in Ht.
    destruct (t_phase t) as [|k0 [|x rest] active|k0|]; [| | | |done].
    + destruct (existsb id _); intros H; apply (inj Some) in H as <-; by apply from_inputs_task.
    + intros H; apply (inj Some) in H as <-; by apply from_inputs_task.
    + destruct (default false (t_senders t !! k0)); [|intros H; apply (inj Some) in H as <-; by apply from_inputs_task].
      destruct (chan_open w k0); [|intros H; apply (inj Some) in H as <-; by apply from_inputs_task].
      destruct x as [b|]; [|intros H; apply (inj Some) in H as <-; by apply from_inputs_task].
      destruct (push w i k0 (Batch b)) as [w1|] eqn:Ep; [|done]. intros H. apply (inj Some) in H as <-.
      apply from_inputs_task. by eapply from_inputs_push.
    + destruct (_ <=? k0); [intros H; apply (inj Some) in H as <-; by apply from_inputs_task|].
      destruct (default false (t_senders t !! k0)); [|intros H; apply (inj Some) in H as <-; by apply from_inputs_task].
      destruct (chan_open w k0); [|intros H; apply (inj Some) in H as <-; by apply from_inputs_task].
      destruct (push w i k0 Error) as [w1|] eqn:Ep; [|done]. intros H. apply (inj Some) in H as <-.
      apply from_inputs_task. by eapply from_inputs_push.
  - unfold receive. destruct (w_chans w !! k) as [c|] eqn:Hc; [|done]. cbn [mbind option_bind].
    destruct (c_queue c) as [|m q] eqn:Eq; [done|]. destruct (c_open c) eqn:Eo; [|done]. intros H. apply (inj Some) in H as <-.
    eapply from_inputs_chan; [done|exact Hc|]. cbn. intros x Hx. left. by rewrite Eq, cons_middle, app_assoc.
  - unfold close. destruct (w_chans w !! k) as [c|] eqn:Hc; [|done]. cbn [mbind option_bind].
    destruct (c_open c) eqn:Eo; [|done]. intros H. apply (inj Some) in H as <-.
    eapply from_inputs_chan; [done|exact Hc|]. cbn. rewrite app_nil_r. intros x Hx. left. apply elem_of_app. by left.
Qed.
Lemma from_inputs_run w l w' : from_inputs w -> run w l = Some w' -> from_inputs w'.
Proof.
  induction l as [|a l IH] in w |- *; cbn [run]; intros Hw H; [by apply (inj Some) in H as <-|].
  destruct (step w a) as [w1|] eqn:Es; [|done]. cbn in H. eapply IH; [|done]. by eapply from_inputs_step.
Qed.
Lemma split_by_input (l : list (nat * message A)) n : (forall x, x ∈ l -> x.1 < n) ->
  flat_map (fun x => message_rows x.2) l ≡ₚ flat_map (fun i => flat_map message_rows (from_input i l)) (seq 0 n).
Proof.
  induction l as [|[i m] l IH]; intros H; [cbn; by induction (seq 0 n)|].
  cbn [flat_map snd]. rewrite IH by (intros x Hx; apply H; by right).
  rewrite <- (flat_map_one 0 n i (message_rows m)) by (try lia; by apply (H (i, m)); left).
  apply reflexive_eq. apply flat_map_ext. intros j. cbn. destruct (i =? j); done.
Qed.
Lemma flat_map_perm {B C} (f g : B -> list C) l : (forall x, x ∈ l -> f x ≡ₚ g x) -> flat_map f l ≡ₚ flat_map g l.
Proof.
  induction l as [|x l IH]; intros H; [done|]. cbn [flat_map]. rewrite (H x) by left. rewrite IH; [done|]. intros y Hy. apply H. by right.
Qed.
Lemma flat_map_swap {B C D} (f : B -> C -> list D) (l : list B) (l' : list C) :
  flat_map (fun x => flat_map (f x) l') l ≡ₚ flat_map (fun y => flat_map (fun x => f x y) l) l'.
Proof.
  induction l as [|x l IH]; cbn [flat_map]; [by induction l'|]. rewrite IH. clear IH.
  induction l' as [|y l' IH]; [done|]. cbn [flat_map]. rewrite <- IH. rewrite <- !app_assoc. f_equiv.
  rewrite Permutation_app_swap_app. done.
Qed.
Theorem every_row cap n (inputs : list (list (item A))) l w : n <> 0 ->
  run (start cap n inputs) l = Some w -> (forall k, k < n -> ended w k = true) ->
  flat_map (all_given w) (seq 0 n) ≡ₚ flat_map rows_of inputs.
Proof.
  intros Hn Hr He. pose proof (inv_run _ _ _ _ _ (inv_start cap n inputs) Hr) as Hinv.
  assert (Hf : from_inputs w).
  { eapply from_inputs_run; [|done]. intros k c Hc. cbn [start w_chans] in Hc. apply lookup_replicate in Hc as [-> _].
    cbn. intros x Hx. by apply elem_of_nil in Hx. }
  rewrite (flat_map_perm (all_given w) (fun k => flat_map (fun i => dealt n (first_output n i (length inputs)) k (default [] (rows_of <$> inputs !! i))) (seq 0 (length inputs)))).
  - rewrite flat_map_swap.
    rewrite (flat_map_perm _ (fun i => default [] (rows_of <$> inputs !! i))) by (intros i _; by apply dealt_perm).
    clear. apply reflexive_eq. induction inputs as [|x inputs IH] using rev_ind; [done|].
    rewrite app_length, Nat.add_1_r, seq_S, !flat_map_app. f_equal.
    + rewrite <- IH. clear. assert (forall l, (forall i, i ∈ l -> i < length inputs) ->
        flat_map (fun i => default [] (rows_of <$> (inputs ++ [x]) !! i)) l = flat_map (fun i => default [] (rows_of <$> inputs !! i)) l) as H.
      { intros l. induction l as [|i l IHl]; intros Hl; [done|]. cbn [flat_map]. rewrite IHl by (intros j Hj; apply Hl; by right).
        rewrite lookup_app_l by (apply Hl; left). done. }
      apply H. intros i Hi. apply elem_of_seq in Hi. lia.
    + cbn [flat_map Nat.add]. by rewrite lookup_app_r, Nat.sub_diag by lia.
  - intros k Hk. apply elem_of_seq in Hk. specialize (He k ltac:(lia)).
    unfold all_given. pose proof He as He'. unfold ended in He'. destruct (w_chans w !! k) as [c|] eqn:Hc; [|done].
    rewrite (split_by_input (c_got c) (length inputs)).
    + apply flat_map_perm. intros i Hi. apply elem_of_seq in Hi.
      destruct (lookup_lt_is_Some_2 inputs i ltac:(lia)) as [input Hin]. rewrite Hin. cbn.
      pose proof (given_all _ _ _ _ _ i k input Hr Hin He) as Hg. unfold given in Hg. rewrite Hc in Hg.
      fold (from_input i (c_got c)) in Hg. rewrite Hg. rewrite messages_dealt; [done|done| |lia].
      apply first_output_lt; [done|lia].
    + intros x Hx. rewrite <- (inv_tasks _ _ _ Hinv). eapply Hf; [exact Hc|]. apply elem_of_app. by left.
Qed.
End counting.
