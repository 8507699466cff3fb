(** Proofs about dealing rows out to outputs. *)
From stdpp Require Import prelude list numbers.
From Verif.Plan Require Import RoundRobinModel RoundRobinSpec.

Section dealing.
Context {A : Type}.
Implicit Types (b : list A).

Lemma dealt_app n from k (l1 l2 : list A) :
  dealt n from k (l1 ++ l2) = dealt n from k l1 ++ dealt n (from + length l1) k l2.
Proof.
  induction l1 as [|x l1 IH] in from |- *; cbn [dealt app length]; [by rewrite Nat.add_0_r|].
  rewrite IH, <- app_assoc. do 3 f_equal; lia.
Qed.
Lemma dealt_mod n from from' k (l : list A) : n <> 0 -> from mod n = from' mod n -> dealt n from k l = dealt n from' k l.
Proof.
  intros Hn. induction l as [|x l IH] in from, from' |- *; intros H; [done|]. cbn [dealt]. rewrite H. f_equal.
  apply IH. change (S from) with (1 + from). change (S from') with (1 + from').
  rewrite (Nat.add_mod 1 from), (Nat.add_mod 1 from') by done. by rewrite H.
Qed.
Lemma dealt_one from (l : list A) : dealt 1 from 0 l = l.
Proof.
  induction l as [|x l IH] in from |- *; [done|]. cbn [dealt]. rewrite Nat.mod_1_r. cbn. by rewrite IH.
Qed.

(** The row numbers for output [k]. *)
Lemma indices_lookup n next rows k : k < n ->
  indices n next rows !! k = Some (filter (fun r => (next + r) mod n = k) (seq 0 rows)).
Proof.
  intros Hk. unfold indices. induction rows as [|rows IH].
  - cbn. by rewrite lookup_replicate_2.
  - rewrite seq_S, foldl_app, list.filter_app. cbn [foldl Nat.add].
    destruct (decide ((next + rows) mod n = k)) as [E|E].
    + rewrite <- E at 1. rewrite list_lookup_alter. rewrite E, IH. cbn [fmap option_fmap option_map].
      rewrite filter_cons_True by done. done.
    + rewrite list_lookup_alter_ne by done. rewrite IH. rewrite filter_cons_False by done.
      by rewrite filter_nil, app_nil_r.
Qed.
Lemma indices_length n next rows : length (indices n next rows) = n.
Proof.
  unfold indices. induction rows as [|rows IH]; [apply replicate_length|].
  rewrite seq_S, foldl_app. cbn [foldl]. by rewrite alter_length.
Qed.
Lemma omap_filter_dealt n next k b :
  omap (fun i => b !! i) (filter (fun r => (next + r) mod n = k) (seq 0 (length b))) = dealt n next k b.
Proof.
  induction b as [|x b IH] using rev_ind; [done|].
  rewrite app_length, Nat.add_1_r, seq_S, list.filter_app, omap_app, dealt_app, <- IH. f_equal.
  - apply list_omap_ext. apply Forall2_same_length_lookup_2; [done|]. intros i y z Hy Hz.
    rewrite Hy in Hz. injection Hz as <-. apply elem_of_list_lookup_2, elem_of_list_filter in Hy as [_ Hy].
    apply elem_of_seq in Hy. rewrite lookup_app_l by lia. done.
  - cbn [dealt Nat.add]. rewrite app_nil_r.
    destruct (decide ((next + length b) mod n = k)) as [E|E].
    + rewrite filter_cons_True, filter_nil by done. rewrite (proj2 (Nat.eqb_eq _ _) E). cbn [omap list_omap].
      by rewrite lookup_app_r, Nat.sub_diag by lia.
    + rewrite filter_cons_False, filter_nil by done. by rewrite (proj2 (Nat.eqb_neq _ _) E).
Qed.

(** What a batch sends to output [k]. *)
Definition sent (parts : list (option (list A))) (k : nat) : list (message A) :=
  match parts !! k with Some (Some b) => [Batch b] | _ => [] end.
Lemma partition_length n next b : length (partition n next b).2 = n.
Proof.
  unfold partition. destruct (length b =? 0); [by apply replicate_length|].
  destruct (n =? 1) eqn:E; [apply Nat.eqb_eq in E; by subst|]. cbn [snd]. by rewrite map_length, indices_length.
Qed.
Lemma partition_next n next b : n <> 0 -> next < n -> (partition n next b).1 < n /\ (partition n next b).1 mod n = (next + length b) mod n.
Proof.
  intros Hn Hlt. unfold partition. destruct (length b =? 0) eqn:Eb.
  - apply Nat.eqb_eq in Eb. cbn [fst]. by rewrite Eb, Nat.add_0_r.
  - destruct (n =? 1) eqn:E; cbn [fst].
    + apply Nat.eqb_eq in E. subst. split; [done|]. by rewrite !Nat.mod_1_r.
    + split; [by apply Nat.mod_upper_bound|]. by rewrite Nat.mod_mod.
Qed.
Lemma partition_sent n next b k : n <> 0 -> k < n ->
  flat_map message_rows (sent (partition n next b).2 k) = dealt n next k b.
Proof.
  intros Hn Hk. unfold partition, sent. destruct (length b =? 0) eqn:Eb.
  - apply Nat.eqb_eq, nil_length_inv in Eb. subst b. cbn [snd]. by rewrite lookup_replicate_2.
  - destruct (n =? 1) eqn:E; cbn [snd].
    + apply Nat.eqb_eq in E. subst. assert (k = 0) as -> by lia. cbn. rewrite app_nil_r. by rewrite dealt_one.
    + rewrite list_lookup_fmap, indices_lookup by done. cbn [fmap option_fmap option_map].
      destruct (filter _ _) as [|r l] eqn:Ef.
      * rewrite <- omap_filter_dealt. cbn. by rewrite Ef.
      * cbn [flat_map message_rows]. rewrite app_nil_r. rewrite <- Ef. apply omap_filter_dealt.
Qed.

(** All messages of an input for output [k]. *)
Fixpoint messages (n next : nat) (input : list (item A)) (k : nat) : list (message A) :=
  match input with
  | [] => []
  | Rows b :: input => sent (partition n next b).2 k ++ messages n (partition n next b).1 input k
  | Fail :: _ => [Error]
  end.
Lemma messages_dealt n next input k : n <> 0 -> next < n -> k < n ->
  flat_map message_rows (messages n next input k) = dealt n next k (rows_of input).
Proof.
  intros Hn Hnext Hk. induction input as [|[b|] input IH] in next, Hnext |- *; [done| |done].
  cbn [messages rows_of]. rewrite flat_map_app, partition_sent, dealt_app by done. f_equal.
  destruct (partition_next n next b Hn Hnext) as [H1 H2]. rewrite IH by done. by apply dealt_mod.
Qed.
Lemma messages_shape n next input k :
  exists bs, messages n next input k = map Batch bs ++ (if fails input then [Error] else []).
Proof.
  induction input as [|[b|] input IH] in next |- *; [by exists []| |by exists []].
  cbn [messages]. destruct (IH (partition n next b).1) as [bs ->]. unfold sent.
  destruct (_ !! k) as [[b'|]|]; [by exists (b' :: bs)| |]; by exists bs.
Qed.
Lemma first_output_lt n i inputs : n <> 0 -> i < inputs -> first_output n i inputs < n.
Proof. intros Hn Hi. unfold first_output. apply Nat.div_lt_upper_bound; [lia|]. nia. Qed.
Lemma partition_nonempty n next b k b' : (partition n next b).2 !! k = Some (Some b') -> b' <> [].
Proof.
  unfold partition. destruct (length b =? 0) eqn:Eb.
  - cbn [snd]. intros H. apply lookup_replicate in H as [H _]. done.
  - destruct (n =? 1); cbn [snd].
    + destruct k; [|done]. cbn. intros [= <-] ->. done.
    + rewrite list_lookup_fmap. destruct (_ !! k) as [l|] eqn:El; [|done]. cbn.
      assert (Hk : k < n). { apply lookup_lt_Some in El. by rewrite indices_length in El. }
      rewrite indices_lookup in El by done. apply (inj Some) in El.
      destruct l as [|r l]; [done|]. intros H. apply (inj Some), (inj Some) in H. subst b'.
      assert (r < length b).
      { assert (r ∈ filter (fun r => (next + r) mod n = k) (seq 0 (length b))) as Hr by (rewrite El; left).
        apply elem_of_list_filter in Hr as [_ Hr]. apply elem_of_seq in Hr. lia. }
      destruct (lookup_lt_is_Some_2 b r) as [x Hx]; [done|]. cbn. by rewrite Hx.
Qed.
End dealing.

(** ** What is where *)
Section invariant.
Context {A : Type}.
Implicit Types (w : world A).

Definition from_input (i : nat) (l : list (nat * message A)) : list (message A) :=
  omap (fun x : nat * message A => if (x.1 =? i)%nat then Some x.2 else None) l.
Lemma from_input_app i l1 l2 : from_input i (l1 ++ l2) = from_input i l1 ++ from_input i l2.
Proof. apply omap_app. Qed.

(** What a task has yet to send to output [k]. *)
Definition to_send (n : nat) (t : task) (k : nat) : list (message A) :=
  match t_phase t with
  | PNext => messages n (t_next t) (t_input t) k
  | PSend k0 rest _ => (if k0 <=? k then sent rest (k - k0) else []) ++ messages n (t_next t) (t_input t) k
  | PFail k0 => if k0 <=? k then [Error] else []
  | PDone => []
  end.
(** A task as seen from an open output [k]. *)
Definition task_ok (n k : nat) (t : @task A) : Prop :=
  t_senders t !! k = Some true /\ length (t_senders t) = n /\
  match t_phase t with
  | PSend k0 rest active => k0 + length rest = n /\ (k < k0 -> 0 < active)
  | PFail k0 => k0 <= n
  | _ => True
  end.
Record inv (n : nat) (inputs : list (list (item A))) w : Prop := {
  inv_chans : length (w_chans w) = n;
  inv_tasks : length (w_tasks w) = length inputs;
  inv_ok : forall k c i t input, w_chans w !! k = Some c -> c_open c = true ->
    w_tasks w !! i = Some t -> inputs !! i = Some input ->
    task_ok n k t /\
    from_input i (c_got c ++ c_queue c) ++ to_send n t k = messages n (first_output n i (length inputs)) input k }.

Lemma inv_start cap n inputs : inv n inputs (start cap n inputs).
Proof.
  split; cbn [start w_chans w_tasks].
  - apply replicate_length.
  - apply imap_length.
  - intros k c i t input Hc Ho Ht Hi. apply lookup_replicate in Hc as [-> Hk].
    rewrite list_lookup_imap, Hi in Ht. apply (inj Some) in Ht. subst t. cbn.
    split; [|done]. split_and!; [by apply lookup_replicate_2|cbn; apply replicate_length|done].
Qed.

(** A step changes one task; the messages it sends come after those of before. *)
Lemma set_task_chans i t w : w_chans (set_task i t w) = w_chans w. Proof. done. Qed.
Lemma set_task_tasks i t w : w_tasks (set_task i t w) = <[i := t]> (w_tasks w). Proof. done. Qed.

Lemma inv_set_task n inputs w i t t' :
  inv n inputs w -> w_tasks w !! i = Some t ->
  (forall k c, w_chans w !! k = Some c -> c_open c = true -> task_ok n k t -> task_ok n k t' /\ to_send n t' k = to_send n t k) ->
  inv n inputs (set_task i t' w).
Proof.
  intros [H1 H2 H3] Ht Hok. split; [done|by rewrite set_task_tasks, insert_length|].
  intros k c j u input Hc Ho Hu Hin. rewrite set_task_chans in Hc. rewrite set_task_tasks in Hu.
  destruct (decide (i = j)) as [<-|Hne].
  - rewrite list_lookup_insert in Hu by (by eapply lookup_lt_Some). apply (inj Some) in Hu. subst u.
    destruct (H3 k c i t input Hc Ho Ht Hin) as [Hk Heq]. destruct (Hok k c Hc Ho Hk) as [Hk' Hs]. by rewrite Hs.
  - rewrite list_lookup_insert_ne in Hu by done. by eapply H3.
Qed.
Lemma inv_push n inputs w w' i k0 m t t' :
  inv n inputs w -> w_tasks w !! i = Some t -> push w i k0 m = Some w' ->
  (forall k c, w_chans w !! k = Some c -> c_open c = true -> task_ok n k t ->
     task_ok n k t' /\ to_send n t k = (if decide (k = k0) then [m] else []) ++ to_send n t' k) ->
  inv n inputs (set_task i t' w').
Proof.
  intros [H1 H2 H3] Ht Hp Hok. unfold push in Hp. destruct (w_chans w !! k0) as [c0|] eqn:Hc0; [|done]. cbn [mbind option_bind] in Hp.
  destruct (length (c_queue c0) <? w_cap w); [|done]. apply (inj Some) in Hp. subst w'.
  split; cbn [set_task set_chan w_chans w_tasks]; [by rewrite insert_length|by rewrite insert_length|].
  intros k c j u input Hc Ho Hu Hin.
  assert (exists c', w_chans w !! k = Some c' /\ c_open c' = true /\
    c_got c ++ c_queue c = (c_got c' ++ c_queue c') ++ (if decide (k = k0) then [(i, m)] else [])) as (c' & Hc' & Ho' & Hq).
  { destruct (decide (k = k0)) as [->|Hne].
    - rewrite list_lookup_insert in Hc by (by eapply lookup_lt_Some). apply (inj Some) in Hc. subst c. cbn in Ho |- *.
      exists c0. by rewrite app_assoc.
    - rewrite list_lookup_insert_ne in Hc by done. exists c. by rewrite app_nil_r. }
  rewrite Hq, from_input_app. destruct (decide (i = j)) as [<-|Hne].
  - rewrite list_lookup_insert in Hu by (by eapply lookup_lt_Some). apply (inj Some) in Hu. subst u.
    destruct (H3 k c' i t input Hc' Ho' Ht Hin) as [Hk Heq]. destruct (Hok k c' Hc' Ho' Hk) as [Hk' Hs].
    split; [done|]. rewrite <- Heq, Hs, <- app_assoc. do 2 f_equal. destruct (decide (k = k0)); [|done].
    cbn. by rewrite Nat.eqb_refl.
  - rewrite list_lookup_insert_ne in Hu by done. destruct (H3 k c' j u input Hc' Ho' Hu Hin) as [Hk Heq]. split; [done|].
    rewrite <- Heq. f_equal. destruct (decide (k = k0)); [|by rewrite app_nil_r]. cbn.
    rewrite (proj2 (Nat.eqb_neq i j) Hne). by rewrite app_nil_r.
Qed.

Lemma prune_lookup w senders k : prune w senders !! k = (fun s => s && chan_open w k) <$> senders !! k.
Proof. unfold prune. by rewrite list_lookup_imap. Qed.
Lemma prune_true w senders k : chan_open w k = true -> senders !! k = Some true -> existsb id (prune w senders) = true.
Proof.
  intros Ho Hs. apply existsb_exists. exists true. split; [|done]. apply elem_of_list_In, elem_of_list_lookup.
  exists k. rewrite prune_lookup, Hs. cbn. by rewrite Ho.
Qed.
Lemma chan_open_some w k c : w_chans w !! k = Some c -> c_open c = true -> chan_open w k = true.
Proof. intros H Ho. unfold chan_open. by rewrite H. Qed.

Lemma sent_cons_0 (x : option (list A)) rest : sent (x :: rest) 0 = match x with Some b => [Batch b] | None => [] end.
Proof. by destruct x. Qed.
Lemma sent_cons_S (x : option (list A)) rest k : sent (x :: rest) (S k) = sent rest k.
Proof. done. Qed.
Lemma send_next k0 k (x : option (list A)) rest :
  (if k0 <=? k then sent (x :: rest) (k - k0) else []) =
  (if decide (k = k0) then match x with Some b => [Batch b] | None => [] end else []) ++ (if S k0 <=? k then sent rest (k - S k0) else []).
Proof.
  destruct (decide (k = k0)) as [->|Hne].
  - rewrite Nat.leb_refl, Nat.sub_diag, sent_cons_0. rewrite (proj2 (Nat.leb_gt (S k0) k0)) by lia. by rewrite app_nil_r.
  - cbn [app]. destruct (k0 <=? k) eqn:E; [apply Nat.leb_le in E|apply Nat.leb_gt in E].
    + rewrite (proj2 (Nat.leb_le (S k0) k)) by lia. replace (k - k0) with (S (k - S k0)) by lia. apply sent_cons_S.
    + by rewrite (proj2 (Nat.leb_gt (S k0) k)) by lia.
Qed.
Lemma fail_next k0 k :
  (if k0 <=? k then [Error] else [] : list (message A)) =
  (if decide (k = k0) then [Error] else []) ++ (if S k0 <=? k then [Error] else []).
Proof.
  destruct (decide (k = k0)) as [->|Hne].
  - rewrite Nat.leb_refl. by rewrite (proj2 (Nat.leb_gt (S k0) k0)) by lia.
  - cbn [app]. destruct (k0 <=? k) eqn:E; [apply Nat.leb_le in E|apply Nat.leb_gt in E].
    + by rewrite (proj2 (Nat.leb_le (S k0) k)) by lia.
    + by rewrite (proj2 (Nat.leb_gt (S k0) k)) by lia.
Qed.

Lemma inv_produce n inputs w i w' : inv n inputs w -> produce w i = Some w' -> inv n inputs w'.
Proof.
  intros Hinv Hp. pose proof (inv_chans _ _ _ Hinv) as Hn. unfold produce in Hp.
  destruct (w_tasks w !! i) as [t|] eqn:Ht; [|done]. cbn [mbind option_bind] in Hp. rewrite Hn in Hp.
  destruct t as [input next senders ph]. cbn [t_input t_next t_senders t_phase] in Hp.
  destruct ph as [|k0 [|x rest] active|k0|]; [| | | |done].
  - (* next item *)
    destruct (existsb id (prune w senders)) eqn:Ee.
    + apply (inj Some) in Hp. subst w'. eapply inv_set_task; [done|exact Ht|].
      intros k c Hc Ho (Hs & Hl & _). cbn [t_senders] in Hs, Hl.
      assert (Hs' : prune w senders !! k = Some true).
      { rewrite prune_lookup, Hs. cbn. by rewrite (chan_open_some _ _ _ Hc Ho). }
      assert (Hl' : length (prune w senders) = n) by (by unfold prune; rewrite imap_length).
      destruct input as [|[b|] input].
      * by split.
      * destruct (partition n next b) as [next' parts] eqn:Epart. split.
        -- split_and!; [done|done|]. cbn [t_phase]. split; [|lia]. cbn. 
           pose proof (partition_length n next b) as Hpl. by rewrite Epart in Hpl.
        -- unfold to_send. cbn [t_phase t_next t_input messages]. rewrite Epart. cbn [fst snd].
           change (0 <=? k) with true. cbn [fst snd]. by rewrite Nat.sub_0_r.
      * split; [|done]. split_and!; [done|done|]. cbn [t_phase]. lia.
    + apply (inj Some) in Hp. subst w'. eapply inv_set_task; [done|exact Ht|].
      intros k c Hc Ho (Hs & Hl & _). cbn [t_senders] in Hs. 
      rewrite (prune_true w senders k) in Ee; [done| |done]. by eapply chan_open_some.
  - (* end of a batch *)
    apply (inj Some) in Hp. subst w'. eapply inv_set_task; [done|exact Ht|].
    intros k c Hc Ho (Hs & Hl & Hph). cbn [t_phase length] in Hph. destruct Hph as [Hlen Hact].
    assert (k < n). { rewrite <- Hl. by eapply lookup_lt_Some. }
    rewrite (proj2 (Nat.ltb_lt 0 active)) by (apply Hact; lia).
    split; [by split_and!|]. unfold to_send. cbn [t_phase t_next t_input].
    rewrite (proj2 (Nat.leb_gt k0 k)) by lia. done.
  - destruct (senders !! k0) as [[]|] eqn:Es; cbn [default from_option id] in Hp.
    + destruct (chan_open w k0) eqn:Eo.
      * destruct x as [b|].
        -- destruct (push w i k0 (Batch b)) as [w1|] eqn:Epush; [|done]. cbn [mbind option_bind] in Hp.
           apply (inj Some) in Hp. subst w'. eapply inv_push; [done|exact Ht|exact Epush|].
           intros k c Hc Ho (Hs & Hl & Hph). cbn [t_phase length] in Hph. destruct Hph as [Hlen Hact]. split.
           ++ split_and!; [done|done|]. cbn [t_phase]. split; lia.
           ++ unfold to_send. cbn [t_phase t_next t_input]. by rewrite send_next, <- app_assoc.
        -- apply (inj Some) in Hp. subst w'. eapply inv_set_task; [done|exact Ht|].
           intros k c Hc Ho (Hs & Hl & Hph). cbn [t_phase length] in Hph. destruct Hph as [Hlen Hact]. split.
           ++ split_and!; [done|done|]. cbn [t_phase]. split; lia.
           ++ unfold to_send. cbn [t_phase t_next t_input]. rewrite (send_next k0 k None). by destruct (decide (k = k0)).
      * apply (inj Some) in Hp. subst w'. eapply inv_set_task; [done|exact Ht|].
        intros k c Hc Ho (Hs & Hl & Hph). cbn [t_phase length t_senders] in *. destruct Hph as [Hlen Hact].
        assert (k <> k0). { intros ->. by rewrite (chan_open_some _ _ _ Hc Ho) in Eo. } split.
        -- split; [|split]; cbn [t_senders t_phase]; [by rewrite list_lookup_insert_ne|by rewrite insert_length|].
           split; [lia|]. intros Hk. apply Hact. lia.
        -- unfold to_send. cbn [t_phase t_next t_input]. rewrite (send_next k0 k). by rewrite decide_False.
    + apply (inj Some) in Hp. subst w'. eapply inv_set_task; [done|exact Ht|].
      intros k c Hc Ho (Hs & Hl & Hph). cbn [t_phase length t_senders] in *. destruct Hph as [Hlen Hact].
      assert (k <> k0) by congruence. split.
      * split; [|split]; cbn [t_senders t_phase]; [done|done|]. split; [lia|]. intros Hk. apply Hact. lia.
      * unfold to_send. cbn [t_phase t_next t_input]. rewrite (send_next k0 k). by rewrite decide_False.
    + apply (inj Some) in Hp. subst w'. eapply inv_set_task; [done|exact Ht|].
      intros k c Hc Ho (Hs & Hl & Hph). cbn [t_phase length t_senders] in *. destruct Hph as [Hlen Hact].
      assert (k <> k0) by congruence. split.
      * split; [|split]; cbn [t_senders t_phase]; [done|done|]. split; [lia|]. intros Hk. apply Hact. lia.
      * unfold to_send. cbn [t_phase t_next t_input]. rewrite (send_next k0 k). by rewrite decide_False.
  - destruct (n <=? k0) eqn:Enk.
    + apply Nat.leb_le in Enk. apply (inj Some) in Hp. subst w'. eapply inv_set_task; [done|exact Ht|].
      intros k c Hc Ho (Hs & Hl & Hph). cbn [t_phase t_senders] in *.
      assert (k < n). { rewrite <- Hl. by eapply lookup_lt_Some. }
      split; [done|]. unfold to_send. cbn [t_phase]. by rewrite (proj2 (Nat.leb_gt k0 k)) by lia.
    + apply Nat.leb_gt in Enk. destruct (senders !! k0) as [[]|] eqn:Es; cbn [default from_option id] in Hp.
      * destruct (chan_open w k0) eqn:Eo.
        -- destruct (push w i k0 Error) as [w1|] eqn:Epush; [|done]. cbn [mbind option_bind] in Hp.
           apply (inj Some) in Hp. subst w'. eapply inv_push; [done|exact Ht|exact Epush|].
           intros k c Hc Ho (Hs & Hl & Hph). cbn [t_phase] in Hph. split.
           ++ split_and!; [done|done|]. cbn [t_phase]. lia.
           ++ unfold to_send. cbn [t_phase]. apply fail_next.
        -- apply (inj Some) in Hp. subst w'. eapply inv_set_task; [done|exact Ht|].
           intros k c Hc Ho (Hs & Hl & Hph). cbn [t_phase t_senders] in *.
           assert (k <> k0). { intros ->. by rewrite (chan_open_some _ _ _ Hc Ho) in Eo. } split.
           ++ split; [|split]; cbn [t_senders t_phase]; [by rewrite list_lookup_insert_ne|by rewrite insert_length|lia].
           ++ unfold to_send. cbn [t_phase]. rewrite (fail_next k0 k). by rewrite decide_False.
      * apply (inj Some) in Hp. subst w'. eapply inv_set_task; [done|exact Ht|].
        intros k c Hc Ho (Hs & Hl & Hph). cbn [t_phase t_senders] in *.
        assert (k <> k0) by congruence. split.
        -- split; [|split]; cbn [t_senders t_phase]; [done|done|lia].
        -- unfold to_send. cbn [t_phase]. rewrite (fail_next k0 k). by rewrite decide_False.
      * apply (inj Some) in Hp. subst w'. eapply inv_set_task; [done|exact Ht|].
        intros k c Hc Ho (Hs & Hl & Hph). cbn [t_phase t_senders] in *.
        assert (k <> k0) by congruence. split.
        -- split; [|split]; cbn [t_senders t_phase]; [done|done|lia].
        -- unfold to_send. cbn [t_phase]. rewrite (fail_next k0 k). by rewrite decide_False.
Qed.

Lemma inv_set_chan n inputs w k c c' :
  inv n inputs w -> w_chans w !! k = Some c ->
  (c_open c' = true -> c_open c = true /\ c_got c' ++ c_queue c' = c_got c ++ c_queue c) -> inv n inputs (set_chan k c' w).
Proof.
  intros [H1 H2 H3] Hc Hok. split; cbn [set_chan w_chans w_tasks]; [by rewrite insert_length|done|].
  intros j d i t input Hd Ho Ht Hin. destruct (decide (k = j)) as [<-|Hne].
  - rewrite list_lookup_insert in Hd by (by eapply lookup_lt_Some). apply (inj Some) in Hd. subst d.
    destruct (Hok Ho) as [Ho' ->]. by eapply H3.
  - rewrite list_lookup_insert_ne in Hd by done. by eapply H3.
Qed.
Lemma inv_step n inputs w a w' : inv n inputs w -> step w a = Some w' -> inv n inputs w'.
Proof.
  intros Hinv. destruct a as [i|k|k]; cbn [step].
  - by apply inv_produce.
  - unfold receive. destruct (w_chans w !! k) as [c|] eqn:Hc; [|done]. cbn [mbind option_bind].
    destruct (c_queue c) as [|m q] eqn:Eq; [done|]. destruct (c_open c) eqn:Eo; [|done]. intros H.
    apply (inj Some) in H. subst w'. eapply inv_set_chan; [done|exact Hc|]. cbn. intros _. split; [done|].
    by rewrite <- app_assoc, Eq.
  - unfold close. destruct (w_chans w !! k) as [c|] eqn:Hc; [|done]. cbn [mbind option_bind].
    destruct (c_open c) eqn:Eo; [|done]. intros H. apply (inj Some) in H. subst w'.
    eapply inv_set_chan; [done|exact Hc|]. done.
Qed.
Lemma inv_run n inputs w l w' : inv n inputs w -> run w l = Some w' -> inv n inputs w'.
Proof.
  induction l as [|a l IH] in w |- *; cbn [run]; intros Hinv H; [by apply (inj Some) in H as <-|].
  destruct (step w a) as [w1|] eqn:Es; [|done]. cbn in H. eapply IH; [|done]. by eapply inv_step.
Qed.

(** ** What a reader is given *)
Theorem given_prefix cap n inputs l w i k input :
  run (start cap n inputs) l = Some w -> inputs !! i = Some input -> chan_open w k = true ->
  exists rest, given w i k ++ rest = messages n (first_output n i (length inputs)) input k.
Proof.
  intros Hr Hin Ho. pose proof (inv_run _ _ _ _ _ (inv_start cap n inputs) Hr) as Hinv.
  unfold chan_open in Ho. destruct (w_chans w !! k) as [c|] eqn:Hc; [|done]. cbn in Ho.
  destruct (lookup_lt_is_Some_2 (w_tasks w) i) as [t Ht].
  { rewrite (inv_tasks _ _ _ Hinv). by eapply lookup_lt_Some. }
  destruct (inv_ok _ _ _ Hinv k c i t input Hc Ho Ht Hin) as [_ Heq].
  rewrite from_input_app, <- app_assoc in Heq. unfold given. rewrite Hc. eexists. exact Heq.
Qed.
Theorem given_all cap n inputs l w i k input :
  run (start cap n inputs) l = Some w -> inputs !! i = Some input -> ended w k = true ->
  given w i k = messages n (first_output n i (length inputs)) input k.
Proof.
  intros Hr Hin He. pose proof (inv_run _ _ _ _ _ (inv_start cap n inputs) Hr) as Hinv.
  unfold ended in He. destruct (w_chans w !! k) as [c|] eqn:Hc; [|done].
  apply andb_true_iff in He as [He Hall]. apply andb_true_iff in He as [Ho Hq]. apply bool_decide_eq_true in Hq.
  apply nil_length_inv in Hq.
  destruct (lookup_lt_is_Some_2 (w_tasks w) i) as [t Ht].
  { rewrite (inv_tasks _ _ _ Hinv). by eapply lookup_lt_Some. }
  destruct (inv_ok _ _ _ Hinv k c i t input Hc Ho Ht Hin) as [(Hs & _ & _) Heq].
  rewrite Hq, app_nil_r in Heq. unfold given. rewrite Hc.
  rewrite forallb_forall in Hall. specialize (Hall t). rewrite <- elem_of_list_In in Hall.
  specialize (Hall ltac:(by eapply elem_of_list_lookup_2)). unfold has_sender in Hall. rewrite Hs in Hall.
  unfold to_send in Heq. destruct (t_phase t); [done|done|done|]. by rewrite app_nil_r in Heq.
Qed.
End invariant.
