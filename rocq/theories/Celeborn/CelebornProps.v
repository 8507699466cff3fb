(** The properties of the Celeborn shuffle. *)
From Coq Require Import Lia.
From stdpp Require Import prelude list gmap.
From Verif.Celeborn Require Import ShuffleModel ShuffleSpec ShuffleProofs ShuffleReadable.

(** Two mappers and two partitions.  Both clients register; mapper 0 writes 10 to partition 0 and 11
    to partition 1, mapper 1 writes 20 to partition 0, whose place fails and is replaced; all pushes
    are answered, the mappers end, the files are closed. *)
Definition example_write : list op :=
  [AskRegister 0 true; AskRegister 1 true; ReplyArrives 0; ReplyArrives 1;
   StartPush 0 0 0 0 10; StartPush 0 1 0 0 11; StartPush 1 0 1 0 20;
   Answer 2 true AOk; Answer 4 false AFailure; Answer 3 true AOk; AskRevive 4; ReviveDone 0 true;
   Answer 4 true AOk; PushCompletes 2; PushCompletes 3; PushCompletes 4;
   MapperEnd 0 0; MapperEnd 1 0; CloseFile (0, 0); CloseFile (1, 0); CloseFile (0, 1); CommitDone true].
Definition example_state : state := run 2 (init 2) example_write.

(** C67: a read that is asked for after the shuffle is committed returns every batch that the
    winning attempts wrote to the partition, whatever happens at the same time and whatever places
    were replaced. *)
Theorem C67_no_batch_lost : forall channels mappers c p ops1 ops2 st1 st2 st3 fs f,
  run channels (init mappers) ops1 = st1 ->
  is_committed st1 ->
  (step channels st1 (AskRead c p)).2 = None' ->
  run channels (step channels st1 (AskRead c p)).1 ops2 = st2 ->
  step channels st2 (ReplyArrives (next st1)) = (st3, Batches fs) ->
  f ∈ written p st1 -> won st1 f -> f ∈ fs.
Proof.
  intros channels mappers c p ops1 ops2 st1 st2 st3 fs f <- Hc Hask <- Hread.
  destruct (step channels (run channels (init mappers) ops1) (AskRead c p)) as [st1' o1] eqn:E.
  cbn [fst snd] in *. subst o1. by eapply read_complete.
Qed.
Print Assumptions C67_no_batch_lost.

(** C67: what is read was pushed to that partition, and comes from a file that was closed by the
    commit. *)
Theorem C67_right_partition : forall channels mappers c p ops1 ops2 st1 st2 st3 fs f,
  run channels (init mappers) ops1 = st1 ->
  (step channels st1 (AskRead c p)).2 = None' ->
  run channels (step channels st1 (AskRead c p)).1 ops2 = st2 ->
  step channels st2 (ReplyArrives (next st1)) = (st3, Batches fs) ->
  f ∈ fs -> f_part f = p /\ exists l, (l, f) ∈ stored st2 /\ l ∈ closed st2.
Proof.
  intros channels mappers c p ops1 ops2 st1 st2 st3 fs f <- Hask <- Hread.
  destruct (step channels (run channels (init mappers) ops1) (AskRead c p)) as [st1' o1] eqn:E.
  cbn [fst snd] in *. subst o1. by eapply read_sound.
Qed.
Print Assumptions C67_right_partition.

(** C67: if no failed push has stored its batch, the batches of the winning attempts are returned
    exactly once.  Missing: batches of the other attempts are returned too, and a batch is returned
    twice if a push that timed out was stored ([C67_losers_refuted], [C67_timeout_refuted]). *)
Theorem C67_winners_once_partial : forall channels mappers c p ops1 ops2 st1 st2 st3 fs,
  run channels (init mappers) ops1 = st1 ->
  is_committed st1 ->
  (step channels st1 (AskRead c p)).2 = None' ->
  run channels (step channels st1 (AskRead c p)).1 ops2 = st2 ->
  step channels st2 (ReplyArrives (next st1)) = (st3, Batches fs) ->
  Forall honest (ops1 ++ ops2) ->
  filter (won st2) fs ≡ₚ filter (won st2) (written p st2) /\
  ((forall l f, (l, f) ∈ stored st2 -> won st2 f) -> fs ≡ₚ filter (won st2) (written p st2)).
Proof.
  intros channels mappers c p ops1 ops2 st1 st2 st3 fs E1 Hc Hask E2 Hread Hh.
  assert (Hex : filter (won st2) fs ≡ₚ filter (won st2) (written p st2)).
  { subst st1 st2.
    destruct (step channels (run channels (init mappers) ops1) (AskRead c p)) as [st1' o1] eqn:E.
    cbn [fst snd] in *. subst o1. eapply read_exact; try done.
    apply Forall_app in Hh as [Hh1 Hh2]. apply Forall_app. split; [done|].
    apply Forall_cons. done. }
  split; [done|]. intros Hall. rewrite <- Hex. replace (filter (won st2) fs) with fs; [done|].
  assert (H : forall f, f ∈ fs -> won st2 f).
  { intros f Hf.
    destruct (C67_right_partition channels mappers c p ops1 ops2 st1 st2 st3 fs f) as (_ & l & Hl & _); eauto. }
  clear -H. induction fs as [|f fs IH]; [done|].
  rewrite filter_cons_True by apply H, elem_of_list_here. f_equal. apply IH.
  intros g Hg. apply H. by apply elem_of_list_further.
Qed.
Print Assumptions C67_winners_once_partial.

Definition datas (o : out) : option (list nat) :=
  match o with Batches fs => Some (map f_data fs) | _ => None end.
Example C67_read_example :
  is_committed example_state /\ Forall honest example_write /\
  (step 2 example_state (AskRead 0 0)).2 = None' /\
  datas (step 2 (step 2 example_state (AskRead 0 0)).1 (ReplyArrives (next example_state))).2 = Some [10; 20] /\
  map f_data (filter (won example_state) (written 0 example_state)) = [10; 20].
Proof.
  split_and!.
  - exists [(0, 0); (1, 0); (0, 1)]. by vm_compute.
  - repeat constructor.
  - by vm_compute.
  - by vm_compute.
  - by vm_compute.
Qed.

(** C67: if of every mapper one attempt ends, and all get the answer that they succeeded, the shuffle
    is committed.  Missing: several attempts of a mapper ([C67_failed_commit_refuted]). *)
Theorem C67_committed_partial : forall channels mappers ops,
  0 < mappers ->
  one_end_per_mapper (run channels (init mappers) ops) ->
  all_ended (run channels (init mappers) ops) ->
  is_committed (run channels (init mappers) ops).
Proof.
  intros channels mappers ops Hm. apply ended_committed, ended_run; [apply inv_init|by apply ended_init].
Qed.
Print Assumptions C67_committed_partial.
Example C67_committed_example :
  one_end_per_mapper example_state /\ all_ended example_state.
Proof.
  split.
  - apply (bool_decide_unpack _). by vm_compute.
  - intros m Hm. exists 0. assert (Hm' : m = 0 \/ m = 1).
    { assert (E : length (attempts example_state) = 2) by by vm_compute. lia. }
    destruct Hm' as [->| ->]; apply (bool_decide_unpack _); by vm_compute.
Qed.

(** C67: a shuffle is committed at most once, a committed shuffle stays committed with the same
    places, and what is stored stays stored; a shuffle whose commit has failed is never committed. *)
Theorem C67_commit_is_final : forall channels mappers ops1 ops2 ls,
  (com (run channels (init mappers) ops1) = Committed ls ->
   com (run channels (run channels (init mappers) ops1) ops2) = Committed ls) /\
  (com (run channels (init mappers) ops1) = CommitFailed ls ->
   com (run channels (run channels (init mappers) ops1) ops2) = CommitFailed ls) /\
  (forall x, x ∈ stored (run channels (init mappers) ops1) ->
             x ∈ stored (run channels (run channels (init mappers) ops1) ops2)).
Proof.
  intros channels mappers ops1 ops2 ls.
  pose proof (keeps_run channels ops2 _ (inv_run channels ops1 _ (inv_init mappers))) as K.
  split_and!; [apply (k_committed _ _ K)|apply (k_failed _ _ K)|apply (g_stored _ _ (k_grows _ _ K))].
Qed.
Print Assumptions C67_commit_is_final.

(** C67 is false for attempts that failed: a first attempt writes 7 and then fails, the second one
    writes 7 and wins; the reader gets 7 twice. *)
Definition loser_ops : list op :=
  [AskRegister 0 true; ReplyArrives 0; StartPush 0 0 0 0 7; Answer 1 true AOk; PushCompletes 1;
   StartPush 0 0 0 1 7; Answer 2 true AOk; PushCompletes 2; MapperEnd 0 1; CloseFile (0, 0); CommitDone true].
Theorem C67_losers_refuted : exists channels mappers c p ops st fs,
  run channels (init mappers) ops = st /\ is_committed st /\ Forall honest ops /\
  (step channels (step channels st (AskRead c p)).1 (ReplyArrives (next st))).2 = Batches fs /\
  map f_data (filter (won st) (written p st)) = [7] /\ map f_data fs = [7; 7].
Proof.
  exists 1, 1, 0, 0, loser_ops, (run 1 (init 1) loser_ops), [Frame 1 0 0 0 0 7; Frame 2 0 0 1 0 7].
  split_and!; try (by vm_compute).
  - exists [(0, 0)]. by vm_compute.
  - repeat constructor.
Qed.
Print Assumptions C67_losers_refuted.

(** C67 is false if a push that timed out was stored: there is one attempt, it writes 7 once, and the
    reader gets 7 twice. *)
Definition timeout_ops : list op :=
  [AskRegister 0 true; ReplyArrives 0; StartPush 0 0 0 0 7; Answer 1 true AFailure; AskRevive 1;
   ReviveDone 0 true; Answer 1 true AOk; PushCompletes 1; MapperEnd 0 0; CloseFile (0, 0);
   CloseFile (0, 1); CommitDone true].
Theorem C67_timeout_refuted : exists channels mappers c p ops st fs,
  run channels (init mappers) ops = st /\ is_committed st /\
  (forall l f, (l, f) ∈ stored st -> won st f) /\
  (step channels (step channels st (AskRead c p)).1 (ReplyArrives (next st))).2 = Batches fs /\
  map f_data (written p st) = [7] /\ map f_data fs = [7; 7].
Proof.
  exists 1, 1, 0, 0, timeout_ops, (run 1 (init 1) timeout_ops), [Frame 1 0 0 0 0 7; Frame 1 0 0 0 0 7].
  split_and!; try (by vm_compute).
  - exists [(0, 0); (0, 1)]. by vm_compute.
  - intros l f H.
    assert (Hs : stored (run 1 (init 1) timeout_ops) =
                 [((0, 0), Frame 1 0 0 0 0 7); ((0, 1), Frame 1 0 0 0 0 7)]) by by vm_compute.
    rewrite Hs in H. apply elem_of_cons in H as [H|H].
    + injection H as -> ->. by vm_compute.
    + apply elem_of_list_singleton in H. injection H as -> ->. by vm_compute.
Qed.
Print Assumptions C67_timeout_refuted.

(** C67 is false if the commit failed: the attempt whose end began the commit is told that it failed;
    the next attempt of the same mapper is told that it succeeded, although nothing is committed and
    nothing can be read. *)
Definition failed_commit_ops : list op :=
  [AskRegister 0 true; ReplyArrives 0; StartPush 0 0 0 0 7; Answer 1 true AOk; PushCompletes 1;
   MapperEnd 0 0; CommitDone false; StartPush 0 0 0 1 7; Answer 2 true AOk; PushCompletes 2].
Theorem C67_failed_commit_refuted : exists channels mappers ops st,
  run channels (init mappers) ops = st /\
  (step channels st (MapperEnd 0 1)).2 = Ok' /\
  all_ended (step channels st (MapperEnd 0 1)).1 /\
  (forall ops', ~ is_committed (run channels (step channels st (MapperEnd 0 1)).1 ops')).
Proof.
  exists 1, 1, failed_commit_ops, (run 1 (init 1) failed_commit_ops). split_and!; try (by vm_compute).
  - intros m Hm. exists 1.
    assert (E : length (attempts (step 1 (run 1 (init 1) failed_commit_ops) (MapperEnd 0 1)).1) = 1) by by vm_compute.
    assert (m = 0) as -> by lia. apply (bool_decide_unpack _). by vm_compute.
  - intros ops' [ls Hc].
    pose proof (inv_run 1 failed_commit_ops _ (inv_init 1)) as HI.
    pose proof (inv_step 1 _ (MapperEnd 0 1) HI) as HI'.
    pose proof (k_failed _ _ (keeps_run 1 ops' _ HI') [(0, 0)]) as K.
    rewrite K in Hc; [done|]. by vm_compute.
Qed.
Print Assumptions C67_failed_commit_refuted.

(** C67: if no replacement of a place is under way when the commit begins, the shuffle can be read
    once it is committed: whatever happens in between, no read fails. *)
Theorem C67_readable_partial : forall channels mappers ops1 m a ops2 st1 st2 ls w,
  run channels (init mappers) ops1 = st1 ->
  com st1 = NotYet -> revives st1 = ∅ ->
  com (step channels st1 (MapperEnd m a)).1 = Committing ls w ->
  run channels (step channels st1 (MapperEnd m a)).1 ops2 = st2 ->
  is_committed st2 ->
  (forall i, (step channels st2 (ReplyArrives i)).2 <> Err') /\
  forall c p, (step channels st2 (AskRead c p)).2 = None' ->
    exists fs, (step channels (step channels st2 (AskRead c p)).1 (ReplyArrives (next st2))).2 = Batches fs.
Proof.
  intros channels mappers ops1 m a ops2 st1 st2 ls w <- Hc Hr Hb <- Hd.
  pose proof (inv_run channels ops1 _ (inv_init mappers)) as HI1.
  pose proof (settled_begins channels _ m a ls w Hc Hr Hb) as Hs.
  pose proof (inv_step channels _ (MapperEnd m a) HI1) as HI2.
  pose proof (inv_run channels ops2 _ HI2) as HI3.
  pose proof (settled_run channels ls ops2 _ HI2 Hs) as Hs3.
  set (st2 := run channels (step channels _ _).1 ops2) in *. split.
  - intros i. pose proof (reply_read ls st2 i HI3 Hs3 Hd) as H. cbn [step].
    destruct (replies st2 !! i) as [r|]; [|by rewrite H].
    destruct (s_read r); [destruct H as [fs ->]; done|by rewrite H].
  - intros c p Ha.
    pose proof (inv_step channels st2 (AskRead c p) HI3) as HI4.
    pose proof (settled_step channels ls st2 (AskRead c p) HI3 Hs3) as Hs4.
    cbn [step] in *. unfold ask_read in *. destruct (decide _) as [He|]; [|done]. cbn [fst snd] in *.
    pose proof (reply_read ls _ (next st2) HI4 Hs4 Hd) as H. cbn [replies with_replies with_next] in H.
    rewrite lookup_insert in H. cbn [s_read] in H. exact H.
Qed.
Print Assumptions C67_readable_partial.

(** C67 is false if a replacement is under way: the push of an attempt that has failed waits for a
    new place while the next attempt ends; the place is added to the shuffle after the commit, and
    from then on the partition cannot be read. *)
Definition late_place_ops : list op :=
  [AskRegister 0 true; ReplyArrives 0; StartPush 0 0 0 0 7; Answer 1 false AFailure; AskRevive 1;
   StartPush 0 0 0 1 7; Answer 2 true AOk; PushCompletes 2; MapperEnd 0 1; CloseFile (0, 0); CommitDone true;
   ReviveDone 0 true].
Theorem C67_late_place_refuted : exists channels mappers c p ops st,
  run channels (init mappers) ops = st /\ is_committed st /\ Forall honest ops /\
  map f_data (filter (won st) (written p st)) = [7] /\
  (step channels st (AskRead c p)).2 = None' /\
  forall ops2, let st2 := run channels (step channels st (AskRead c p)).1 ops2 in
    forall fs, (step channels st2 (ReplyArrives (next st))).2 <> Batches fs.
Proof.
  exists 1, 1, 0, 0, late_place_ops, (run 1 (init 1) late_place_ops).
  split; [done|]. split; [exists [(0, 0)]; by vm_compute|]. split; [repeat constructor|].
  split; [by vm_compute|]. split; [by vm_compute|].
  - intros ops2 st2 fs Hb.
    set (st1 := run 1 (init 1) late_place_ops) in *.
    destruct (step 1 st2 (ReplyArrives (next st1))) as [st3 o] eqn:E. cbn [snd] in Hb. subst o.
    destruct (step 1 st1 (AskRead 0 0)) as [st1' o1] eqn:E1.
    assert (o1 = None') as -> by (pose proof (f_equal snd E1) as E2; vm_compute in E2; done).
    destruct (read_facts 1 1 0 0 late_place_ops ops2 st1' E1 st3 fs E) as (H1 & H2 & K & k & _ & Hk & _ & Hcl & _).
    fold st1 in H1, K, Hk.
    assert ((0, 1) ∈ c_history k) as Hh by (apply Hk; [apply (bool_decide_unpack _); by vm_compute|done]).
    apply Hcl in Hh; [|done]. apply (i_closed _ H2) in Hh.
    assert (com st1 = Committed [(0, 0)]) as Hc1 by by vm_compute.
    rewrite (k_committed _ _ K _ Hc1) in Hh. cbn in Hh.
    apply elem_of_list_singleton in Hh. done.
Qed.
Print Assumptions C67_late_place_refuted.
Example C67_readable_example :
  let st1 := run 2 (init 2) (take (length example_write - 5) example_write) in
  com st1 = NotYet /\ revives st1 = ∅ /\
  (exists ls w, com (step 2 st1 (MapperEnd 1 0)).1 = Committing ls w) /\
  is_committed (run 2 (step 2 st1 (MapperEnd 1 0)).1 (drop (length example_write - 4) example_write)).
Proof.
  cbn zeta. split; [by vm_compute|]. split; [apply (bool_decide_unpack _); by vm_compute|].
  split; [eexists _, _; by vm_compute|eexists; by vm_compute].
Qed.

(** C67: the batches of an attempt carry different numbers, so that a batch that was stored twice
    could be told from two batches: frames of an attempt that have the same number are the same
    push. *)
Theorem C67_batch_numbers : forall channels mappers c m a ops l1 l2 f1 f2,
  Forall (through c m a) ops ->
  (l1, f1) ∈ stored (run channels (init mappers) ops) ->
  (l2, f2) ∈ stored (run channels (init mappers) ops) ->
  (f_map f1, f_attempt f1) = (m, a) -> (f_map f2, f_attempt f2) = (m, a) -> f_batch f1 = f_batch f2 ->
  f1 = f2.
Proof.
  intros channels mappers c m a ops l1 l2 f1 f2 Ht H1 H2.
  destruct (numbered_run channels c m a ops _ Ht (numbered_init c m a mappers)) as [_ Hu].
  apply Hu; right; left; by eexists.
Qed.
Print Assumptions C67_batch_numbers.
Example C67_batch_numbers_example :
  Forall (through 0 0 0) timeout_ops /\
  map (fun x => (x.1, f_batch x.2)) (stored (run 1 (init 1) timeout_ops)) = [((0, 0), 0); ((0, 1), 0)].
Proof. split; [repeat constructor|by vm_compute]. Qed.
