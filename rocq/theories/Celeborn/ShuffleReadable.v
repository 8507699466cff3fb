(** When a committed shuffle can be read, and how batches are numbered. *)
From Coq Require Import Lia.
From stdpp Require Import prelude list gmap.
From Verif.Celeborn Require Import ShuffleModel ShuffleSpec ShuffleProofs.

(** ** No place is added once the commit has begun *)
Definition settled (ls : list loc) (st : state) : Prop :=
  match com st with
  | NotYet => False
  | CommitFailed _ => True
  | Committing l _ | Committed l => l = ls /\ known st = ls /\ revives st = ∅ /\ registered st = true
  end.

Lemma settled_same ls a b :
  com b = com a -> known b = known a -> revives b = revives a -> registered b = registered a ->
  settled ls a -> settled ls b.
Proof. unfold settled. by intros -> -> -> ->. Qed.
Lemma settled_failed ls a b l : com a = CommitFailed l -> com b = com a -> settled ls b.
Proof. unfold settled. by intros -> ->. Qed.

Lemma settled_step channels ls st o : inv st -> settled ls st -> settled ls (step channels st o).1.
Proof.
  intros HI Hs. destruct o as [c ok|c p|i|c p m a d|i s ans|i|p ok|i|m a|l|ok]; cbn [step].
  - unfold ask_register. destruct (registered st) eqn:Hr; [by eapply settled_same; [..|exact Hs]|].
    destruct (com st) as [| |l|] eqn:Hc; unfold settled in Hs; rewrite Hc in Hs; [done| | |];
      try (destruct Hs as (_ & _ & _ & Hs); congruence).
    destruct ok; unfold settled; cbn; by rewrite Hc.
  - unfold ask_read. destruct (decide _); [|done]. by eapply settled_same; [..|exact Hs].
  - unfold reply_arrives. destruct (replies st !! i) as [r|]; [|done].
    destruct (s_read r); [|by eapply settled_same; [..|exact Hs]].
    destruct (read_partition _ _ _); by eapply settled_same; [..|exact Hs].
  - unfold start_push. destruct (decide _); [done|].
    destruct (c_latest _ !! p); by eapply settled_same; [..|exact Hs].
  - unfold receive_answer. destruct (pushes st !! i) as [x|]; [|done].
    destruct (p_phase x); try done; (destruct (may_answer _ _ _ _); [|done]);
      destruct s; by eapply settled_same; [..|exact Hs].
  - unfold ask_revive. destruct (pushes st !! i) as [x|]; [|done].
    destruct (p_phase x); try done.
    destruct (com st) as [| |l'|] eqn:Hc;
      [unfold settled in Hs; by rewrite Hc in Hs|by eapply settled_same; [..|exact Hs]| |by eapply settled_same; [..|exact Hs]].
    apply (settled_failed ls st _ l' Hc).
    destruct (current st !! l.1); [|done]. destruct (decide _); [done|]. by destruct (decide _).
  - unfold revive_done.
    destruct (com st) as [| |l'|] eqn:Hc; pose proof Hs as Hs'; unfold settled in Hs'; rewrite Hc in Hs'.
    + done.
    + destruct Hs' as (_ & _ & -> & _). by rewrite lookup_empty.
    + apply (settled_failed ls st _ l' Hc).
      destruct (revives st !! p); [|done]. destruct (current st !! p); [|done]. by destruct ok.
    + destruct Hs' as (_ & _ & -> & _). by rewrite lookup_empty.
  - unfold push_completes. destruct (pushes st !! i) as [x|]; [|done].
    destruct (p_phase x) as [| | | |l b]; try done.
    destruct l, b; by eapply settled_same; [..|exact Hs].
  - unfold mapper_end. destruct (negb _); [done|].
    destruct (decide _) as [|Hm]; [by eapply settled_same; [..|exact Hs]|].
    destruct (attempts st !! m) as [[a'|]|] eqn:Ha.
    + destruct (com st) eqn:Hc; try (by eapply settled_same; [..|exact Hs]);
        (destruct (registered st); by eapply settled_same; [..|exact Hs]).
    + exfalso. apply (i_com _ HI); [|by apply elem_of_list_lookup_2 in Ha].
      intros Hc. unfold settled in Hs. by rewrite Hc in Hs.
    + apply lookup_ge_None in Ha. lia.
  - unfold close_file. destruct (com st) eqn:Hc; try done.
    destruct (decide _); [|done]. eapply settled_same; [..|exact Hs]; done.
  - unfold commit_done. destruct (com st) eqn:Hc; try done.
    unfold settled in Hs. rewrite Hc in Hs.
    destruct ok; [destruct (decide _)|]; unfold settled; cbn; rewrite ?Hc; done.
Qed.
Lemma settled_run channels ls ops : forall st, inv st -> settled ls st -> settled ls (run channels st ops).
Proof.
  induction ops as [|o ops IH]; intros st HI Hs; [done|]. cbn [run].
  apply IH; [by apply inv_step|by apply settled_step].
Qed.
Lemma settled_begins channels st m a ls w :
  com st = NotYet -> revives st = ∅ -> com (step channels st (MapperEnd m a)).1 = Committing ls w ->
  settled ls (step channels st (MapperEnd m a)).1.
Proof.
  intros Hc Hr. cbn [step]. unfold mapper_end. destruct (negb _); [cbn [fst]; congruence|].
  destruct (decide _) as [|Hm]; [cbn; congruence|]. rewrite Hc.
  destruct (registered st) eqn:Hg; [|cbn; congruence].
  destruct (attempts st !! m) as [[a'|]|] eqn:Ha; [cbn; congruence| |];
    (destruct (decide _); cbn; [congruence|]; intros [= <- <-]; unfold settled; cbn; by rewrite Hr, Hg).
Qed.

(** All places that can be read are closed. *)
Lemma settled_closed ls st l : inv st -> settled ls st -> is_committed st -> l ∈ known st -> l ∈ closed st.
Proof.
  intros HI Hs [ls' Hc] Hl. unfold settled in Hs. rewrite Hc in Hs. destruct Hs as (-> & Hk & _).
  apply (i_committed _ HI _ Hc). by rewrite <- Hk.
Qed.
Lemma read_partition_some st k p :
  (forall l, l ∈ c_history k -> l ∈ closed st) -> is_Some (read_partition st k p).
Proof.
  intros H. unfold read_partition. destruct (mapM (read_place st) (filter _ (c_history k))) as [x|] eqn:E; [by eexists|].
  exfalso. apply mapM_None, Exists_exists in E as (l & Hl & E). apply elem_of_list_filter in Hl as [_ Hl].
  unfold read_place in E. rewrite decide_True in E by by apply H. done.
Qed.
Lemma reply_read ls st i :
  inv st -> settled ls st -> is_committed st ->
  match replies st !! i with
  | None => (reply_arrives st i).2 = None'
  | Some r => match s_read r with None => (reply_arrives st i).2 = Ok' | Some _ => exists fs, (reply_arrives st i).2 = Batches fs end
  end.
Proof.
  intros HI Hs Hc. pose proof (inv_reply_arrives st i HI) as HI'. unfold reply_arrives in *.
  destruct (replies st !! i) as [r|]; [|done].
  destruct (s_read r) as [p|]; [|done].
  set (st2 := update_client _ _ _) in *.
  assert (inv st2) as HI2 by by destruct (read_partition st2 (client_of st2 (s_client r)) p).
  destruct (read_partition_some st2 (client_of st2 (s_client r)) p) as [fs Hfs].
  - intros l Hl. apply (settled_closed ls st2); [done|done|done|].
    by apply (co_known st2 (client_of st2 (s_client r)) (client_ok_of _ _ HI2)).
  - rewrite Hfs. by exists fs.
Qed.

(** ** The numbers of batches *)
Definition is_frame (st : state) (f : frame) : Prop :=
  f ∈ acked st \/ is_stored st f \/ exists i x, pushes st !! i = Some x /\ p_frame x = f.
Definition batch_count (st : state) (c m a : nat) : nat := default 0 (c_batch (client_of st c) !! (m, a)).

Lemma c_batch_update k l : c_batch (update_location k l) = c_batch k.
Proof. done. Qed.
Lemma c_batch_fold ls : forall k, c_batch (fold_left update_location ls k) = c_batch k.
Proof. induction ls as [|l ls IH]; intros k; [done|]. cbn [fold_left]. by rewrite IH. Qed.
Lemma client_of_update st c ls d : c_batch (client_of (update_client st c ls) d) = c_batch (client_of st d).
Proof.
  unfold client_of at 1, update_client. cbn [clients with_clients].
  destruct (decide (c = d)) as [->|Hn].
  - rewrite lookup_insert. cbn [default]. apply c_batch_fold.
  - by rewrite lookup_insert_ne.
Qed.

(** What a step does to them. *)
Definition new_frame (st : state) (o : op) (f : frame) : Prop :=
  exists c p m a d, o = StartPush c p m a d /\ f = Frame (next st) p m a (batch_count st c m a) d.
Lemma is_frame_set_phase st i x ph f :
  pushes st !! i = Some x -> is_frame (set_phase st i x ph) f -> is_frame st f.
Proof.
  intros Hx [H|[H|(j & y & Hy & <-)]]; [by left|right; by left|].
  right. right. cbn in Hy. apply lookup_insert_Some in Hy as [[<- <-]|[_ Hy]]; eauto.
Qed.
Lemma is_frame_same a b f :
  acked b = acked a -> stored b = stored a -> pushes b = pushes a -> is_frame b f -> is_frame a f.
Proof. unfold is_frame, is_stored. by intros -> -> ->. Qed.
Lemma is_frame_store st l x i f :
  pushes st !! i = Some x -> is_frame (with_stored st (stored st ++ [(l, p_frame x)])) f -> is_frame st f.
Proof.
  intros Hx [H|[[l' H]|H]]; [by left| |by right; right].
  cbn in H. apply elem_of_app in H as [H|H]; [right; left; by exists l'|].
  apply elem_of_list_singleton in H as [= -> ->]. right. right. eauto.
Qed.

Lemma is_frame_step channels st o f :
  is_frame (step channels st o).1 f -> is_frame st f \/ new_frame st o f.
Proof.
  destruct o as [c ok|c p|i|c p m a d|i s ans|i|p ok|i|m a|l|ok]; cbn [step].
  - unfold ask_register. destruct (registered st); [|destruct ok]; intros H; left; by eapply is_frame_same; [..|exact H].
  - unfold ask_read. destruct (decide _); intros H; left; by eapply is_frame_same; [..|exact H].
  - unfold reply_arrives. destruct (replies st !! i) as [r|]; [|by left].
    destruct (s_read r); [|intros H; left; by eapply is_frame_same; [..|exact H]].
    destruct (read_partition _ _ _); intros H; left; by eapply is_frame_same; [..|exact H].
  - unfold start_push. destruct (decide _); [by left|].
    destruct (c_latest _ !! p); [|intros H; left; by eapply is_frame_same; [..|exact H]].
    intros [H|[H|(j & y & Hy & <-)]]; [left; by left|left; right; by left|].
    cbn in Hy. apply lookup_insert_Some in Hy as [[<- <-]|[_ Hy]].
    + right. by exists c, p, m, a, d.
    + left. right. right. eauto.
  - unfold receive_answer. destruct (pushes st !! i) as [x|] eqn:Hx; [|by left].
    assert (forall l ph, is_frame (set_phase (if s then with_stored st (stored st ++ [(l, p_frame x)]) else st) i x ph) f ->
              is_frame st f) as Hgen.
    { intros l ph H. destruct s.
      - apply is_frame_set_phase in H; [|done]. by eapply is_frame_store.
      - by eapply is_frame_set_phase. }
    destruct (p_phase x); try (by left);
      (destruct (may_answer _ _ _ _); [|by left]); intros H; left; by eapply Hgen.
  - unfold ask_revive. destruct (pushes st !! i) as [x|] eqn:Hx; [|by left].
    destruct (p_phase x) as [|l b| | |]; try (by left). intros H. left. revert H.
    destruct (com st); try (by apply is_frame_set_phase);
      (destruct (current st !! l.1); [|by apply is_frame_set_phase];
       destruct (decide _); [by apply is_frame_set_phase|];
       destruct (decide _); [|by apply is_frame_set_phase]; intros H;
       eapply is_frame_set_phase; [exact Hx|]; by eapply is_frame_same; [..|exact H]).
  - unfold revive_done. destruct (revives st !! p) as [ws|]; [|by left].
    destruct (current st !! p); [|by left]. intros H. left. destruct H as [H|[H|(j & y & Hy & <-)]].
    + left. by destruct ok.
    + right. left. by destruct ok.
    + cbn in Hy. apply lookup_wake in Hy as (y' & Hy' & Hor).
      right. right. exists j, y'. split; [by destruct ok|]. destruct Hor as [->|[_ ->]]; [done|]. by rewrite wake_frame.
  - unfold push_completes. destruct (pushes st !! i) as [x|] eqn:Hx; [|by left].
    destruct (p_phase x) as [| | | |l b]; try (by left). intros H. left.
    destruct H as [H|[H|(j & y & Hy & <-)]].
    + destruct b; [|left; by destruct l]. cbn in H. apply elem_of_app in H as [H|H]; [left; by destruct l|].
      apply elem_of_list_singleton in H as ->. right. right. eauto.
    + right. left. by destruct b, l.
    + right. right. exists j, y. split; [|done].
      assert (delete i (pushes st) !! j = Some y) as H by by destruct b, l. by apply lookup_delete_Some in H as [_ H].
  - unfold mapper_end. destruct (negb _); [by left|].
    destruct (decide _) as [|Hm]; [intros H; left; by eapply is_frame_same; [..|exact H]|]. intros H. left. revert H.
    destruct (com st); try (intros H; by eapply is_frame_same; [..|exact H]);
      (destruct (registered st); [|intros H; by eapply is_frame_same; [..|exact H]];
       destruct (attempts st !! m) as [[a'|]|]; [intros H; by eapply is_frame_same; [..|exact H]| |];
       cbv zeta; destruct (decide _); intros H; by eapply is_frame_same; [..|exact H]).
  - unfold close_file. destruct (com st); try (by left). destruct (decide _); [|by left].
    intros H. left. by eapply is_frame_same; [..|exact H].
  - unfold commit_done. destruct (com st); try (by left). destruct ok; [destruct (decide _); [|by left]|];
      intros H; left; by eapply is_frame_same; [..|exact H].
Qed.

Lemma batch_step channels st o c m a :
  batch_count (step channels st o).1 c m a = batch_count st c m a \/
  batch_count (step channels st o).1 c m a = S (batch_count st c m a) /\ exists p d, o = StartPush c p m a d.
Proof.
  assert (forall st', clients st' = clients st -> batch_count st' c m a = batch_count st c m a) as Hsame.
  { intros st' H. unfold batch_count, client_of. by rewrite H. }
  assert (forall st' k ls, clients st' = clients st ->
            batch_count (update_client st' k ls) c m a = batch_count st c m a) as Hupd.
  { intros st' k ls H. unfold batch_count. rewrite client_of_update. by apply Hsame. }
  destruct o as [k ok|k p|i|k p m' a' d|i s ans|i|p ok|i|m' a'|l|ok]; cbn [step].
  - left. apply Hsame. unfold ask_register. by destruct (registered st); [|destruct ok].
  - left. apply Hsame. unfold ask_read. by destruct (decide _).
  - left. unfold reply_arrives. destruct (replies st !! i) as [r|]; [|done].
    destruct (s_read r); [|by apply Hupd].
    destruct (read_partition _ _ _); by apply Hupd.
  - unfold start_push. destruct (decide _); [by left|].
    destruct (c_latest _ !! p); [|left; by apply Hsame]. cbn [fst].
    destruct (decide (k = c)) as [->|Hk].
    + destruct (decide ((m', a') = (m, a))) as [[= -> ->]|Hma].
      * right. split; [|eauto]. unfold batch_count, client_of at 1. cbn [clients with_clients with_pushes with_next].
        rewrite lookup_insert. cbn [from_option c_batch id]. by rewrite lookup_insert.
      * left. unfold batch_count, client_of at 1. cbn [clients with_clients with_pushes with_next].
        rewrite lookup_insert. cbn [from_option c_batch id]. by rewrite lookup_insert_ne.
    + left. unfold batch_count, client_of at 1. cbn [clients with_clients with_pushes with_next].
      by rewrite lookup_insert_ne.
  - left. apply Hsame. unfold receive_answer. destruct (pushes st !! i) as [x|]; [|done].
    destruct (p_phase x); try done; (destruct (may_answer _ _ _ _); [|done]); by destruct s.
  - left. apply Hsame. unfold ask_revive. destruct (pushes st !! i) as [x|]; [|done].
    destruct (p_phase x) as [|l b| | |]; try done.
    destruct (com st); try done; (destruct (current st !! l.1); [|done];
       destruct (decide _); [done|]; by destruct (decide _)).
  - left. apply Hsame. unfold revive_done. destruct (revives st !! p) as [ws|]; [|done].
    destruct (current st !! p); [|done]. by destruct ok.
  - left. unfold push_completes. destruct (pushes st !! i) as [x|] eqn:Hx; [|done].
    destruct (p_phase x) as [| | | |l b]; try done. destruct l as [l|], b; try (by apply Hsame).
    + change (batch_count (update_client (with_pushes st (delete i (pushes st))) (p_client x) [l]) c m a =
              batch_count st c m a). by apply Hupd.
    + change (batch_count (update_client (with_pushes st (delete i (pushes st))) (p_client x) [l]) c m a =
              batch_count st c m a). by apply Hupd.
  - left. apply Hsame. unfold mapper_end. destruct (negb _); [done|]. destruct (decide _) as [|Hm]; [done|].
    destruct (com st); try done;
      (destruct (registered st); [|done]; destruct (attempts st !! m') as [[?|]|]; [done| |]; cbv zeta;
       by destruct (decide _)).
  - left. apply Hsame. unfold close_file. destruct (com st); try done. by destruct (decide _).
  - left. apply Hsame. unfold commit_done. destruct (com st); try done. destruct ok; [|done]. by destruct (decide _).
Qed.

Record numbered (c m a : nat) (st : state) : Prop := Numbered {
  n_below : forall f, is_frame st f -> attempt_of f = (m, a) -> f_batch f < batch_count st c m a;
  n_unique : forall f g, is_frame st f -> is_frame st g -> attempt_of f = (m, a) -> attempt_of g = (m, a) ->
    f_batch f = f_batch g -> f = g;
}.
Lemma is_frame_init n f : ~ is_frame (init n) f.
Proof.
  intros [H|[[l H]|(i & x & H & _)]]; cbn in H; [by apply elem_of_nil in H|by apply elem_of_nil in H|].
  by rewrite lookup_empty in H.
Qed.
Lemma numbered_init c m a n : numbered c m a (init n).
Proof. split; intros f; [|intros g]; intros H; by apply is_frame_init in H. Qed.
Lemma numbered_step channels c m a st o :
  through c m a o -> numbered c m a st -> numbered c m a (step channels st o).1.
Proof.
  intros Ht [Hb Hu].
  assert (forall f, new_frame st o f -> attempt_of f = (m, a) -> is_frame (step channels st o).1 f ->
            exists p d, o = StartPush c p m a d /\ f = Frame (next st) p m a (batch_count st c m a) d) as Hnew.
  { intros f (c' & p & m' & a' & d & -> & ->) Ha _. unfold attempt_of in Ha. cbn in Ha. injection Ha as -> ->.
    cbn in Ht. rewrite (Ht eq_refl) in *. eauto. }
  split.
  - intros f Hf Ha. destruct (is_frame_step channels st o f Hf) as [H|H].
    + specialize (Hb f H Ha). destruct (batch_step channels st o c m a) as [->|[-> _]]; lia.
    + destruct (Hnew f H Ha Hf) as (p & d & -> & ->). cbn [f_batch].
      destruct (batch_step channels st (StartPush c p m a d) c m a) as [E|[-> _]]; [|lia].
      exfalso. revert E Hf. cbn [step]. unfold start_push. destruct (decide _) as [Hd|Hd].
      { intros _ Hf. specialize (Hb _ Hf eq_refl). cbn in Hb. lia. }
      destruct (c_latest _ !! p) eqn:Hl.
      2: { intros _ Hf. apply (is_frame_same st) in Hf; [|done..]. specialize (Hb _ Hf eq_refl). cbn in Hb. lia. }
      cbn [fst]. unfold batch_count at 1, client_of at 1. cbn [clients with_clients with_pushes with_next].
      rewrite lookup_insert. cbn [from_option c_batch id]. rewrite lookup_insert. cbn [from_option id].
      unfold batch_count. lia.
  - intros f g Hf Hg Haf Hag E.
    destruct (is_frame_step channels st o f Hf) as [H|H], (is_frame_step channels st o g Hg) as [H'|H'].
    + by apply Hu.
    + destruct (Hnew g H' Hag Hg) as (p & d & -> & ->). specialize (Hb f H Haf). cbn in E. lia.
    + destruct (Hnew f H Haf Hf) as (p & d & -> & ->). specialize (Hb g H' Hag). cbn in E. lia.
    + destruct (Hnew f H Haf Hf) as (p & d & -> & ->), (Hnew g H' Hag Hg) as (p' & d' & E' & ->).
      by injection E' as -> ->.
Qed.
Lemma numbered_run channels c m a ops : forall st,
  Forall (through c m a) ops -> numbered c m a st -> numbered c m a (run channels st ops).
Proof.
  induction ops as [|o ops IH]; intros st Ht Hn; [done|]. apply Forall_cons_1 in Ht as [H1 H2]. cbn [run].
  apply IH; [done|]. by apply numbered_step.
Qed.
