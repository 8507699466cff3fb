(** Proofs about local streams. *)
From stdpp Require Import prelude list.
From Verif.Lib Require Import ListFacts.
From Verif.Exec Require Import LocalStreamModel LocalStreamSpec.

Section proofs.
Context {B : Type}.
Implicit Types (s : lstream B) (r : replica B) (P : list B).

(** ** What each replica holds *)
Definition rinv_open (P : list B) (r : replica B) : Prop :=
  rp_eof r = false /\
  match rp_rx r with
  | RxDropped => rp_got r `prefix_of` map Data P
  | _ => rp_tx r = true /\ rp_got r ++ rp_buf r ++ rp_overflow r = map Data P
  end.
Definition rinv_closed (ok : bool) (P : list B) (r : replica B) : Prop :=
  rp_tx r = false /\
  match rp_rx r with
  | RxDropped => rp_got r `prefix_of` map Data P
  | _ => if ok then rp_overflow r = [] /\ rp_got r ++ rp_buf r = map Data P
         else rp_got r ++ rp_buf r `prefix_of` map Data P
  end /\
  (rp_eof r = true -> rp_rx r <> RxDropped -> rp_buf r = []).
(** Before the stream exists. *)
Definition rinv_pending (r : replica B) : Prop :=
  rp_got r = [] /\ rp_buf r = [] /\ rp_overflow r = [] /\ rp_tx r = true /\ rp_eof r = false /\
  rp_rx r <> RxPool.
Definition rinv_failed (r : replica B) : Prop :=
  rp_tx r = false /\ rp_rx r <> RxPool /\
  match rp_rx r with
  | RxDropped => rp_got r = [] \/ rp_got r = [Failure]
  | _ => rp_got r ++ rp_buf r = [Failure]
  end /\
  (rp_eof r = true -> rp_rx r <> RxDropped -> rp_buf r = []).

Definition inv (s : lstream B) (P : list B) : Prop :=
  match ls_sink s with
  | SNone =>
      P = [] /\
      match ls_state s with
      | LVacant => ls_replicas s = []
      | LPending => Forall rinv_pending (ls_replicas s)
      | LFailed => Forall rinv_failed (ls_replicas s)
      | LCreated _ => False
      end
  | SWriting | SCommitting =>
      (exists pool, ls_state s = LCreated pool) /\ Forall (rinv_open P) (ls_replicas s)
  | SClosed ok =>
      (exists pool, ls_state s = LCreated pool) /\ Forall (rinv_closed ok P) (ls_replicas s)
  end.

Lemma Forall_alter {A} (Q : A -> Prop) f i (l : list A) :
  Forall Q l -> (forall x, l !! i = Some x -> Q x -> Q (f x)) -> Forall Q (alter f i l).
Proof.
  intros HF Hf. apply Forall_lookup. intros j x Hx.
  destruct (decide (i = j)) as [->|Hne].
  - rewrite list_lookup_alter in Hx. destruct (l !! j) as [y|] eqn:Ey; [|done].
    injection Hx as <-. apply Hf; [done|]. by eapply Forall_lookup_1.
  - rewrite list_lookup_alter_ne in Hx by done. by eapply Forall_lookup_1.
Qed.

Lemma Forall_map' {A C} (Q : A -> Prop) (R : C -> Prop) (f : A -> C) (l : list A) :
  Forall Q l -> (forall x, Q x -> R (f x)) -> Forall R (map f l).
Proof. intros HF Hf. induction HF; cbn; constructor; auto. Qed.

Lemma write_replica_inv cap b P r :
  rinv_open P r -> rinv_open (P ++ [b]) (write_replica cap b r).
Proof.
  intros [He Hr]. unfold write_replica, rx_gone.
  assert (Hpre : rp_rx r = RxDropped -> rinv_open (P ++ [b]) r).
  { intros Hrx. split; [done|]. rewrite Hrx in *. rewrite map_app. by apply prefix_app_r. }
  destruct (rp_tx r) eqn:Htx.
  - destruct (bool_decide_reflect (rp_rx r = RxDropped)) as [Hrx|Hrx].
    + specialize (Hpre Hrx) as [_ Hpre]. split; [done|]. cbn. rewrite Hrx in *. done.
    + assert (Hr' : rp_got r ++ rp_buf r ++ rp_overflow r = map Data P)
        by (destruct (rp_rx r); [apply Hr|apply Hr|done]).
      set (k := cap - length (rp_buf r)).
      assert (Hfl : rp_got r ++ (rp_buf r ++ take k (rp_overflow r)) ++ drop k (rp_overflow r) =
                    map Data P) by (by rewrite <- (assoc_L (++) (rp_buf r)), take_drop).
      assert (Hgoal : forall r', rp_eof r' = rp_eof r -> rp_rx r' = rp_rx r -> rp_tx r' = true ->
        rp_got r' ++ rp_buf r' ++ rp_overflow r' = map Data P ++ [Data b] ->
        rinv_open (P ++ [b]) r').
      { intros r' H1 H2 H3 H4. split; [congruence|]. rewrite H2, map_app. by destruct (rp_rx r). }
      cbn [flush rp_overflow rp_buf rp_rx rp_got rp_eof]. fold k.
      destruct (drop k (rp_overflow r)) as [|x o] eqn:Hd.
      * rewrite app_nil_r in Hfl.
        destruct (decide _); apply Hgoal; try done; cbn [rp_got rp_buf rp_overflow].
        -- rewrite app_nil_r, (assoc_L (++)), Hfl. done.
        -- rewrite (assoc_L (++)), Hfl. done.
      * apply Hgoal; try done. cbn [rp_got rp_buf rp_overflow].
        rewrite <- Hfl. rewrite <- !(assoc_L (++)). done.
  - destruct (rp_rx r) eqn:Hrx; [by destruct Hr|by destruct Hr|]. by apply Hpre.
Qed.

Lemma flush_inv cap P r : rinv_open P r -> rp_rx r <> RxDropped -> rinv_open P (flush cap r).
Proof.
  intros [He Hr] Hrx. split; [done|]. cbn.
  set (k := cap - length (rp_buf r)).
  assert (Hr' : rp_tx r = true /\ rp_got r ++ rp_buf r ++ rp_overflow r = map Data P)
    by (destruct (rp_rx r); [apply Hr|apply Hr|done]).
  destruct Hr' as [Htx Hr'].
  assert (rp_got r ++ (rp_buf r ++ take k (rp_overflow r)) ++ drop k (rp_overflow r) =
            map Data P) by (by rewrite <- (assoc_L (++) (rp_buf r)), take_drop).
  by destruct (rp_rx r).
Qed.

Lemma cut_inv P r : rinv_open P r -> rp_rx r = RxDropped -> rinv_open P (cut r).
Proof. intros [He Hr] Hrx. split; [done|]. cbn. by rewrite Hrx in *. Qed.

Lemma prefix_of_app_l {A} (l1 l2 l3 : list A) : l1 ++ l2 = l3 -> l1 `prefix_of` l3.
Proof. intros <-. by exists l2. Qed.

(** The sink goes away before everything was sent. *)
Lemma drop_tx_false P r : rinv_open P r -> rinv_closed false P (drop_tx r).
Proof.
  intros [He Hr]. split_and!; cbn; [done| |congruence].
  destruct (rp_rx r); [..|done]; destruct Hr as [_ Hr]; rewrite (assoc_L (++)) in Hr;
    by eapply prefix_of_app_l.
Qed.
Lemma drop_tx_true P r :
  rinv_open P r -> to_flush r = false -> rinv_closed true P (drop_tx r).
Proof.
  intros [He Hr] Hf. split_and!; cbn; [done| |congruence].
  unfold to_flush in Hf.
  destruct (rp_rx r); [..|done]; destruct Hr as [Htx Hr]; rewrite Htx in Hf; cbn in Hf;
    destruct (rp_overflow r); [|done| |done]; by rewrite app_nil_r in Hr.
Qed.

Lemma recv_open P r : rinv_open P r -> rinv_open P (recv_replica r).
Proof.
  intros [He Hr]. unfold recv_replica. destruct (rp_rx r) eqn:Hrx.
  - split; [done|]. by rewrite Hrx.
  - destruct Hr as [Htx Hr]. rewrite Htx. destruct (rp_buf r) as [|x rest] eqn:Hb.
    + split; [done|]. rewrite Hrx, Hb. done.
    + split; [done|]. cbn. split; [done|]. by rewrite <- (assoc_L (++)).
  - split; [done|]. by rewrite Hrx.
Qed.
Lemma recv_closed ok P r : rinv_closed ok P r -> rinv_closed ok P (recv_replica r).
Proof.
  intros (Htx & Hr & He). unfold recv_replica. rewrite Htx.
  destruct (rp_rx r) eqn:Hrx; try (split_and!; [done|by rewrite Hrx|by rewrite Hrx]).
  destruct (rp_buf r) as [|x rest] eqn:Hb.
  - split_and!; cbn; [done| |done]. done.
  - split_and!; cbn; [done| |].
    + destruct ok; by rewrite <- (assoc_L (++)).
    + intros E Hne. exfalso. by specialize (He E Hne).
Qed.
Lemma drop_rx_open P r : rinv_open P r -> rinv_open P (drop_rx r).
Proof.
  intros [He Hr]. unfold drop_rx. destruct (rp_rx r) eqn:Hrx; (split; [done|]);
    rewrite ?Hrx; cbn; [done| |done].
  destruct Hr as [_ Hr]. by eapply prefix_of_app_l.
Qed.
Lemma drop_rx_closed ok P r : rinv_closed ok P r -> rinv_closed ok P (drop_rx r).
Proof.
  intros (Htx & Hr & He). unfold drop_rx.
  destruct (rp_rx r) eqn:Hrx; try (split_and!; [done|by rewrite Hrx|by rewrite Hrx]).
  split_and!; cbn; [done| |done]. destruct ok.
  - destruct Hr as [_ Hr]. by eapply prefix_of_app_l.
  - etrans; [|exact Hr]. by exists (rp_buf r).
Qed.
Lemma recv_pending r : rinv_pending r -> rinv_pending (recv_replica r).
Proof.
  intros (H1 & H2 & H3 & H4 & H5 & H6). unfold recv_replica. rewrite H2, H4.
  destruct (rp_rx r) eqn:E; [done| |]; split_and!; try done; congruence.
Qed.
Lemma drop_rx_pending r : rinv_pending r -> rinv_pending (drop_rx r).
Proof.
  intros (H1 & H2 & H3 & H4 & H5 & H6). unfold drop_rx.
  destruct (rp_rx r) eqn:E; [done| |]; split_and!; try done; congruence.
Qed.
Lemma recv_failed r : rinv_failed r -> rinv_failed (recv_replica r).
Proof.
  intros (H1 & H2 & H3 & H4). unfold recv_replica. rewrite H1.
  destruct (rp_rx r) eqn:E; [done| |]; [|split_and!; [done|congruence|by rewrite E|by rewrite E]].
  destruct (rp_buf r) as [|x rest] eqn:Hb; split_and!; cbn; try done.
  - by rewrite <- (assoc_L (++)).
  - intros E' Hne. exfalso. by specialize (H4 E' Hne).
Qed.
Lemma drop_rx_failed r : rinv_failed r -> rinv_failed (drop_rx r).
Proof.
  intros (H1 & H2 & H3 & H4). unfold drop_rx.
  destruct (rp_rx r) eqn:E; [done| |]; [|split_and!; [done|congruence|by rewrite E|by rewrite E]].
  split_and!; cbn; try done.
  destruct (rp_got r) as [|x [|y l]] eqn:Hg; [by left| |].
  - destruct (rp_buf r); [by right|done].
  - done.
Qed.

Lemma fetched_open P r :
  rinv_open P r -> rp_rx r = RxPool ->
  rinv_open P (Replica (rp_buf r) (rp_tx r) (rp_overflow r) RxHeld (rp_got r) (rp_eof r)).
Proof. intros [He Hr] Hrx. split; [done|]. cbn. by rewrite Hrx in Hr. Qed.
Lemma fetched_closed ok P r :
  rinv_closed ok P r -> rp_rx r = RxPool ->
  rinv_closed ok P (Replica (rp_buf r) (rp_tx r) (rp_overflow r) RxHeld (rp_got r) (rp_eof r)).
Proof.
  intros (Htx & Hr & He) Hrx. split_and!; cbn; [done|by rewrite Hrx in Hr|].
  intros E _. apply He; [done|]. by rewrite Hrx.
Qed.

(** The pool lists exactly the replicas not handed out. *)
Definition pool_inv (s : lstream B) : Prop :=
  match ls_state s with
  | LCreated pool =>
      NoDup pool /\ forall i, i ∈ pool <-> exists r, ls_replicas s !! i = Some r /\ rp_rx r = RxPool
  | _ => forall i r, ls_replicas s !! i = Some r -> rp_rx r <> RxPool
  end.

Lemma pool_inv_rx (s : lstream B) st' (f : list (replica B) -> list (replica B)) sk :
  pool_inv s -> st' = ls_state s ->
  (forall i, rp_rx <$> f (ls_replicas s) !! i = rp_rx <$> ls_replicas s !! i) ->
  pool_inv (LStream st' (f (ls_replicas s)) sk).
Proof.
  intros Hp -> Hf. unfold pool_inv in *. cbn.
  destruct (ls_state s) as [| |pool|].
  1,2,4: intros i r Hr E; specialize (Hf i); rewrite Hr in Hf; cbn in Hf;
    destruct (ls_replicas s !! i) as [r'|] eqn:E'; [|done]; cbn in Hf;
    apply (Hp i r' E'); congruence.
  destruct Hp as [Hnd Hp]. split; [done|]. intros i. rewrite Hp. specialize (Hf i).
  split; intros (r & Hr & Hrx); rewrite Hr in Hf; cbn in Hf.
  - destruct (f (ls_replicas s) !! i) as [r'|]; [|done]. exists r'. split; [done|]. cbn in Hf. congruence.
  - destruct (ls_replicas s !! i) as [r'|]; [|done]. exists r'. split; [done|]. cbn in Hf. congruence.
Qed.

Lemma map_rx (f : replica B -> replica B) (l : list (replica B)) i :
  (forall r, rp_rx (f r) = rp_rx r) -> rp_rx <$> map f l !! i = rp_rx <$> l !! i.
Proof.
  intros Hf. change (map f) with (fmap (M:=list) f). rewrite list_lookup_fmap.
  destruct (l !! i); [|done]. cbn. by rewrite Hf.
Qed.
Lemma alter_rx (f : replica B -> replica B) (l : list (replica B)) j i :
  (forall r, rp_rx (f r) = rp_rx r) -> rp_rx <$> alter f j l !! i = rp_rx <$> l !! i.
Proof.
  intros Hf. destruct (decide (i = j)) as [->|Hne].
  - rewrite list_lookup_alter. destruct (l !! j); [|done]. cbn. by rewrite Hf.
  - by rewrite list_lookup_alter_ne by done.
Qed.

Lemma write_replica_rx cap b r : rp_rx (write_replica cap b r) = rp_rx r.
Proof.
  unfold write_replica. destruct (rp_tx r); [|done]. destruct (rx_gone r); [done|].
  cbn. destruct (drop _ _); [|done]. by destruct (decide _).
Qed.
Lemma recv_replica_rx r : rp_rx (recv_replica r) = rp_rx r.
Proof.
  unfold recv_replica. destruct (rp_rx r) eqn:E; try done.
  destruct (rp_buf r); [|done]. by destruct (rp_tx r).
Qed.

Lemma last_take {A} (l : list A) x :
  last l = Some x -> l = take (length l - 1) l ++ [x].
Proof.
  intros H. apply last_Some in H as [l' ->]. rewrite app_length. cbn.
  replace (length l' + 1 - 1) with (length l') by lia. by rewrite take_app.
Qed.

Lemma drop_pool (s : lstream B) j (r : replica B) :
  pool_inv s -> ls_replicas s !! j = Some r -> rp_rx r <> RxPool ->
  forall (f : replica B -> replica B), (forall r, rp_rx r <> RxPool -> rp_rx (f r) <> RxPool) ->
  pool_inv (LStream (ls_state s) (alter f j (ls_replicas s)) (ls_sink s)).
Proof.
  intros Hp Hr Hrx f Hf. unfold pool_inv in *. cbn.
  assert (Hiff : forall i, (exists r, alter f j (ls_replicas s) !! i = Some r /\ rp_rx r = RxPool) <->
                           exists r, ls_replicas s !! i = Some r /\ rp_rx r = RxPool).
  { intros i. destruct (decide (i = j)) as [->|Hne].
    - rewrite list_lookup_alter, Hr. cbn. split.
      + intros (r' & [= <-] & E). by apply Hf in E.
      + intros (r' & [= <-] & E). done.
    - by rewrite list_lookup_alter_ne by done. }
  destruct (ls_state s) as [| |pool|].
  1,2,4: intros i r' Hr' E;
    destruct (proj1 (Hiff i)) as (r2 & Hr2 & E2); [eauto|]; exact (Hp i r2 Hr2 E2).
  destruct Hp as [Hnd Hp]. split; [done|]. intros i. by rewrite Hp, Hiff.
Qed.

Lemma pool_step cap (s : lstream B) (o : op B) :
  pool_inv s -> pool_inv (step cap s o).
Proof.
  intros Hp. destruct o; cbn [step].
  - (* fetch *)
    unfold fetch. destruct (ls_state s) as [| |pool|] eqn:Est; cbn [fst].
    + unfold pool_inv in *. rewrite Est in Hp. cbn. intros i r Hr.
      apply lookup_app_Some in Hr as [Hr|[_ Hr]]; [by eapply Hp|].
      destruct (i - _); cbn in Hr; [|done]. by injection Hr as <-.
    + unfold pool_inv in *. rewrite Est in Hp. cbn. intros i r Hr.
      apply lookup_app_Some in Hr as [Hr|[_ Hr]]; [by eapply Hp|].
      destruct (i - _); cbn in Hr; [|done]. by injection Hr as <-.
    + destruct (last pool) as [j|] eqn:El; cbn [fst]; [|done].
      unfold pool_inv in *. rewrite Est in Hp. cbn. destruct Hp as [Hnd Hp].
      apply last_take in El. rewrite El in Hnd. apply NoDup_app in Hnd as (Hnd & Hdisj & _).
      split; [done|]. intros i.
      assert (Hi : i ∈ take (length pool - 1) pool <-> i ∈ pool /\ i <> j).
      { rewrite El at 3. rewrite elem_of_app, elem_of_list_singleton. split.
        - intros H. split; [by left|]. intros ->. apply (Hdisj _ H). by apply elem_of_list_singleton.
        - naive_solver. }
      rewrite Hi, Hp. destruct (decide (i = j)) as [->|Hne].
      * rewrite list_lookup_alter. split; [naive_solver|].
        intros (r & Hr & Hrx). destruct (ls_replicas s !! j); [|done]. cbn in Hr. by injection Hr as <-.
      * rewrite list_lookup_alter_ne by done. naive_solver.
    + done.
  - (* create *)
    unfold create. destruct (ls_state s) as [| |pool|] eqn:Est; cbn [fst]; try done.
    all: unfold pool_inv in *; rewrite Est in Hp; cbn; split;
      [apply NoDup_ListNoDup, seq_NoDup|]; intros i; rewrite elem_of_seq_iff; split;
      [intros Hi; exists (new_replica RxPool); split; [|done];
         rewrite lookup_app_r by lia; apply lookup_replicate_2; lia
      |intros (r & Hr & Hrx); apply lookup_app_Some in Hr as [Hr|[Hge Hr]];
         [by destruct (Hp i r Hr)|apply lookup_replicate in Hr as [-> Hr]; lia]].
  - (* timeout *)
    unfold fail_if_pending. destruct (ls_state s) eqn:Est; try done.
    unfold pool_inv in *. rewrite Est in Hp. cbn. intros i r Hr.
    change (map ?f) with (fmap (M:=list) f) in Hr. rewrite list_lookup_fmap in Hr.
    destruct (ls_replicas s !! i) as [r'|] eqn:E; [|done]. injection Hr as <-. cbn. by eapply Hp.
  - (* write *)
    unfold write. destruct (ls_sink s); try done.
    destruct (existsb _ _).
    + apply (pool_inv_rx s _ (map (write_replica cap b))); [done|done|].
      intros i. apply map_rx. intros r. apply write_replica_rx.
    + apply (pool_inv_rx s _ (fun l => map drop_tx (map (write_replica cap b) l))); [done|done|].
      intros i. rewrite map_rx by done. apply map_rx. intros r. apply write_replica_rx.
  - unfold start_commit. destruct (ls_sink s); try done.
  - unfold commit_step. destruct (ls_sink s); try done.
    destruct (list_find _ _) as [[i r]|].
    + apply (pool_inv_rx s _ (alter (fun r => if rx_gone r then cut r else flush cap r) i)); [done|done|].
      intros j. apply alter_rx. intros r'. by destruct (rx_gone r').
    + apply (pool_inv_rx s _ (map drop_tx)); [done|done|]. intros i. by apply map_rx.
  - unfold abort. destruct (ls_sink s); try done.
    apply (pool_inv_rx s _ (map drop_tx)); [done|done|]. intros i. by apply map_rx.
  - unfold on_replica. apply (pool_inv_rx s _ (alter recv_replica i)); [done|done|].
    intros j. apply alter_rx. apply recv_replica_rx.
  - unfold on_replica. destruct (ls_replicas s !! i) as [r|] eqn:E.
    + destruct (decide (rp_rx r = RxPool)) as [Hrx|Hrx].
      * assert (alter drop_rx i (ls_replicas s) = ls_replicas s) as ->; [|by destruct s].
        apply list_eq. intros j. destruct (decide (i = j)) as [->|Hne].
        -- rewrite list_lookup_alter, E. cbn. unfold drop_rx. by rewrite Hrx.
        -- by rewrite list_lookup_alter_ne by done.
      * apply (drop_pool s i r Hp E Hrx). intros r' Hr'. unfold drop_rx.
        destruct (rp_rx r') eqn:E'; [done|done|]. by rewrite E'.
    + assert (alter drop_rx i (ls_replicas s) = ls_replicas s) as ->; [|by destruct s].
      apply list_eq. intros j. destruct (decide (i = j)) as [->|Hne].
      * by rewrite list_lookup_alter, E.
      * by rewrite list_lookup_alter_ne by done.
Qed.

Lemma inv_step cap (s : lstream B) P (o : op B) :
  pool_inv s -> inv s P ->
  inv (step cap s o)
      (match o, ls_sink s with Write b, SWriting => P ++ [b] | _, _ => P end).
Proof.
  intros Hpool Hinv.
  assert (Hpoolrx : forall pool j, ls_state s = LCreated pool -> last pool = Some j ->
            forall r, ls_replicas s !! j = Some r -> rp_rx r = RxPool).
  { intros pool j Est El r Hr. unfold pool_inv in Hpool. rewrite Est in Hpool.
    destruct Hpool as [_ Hp].
    destruct (proj1 (Hp j)) as (r' & Hr' & E); [|congruence].
    apply last_take in El. rewrite El. apply elem_of_app. right. by apply elem_of_list_singleton. }
  unfold inv in *. destruct o; cbn [step].
  - (* fetch *)
    unfold fetch. destruct (ls_sink s) eqn:Esk.
    + destruct Hinv as [-> Hinv]. destruct (ls_state s) as [| |pool|] eqn:Est; cbn.
      * rewrite ?Esk. split; [done|]. rewrite Hinv. cbn. constructor; [done|constructor].
      * rewrite ?Esk. split; [done|]. apply Forall_app. split; [done|]. constructor; [done|constructor].
      * done.
      * rewrite ?Esk, ?Est. done.
    + destruct Hinv as [[pool Est] Hinv]. rewrite Est.
      destruct (last pool) as [j|] eqn:El; cbn; rewrite ?Esk; [|by eauto].
      split; [by eauto|]. apply Forall_alter; [done|]. intros r Hr Hq.
      apply fetched_open; [done|]. by eapply Hpoolrx.
    + destruct Hinv as [[pool Est] Hinv]. rewrite Est.
      destruct (last pool) as [j|] eqn:El; cbn; rewrite ?Esk; [|by eauto].
      split; [by eauto|]. apply Forall_alter; [done|]. intros r Hr Hq.
      apply fetched_open; [done|]. by eapply Hpoolrx.
    + destruct Hinv as [[pool Est] Hinv]. rewrite Est.
      destruct (last pool) as [j|] eqn:El; cbn; rewrite ?Esk; [|by eauto].
      split; [by eauto|]. apply Forall_alter; [done|]. intros r Hr Hq.
      apply fetched_closed; [done|]. by eapply Hpoolrx.
  - (* create *)
    unfold create. destruct (ls_sink s) eqn:Esk.
    + destruct Hinv as [-> Hinv]. destruct (ls_state s) as [| |pool|] eqn:Est; cbn.
      * split; [by eauto|]. rewrite Hinv. cbn. apply Forall_replicate. done.
      * split; [by eauto|]. apply Forall_app. split.
        -- eapply Forall_impl; [exact Hinv|]. intros r (H1 & H2 & H3 & H4 & H5 & H6).
           split; [done|]. rewrite H1, H2, H3. cbn. destruct (rp_rx r); [done|done|]. by exists [].
        -- by apply Forall_replicate.
      * done.
      * rewrite ?Esk, ?Est. done.
    + destruct Hinv as [[pool Est] Hinv]. rewrite Est. cbn. rewrite ?Esk. eauto.
    + destruct Hinv as [[pool Est] Hinv]. rewrite Est. cbn. rewrite ?Esk. eauto.
    + destruct Hinv as [[pool Est] Hinv]. rewrite Est. cbn. rewrite ?Esk. eauto.
  - (* timeout *)
    unfold fail_if_pending. destruct (ls_sink s) eqn:Esk.
    + destruct Hinv as [-> Hinv]. destruct (ls_state s) as [| |pool|] eqn:Est; cbn;
        rewrite ?Esk, ?Est; (split; [done|]); try done.
      eapply Forall_map'; [exact Hinv|]. intros r (H1 & H2 & H3 & H4 & H5 & H6).
      split_and!; cbn; [done|done| |congruence].
      rewrite H1, H2. destruct (rp_rx r); [done|done|by left].
    + destruct Hinv as [[pool Est] Hinv]. rewrite ?Est, ?Esk. eauto.
    + destruct Hinv as [[pool Est] Hinv]. rewrite ?Est, ?Esk. eauto.
    + destruct Hinv as [[pool Est] Hinv]. rewrite ?Est, ?Esk. eauto.
  - (* write *)
    unfold write. destruct (ls_sink s) eqn:Esk; rewrite ?Esk; try done.
    destruct Hinv as [Hst Hinv].
    assert (HF : Forall (rinv_open (P ++ [b])) (map (write_replica cap b) (ls_replicas s))).
    { eapply Forall_map'; [exact Hinv|]. intros r. apply write_replica_inv. }
    destruct (existsb _ _); cbn; (split; [done|]); [done|].
    eapply Forall_map'; [exact HF|]. intros r. apply drop_tx_false.
  - unfold start_commit. destruct (ls_sink s) eqn:Esk; rewrite ?Esk; done.
  - unfold commit_step. destruct (ls_sink s) eqn:Esk; rewrite ?Esk; try done.
    destruct Hinv as [Hst Hinv].
    destruct (list_find _ _) as [[i r0]|] eqn:Ef; cbn; (split; [done|]).
    + apply Forall_alter; [done|]. intros r Hr Hq. unfold rx_gone.
      destruct (bool_decide_reflect (rp_rx r = RxDropped)); [by apply cut_inv|by apply flush_inv].
    + apply list_find_None in Ef. clear -Hinv Ef.
      induction Hinv as [|r l Hr Hl IH]; cbn; [constructor|].
      inversion_clear Ef. constructor; [|by apply IH].
      apply drop_tx_true; [done|]. by destruct (to_flush r).
  - unfold abort. destruct (ls_sink s) eqn:Esk; rewrite ?Esk; try done.
    destruct Hinv as [Hst Hinv]. cbn. split; [done|].
    eapply Forall_map'; [exact Hinv|]. intros r. apply drop_tx_false.
  - unfold on_replica. cbn. destruct (ls_sink s).
    + destruct Hinv as [-> Hinv]. split; [done|]. destruct (ls_state s).
      * by rewrite Hinv.
      * apply Forall_alter; [done|]. intros r _. apply recv_pending.
      * done.
      * apply Forall_alter; [done|]. intros r _. apply recv_failed.
    + destruct Hinv as [Hst Hinv]. split; [done|]. apply Forall_alter; [done|]. intros r _. apply recv_open.
    + destruct Hinv as [Hst Hinv]. split; [done|]. apply Forall_alter; [done|]. intros r _. apply recv_open.
    + destruct Hinv as [Hst Hinv]. split; [done|]. apply Forall_alter; [done|]. intros r _. apply recv_closed.
  - unfold on_replica. cbn. destruct (ls_sink s).
    + destruct Hinv as [-> Hinv]. split; [done|]. destruct (ls_state s).
      * by rewrite Hinv.
      * apply Forall_alter; [done|]. intros r _. apply drop_rx_pending.
      * done.
      * apply Forall_alter; [done|]. intros r _. apply drop_rx_failed.
    + destruct Hinv as [Hst Hinv]. split; [done|]. apply Forall_alter; [done|]. intros r _. apply drop_rx_open.
    + destruct Hinv as [Hst Hinv]. split; [done|]. apply Forall_alter; [done|]. intros r _. apply drop_rx_open.
    + destruct Hinv as [Hst Hinv]. split; [done|]. apply Forall_alter; [done|]. intros r _. apply drop_rx_closed.
Qed.

Lemma published_inv cap (ops : list (op B)) :
  (foldl (published_step cap) (ls_init, []) ops).1 = run cap ops /\
  pool_inv (run cap ops) /\ inv (run cap ops) (published cap ops).
Proof.
  unfold published, run. induction ops as [|o ops IH] using rev_ind.
  - split_and!; [done| |done]. unfold pool_inv. cbn. intros i r Hr. by rewrite lookup_nil in Hr.
  - rewrite !foldl_app. cbn [foldl]. destruct IH as (E & Hp & Hi).
    destruct (foldl (published_step cap) (ls_init, []) ops) as [s P] eqn:Ef.
    cbn in E. subst s. cbn in Hi. split_and!.
    + done.
    + by apply pool_step.
    + unfold published_step at 1. cbn [snd fst].
      pose proof (inv_step cap _ P o Hp Hi) as H. exact H.
Qed.

(** ** Consequences *)
Lemma got_prefix cap (ops : list (op B)) i r :
  ls_replicas (run cap ops) !! i = Some r ->
  rp_got r `prefix_of` map Data (published cap ops) \/
  (published cap ops = [] /\ ls_state (run cap ops) = LFailed /\ rp_got r = [Failure]).
Proof.
  intros Hr. destruct (published_inv cap ops) as (_ & _ & Hinv). unfold inv in Hinv.
  assert (Hgo : rinv_open (published cap ops) r -> rp_got r `prefix_of` map Data (published cap ops)).
  { intros [_ H]. destruct (rp_rx r); [..|done]; destruct H as [_ H]; by eapply prefix_of_app_l. }
  destruct (ls_sink (run cap ops)) as [| | |ok].
  - destruct Hinv as [-> Hinv]. destruct (ls_state _).
    + rewrite Hinv in Hr. by rewrite lookup_nil in Hr.
    + eapply Forall_lookup_1 in Hinv; [|exact Hr]. left. destruct Hinv as [-> _]. by exists [].
    + done.
    + eapply Forall_lookup_1 in Hinv; [|exact Hr]. destruct Hinv as (_ & _ & H & _).
      destruct (rp_got r) as [|x [|y l]] eqn:E; [left; by exists []| |].
      * right. split_and!; [done|done|]. destruct (rp_rx r);
          [by injection H as ->|by injection H as ->|by destruct H].
      * destruct (rp_rx r); [done|done|by destruct H].
  - destruct Hinv as [_ Hinv]. eapply Forall_lookup_1 in Hinv; [|exact Hr]. left. by apply Hgo.
  - destruct Hinv as [_ Hinv]. eapply Forall_lookup_1 in Hinv; [|exact Hr]. left. by apply Hgo.
  - destruct Hinv as [_ Hinv]. eapply Forall_lookup_1 in Hinv; [|exact Hr]. left.
    destruct Hinv as (_ & H & _). destruct (rp_rx r); [..|done]; destruct ok.
    + destruct H as [_ H]. by eapply prefix_of_app_l.
    + etrans; [|exact H]. by exists (rp_buf r).
    + destruct H as [_ H]. by eapply prefix_of_app_l.
    + etrans; [|exact H]. by exists (rp_buf r).
Qed.

Lemma committed_complete cap (ops : list (op B)) i r :
  ls_sink (run cap ops) = SClosed true ->
  ls_replicas (run cap ops) !! i = Some r -> rp_rx r = RxHeld ->
  rp_got r ++ rp_buf r = map Data (published cap ops) /\
  (rp_eof r = true -> rp_got r = map Data (published cap ops)).
Proof.
  intros Hsk Hr Hrx. destruct (published_inv cap ops) as (_ & _ & Hinv). unfold inv in Hinv.
  rewrite Hsk in Hinv. destruct Hinv as [_ Hinv]. eapply Forall_lookup_1 in Hinv; [|exact Hr].
  destruct Hinv as (_ & H & He). rewrite Hrx in H. destruct H as [_ H]. split; [done|].
  intros E. rewrite He in H; [by rewrite app_nil_r in H|done|by rewrite Hrx].
Qed.

Lemma eof_means_closed cap (ops : list (op B)) i r :
  ls_replicas (run cap ops) !! i = Some r -> rp_eof r = true ->
  ls_state (run cap ops) = LFailed \/ exists ok, ls_sink (run cap ops) = SClosed ok.
Proof.
  intros Hr He. destruct (published_inv cap ops) as (_ & _ & Hinv). unfold inv in Hinv.
  destruct (ls_sink (run cap ops)) as [| | |ok].
  - destruct Hinv as [_ Hinv]. destruct (ls_state _); [|..|by left].
    + rewrite Hinv in Hr. by rewrite lookup_nil in Hr.
    + eapply Forall_lookup_1 in Hinv; [|exact Hr]. destruct Hinv as (_ & _ & _ & _ & ? & _). congruence.
    + done.
  - destruct Hinv as [_ Hinv]. eapply Forall_lookup_1 in Hinv; [|exact Hr]. destruct Hinv. congruence.
  - destruct Hinv as [_ Hinv]. eapply Forall_lookup_1 in Hinv; [|exact Hr]. destruct Hinv. congruence.
  - right. by exists ok.
Qed.

Lemma waiting_get_failure cap (ops : list (op B)) i r :
  ls_state (run cap ops) = LFailed -> ls_replicas (run cap ops) !! i = Some r ->
  rp_rx r = RxHeld -> rp_got r ++ rp_buf r = [Failure].
Proof.
  intros Hst Hr Hrx. destruct (published_inv cap ops) as (_ & _ & Hinv). unfold inv in Hinv.
  rewrite Hst in Hinv. destruct (ls_sink (run cap ops)) as [| | |ok].
  - destruct Hinv as [_ Hinv]. eapply Forall_lookup_1 in Hinv; [|exact Hr].
    destruct Hinv as (_ & _ & H & _). by rewrite Hrx in H.
  - destruct Hinv as [[pool ?] _]. done.
  - destruct Hinv as [[pool ?] _]. done.
  - destruct Hinv as [[pool ?] _]. done.
Qed.

(** Reading on after the commit reaches the end with everything. *)
Fixpoint recv_n (n : nat) (r : replica B) : replica B :=
  match n with O => r | S n => recv_n n (recv_replica r) end.
Lemma run_recv cap (ops : list (op B)) i n :
  ls_state (run cap (ops ++ replicate n (Recv i))) = ls_state (run cap ops) /\
  ls_sink (run cap (ops ++ replicate n (Recv i))) = ls_sink (run cap ops) /\
  ls_replicas (run cap (ops ++ replicate n (Recv i))) !! i =
  recv_n n <$> ls_replicas (run cap ops) !! i.
Proof.
  unfold run. rewrite foldl_app. generalize (foldl (step cap) ls_init ops). clear ops.
  induction n as [|n IH]; intros s; cbn [replicate foldl].
  - split_and!; [done|done|]. by destruct (ls_replicas s !! i).
  - destruct (IH (step cap s (Recv i))) as (-> & -> & ->). split_and!; [done|done|].
    cbn. rewrite list_lookup_alter. by destruct (ls_replicas s !! i).
Qed.
Lemma recv_n_end n (r : replica B) :
  rp_rx r = RxHeld -> rp_tx r = false -> length (rp_buf r) < n ->
  rp_eof (recv_n n r) = true /\ rp_got (recv_n n r) = rp_got r ++ rp_buf r /\
  rp_rx (recv_n n r) = RxHeld.
Proof.
  revert r. induction n as [|n IH]; intros r Hrx Htx Hlen; [lia|]. cbn [recv_n].
  destruct (rp_buf r) as [|x rest] eqn:Hb.
  - assert (recv_replica r = Replica [] false (rp_overflow r) RxHeld (rp_got r) true) as ->
      by (unfold recv_replica; by rewrite Hrx, Hb, Htx).
    destruct n as [|n].
    + cbn. by rewrite app_nil_r.
    + destruct (IH (Replica [] false (rp_overflow r) RxHeld (rp_got r) true)) as (H1 & H2 & H3);
        [done|done|cbn; lia|]. split_and!; [exact H1|exact H2|exact H3].
  - assert (recv_replica r = Replica rest false (rp_overflow r) RxHeld (rp_got r ++ [x]) (rp_eof r)) as ->
      by (unfold recv_replica; by rewrite Hrx, Hb, Htx).
    destruct (IH (Replica rest false (rp_overflow r) RxHeld (rp_got r ++ [x]) (rp_eof r)))
      as (H1 & H2 & H3); [done|done|cbn in *; lia|].
    split_and!; [exact H1| |exact H3]. rewrite H2. cbn. by rewrite <- (assoc_L (++)).
Qed.
Lemma reading_on cap (ops : list (op B)) i r :
  ls_sink (run cap ops) = SClosed true ->
  ls_replicas (run cap ops) !! i = Some r -> rp_rx r = RxHeld ->
  forall n, length (published cap ops) < n ->
  exists r', ls_replicas (run cap (ops ++ replicate n (Recv i))) !! i = Some r' /\
    rp_eof r' = true /\ rp_got r' = map Data (published cap ops).
Proof.
  intros Hsk Hr Hrx n Hn.
  destruct (committed_complete cap ops i r Hsk Hr Hrx) as [Hall _].
  destruct (run_recv cap ops i n) as (_ & _ & ->). rewrite Hr. cbn. eexists. split; [done|].
  destruct (published_inv cap ops) as (_ & _ & Hinv). unfold inv in Hinv.
  rewrite Hsk in Hinv. destruct Hinv as [_ Hinv]. eapply Forall_lookup_1 in Hinv; [|exact Hr].
  destruct Hinv as (Htx & _ & _).
  destruct (recv_n_end n r Hrx Htx) as (H1 & H2 & _).
  - apply (f_equal length) in Hall. rewrite app_length, map_length in Hall. lia.
  - by rewrite H2, Hall.
Qed.

(** ** Handing out replicas *)

Definition handed (s : lstream B) (fs : list (option nat)) (n : nat) : Prop :=
  NoDup (omap id fs) /\
  (forall i, i ∈ omap id fs -> exists r, ls_replicas s !! i = Some r /\ rp_rx r <> RxPool) /\
  match ls_state s with
  | LCreated pool =>
      n <= length (omap id fs) + length pool /\ (None ∈ fs -> n <= length (omap id fs))
  | LVacant => fs = []
  | LPending => None ∉ fs
  | LFailed => True
  end.

Lemma omap_id_app (l : list (option nat)) (x : option nat) :
  omap id (l ++ [x]) = omap id l ++ match x with Some i => [i] | None => [] end.
Proof. rewrite omap_app. by destruct x. Qed.

Lemma handed_rx (s s' : lstream B) fs n :
  handed s fs n -> ls_state s' = ls_state s ->
  (forall i r, ls_replicas s !! i = Some r -> rp_rx r <> RxPool ->
     exists r', ls_replicas s' !! i = Some r' /\ rp_rx r' <> RxPool) ->
  handed s' fs n.
Proof.
  intros (H1 & H2 & H3) Hst Hrx. unfold handed. rewrite Hst. split_and!; [done| |done].
  intros i Hi. destruct (H2 i Hi) as (r & Hr & Hn). eauto.
Qed.

Lemma handed_map (s : lstream B) fs n (f : replica B -> replica B) sk :
  handed s fs n -> (forall r, rp_rx (f r) = rp_rx r) ->
  handed (LStream (ls_state s) (map f (ls_replicas s)) sk) fs n.
Proof.
  intros H Hf. eapply handed_rx; [exact H|done|]. cbn. intros i r Hr Hrx.
  exists (f r). rewrite Hf. split; [|done].
  change (map f) with (fmap (M:=list) f). by rewrite list_lookup_fmap, Hr.
Qed.
Lemma handed_alter (s : lstream B) fs n (f : replica B -> replica B) j sk :
  handed s fs n -> (forall r, rp_rx r <> RxPool -> rp_rx (f r) <> RxPool) ->
  handed (LStream (ls_state s) (alter f j (ls_replicas s)) sk) fs n.
Proof.
  intros H Hf. eapply handed_rx; [exact H|done|]. cbn. intros i r Hr Hrx.
  destruct (decide (i = j)) as [->|Hne].
  - exists (f r). split; [by rewrite list_lookup_alter, Hr|by apply Hf].
  - exists r. split; [by rewrite list_lookup_alter_ne by done|done].
Qed.

Lemma all_some (fs : list (option nat)) : None ∉ fs -> length (omap id fs) = length fs.
Proof.
  induction fs as [|[x|] fs IH]; intros H; cbn.
  - done.
  - f_equal. apply IH. set_solver.
  - exfalso. apply H. left.
Qed.

(** While the stream is awaited, every fetch so far has one replica. *)
Definition count_inv (s : lstream B) (fs : list (option nat)) : Prop :=
  match ls_state s with
  | LVacant | LPending => length (ls_replicas s) = length fs
  | _ => True
  end.

Lemma count_step cap (s : lstream B) fs (o : op B) :
  count_inv s fs ->
  count_inv (step cap s o) (match o with Fetch => fs ++ [(fetch s).2] | _ => fs end).
Proof.
  unfold count_inv. intros H. destruct o; cbn [step].
  - unfold fetch. destruct (ls_state s) as [| |pool|] eqn:E; cbn.
    + rewrite !app_length. cbn. lia.
    + rewrite !app_length. cbn. lia.
    + destruct (last pool); cbn; by rewrite ?E.
    + by rewrite E.
  - unfold create. destruct (ls_state s) eqn:E; cbn; rewrite ?E; done.
  - unfold fail_if_pending. destruct (ls_state s) eqn:E; cbn; rewrite ?E; done.
  - unfold write. destruct (ls_sink s); try done. destruct (existsb _ _); cbn;
      by rewrite !map_length.
  - unfold start_commit. by destruct (ls_sink s).
  - unfold commit_step. destruct (ls_sink s); try done.
    destruct (list_find _ _) as [[? ?]|]; cbn; by rewrite ?alter_length, ?map_length.
  - unfold abort. destruct (ls_sink s); try done. cbn. by rewrite map_length.
  - cbn. by rewrite alter_length.
  - cbn. by rewrite alter_length.
Qed.

Lemma handed_step cap (s : lstream B) fs n (o : op B) :
  pool_inv s -> count_inv s fs -> handed s fs n -> (forall m, o = Create m -> m = n) -> o <> Timeout ->
  handed (step cap s o) (match o with Fetch => fs ++ [(fetch s).2] | _ => fs end) n.
Proof.
  intros Hp Hc Hh Hcr Hto. destruct o; cbn [step].
  - unfold fetch. pose proof Hh as (H1 & H2 & H3).
    destruct (ls_state s) as [| |pool|] eqn:E; cbn [fst snd].
    1,2: unfold handed; cbn; rewrite omap_id_app; split_and!;
      [ apply NoDup_app; split_and!; [done| |apply NoDup_singleton];
        intros i Hi Hi'%elem_of_list_singleton; subst i;
        destruct (H2 _ Hi) as (r & Hr & _); apply lookup_lt_Some in Hr; lia
      | intros i [Hi|Hi%elem_of_list_singleton]%elem_of_app;
        [ destruct (H2 _ Hi) as (r & Hr & Hn); exists r; split; [|done];
          rewrite lookup_app_l; [done|by eapply lookup_lt_Some]
        | subst i; exists (new_replica RxHeld); split; [|done];
          by rewrite lookup_app_r, Nat.sub_diag by lia ]
      | first [rewrite H3; set_solver | set_solver] ].
    + destruct (last pool) as [j|] eqn:El; cbn [fst snd].
      * unfold handed. cbn. rewrite omap_id_app.
        unfold pool_inv in Hp. rewrite E in Hp. destruct Hp as [Hnd Hp].
        assert (Hj : j ∈ pool).
        { apply last_take in El. rewrite El. apply elem_of_app. right. by apply elem_of_list_singleton. }
        destruct (proj1 (Hp j) Hj) as (rj & Hrj & Hrxj). split_and!.
        -- apply NoDup_app. split_and!; [done| |apply NoDup_singleton].
           intros i Hi ->%elem_of_list_singleton.
           destruct (H2 _ Hi) as (r & Hr & Hn). congruence.
        -- intros i [Hi| ->%elem_of_list_singleton]%elem_of_app.
           ++ destruct (H2 _ Hi) as (r & Hr & Hn).
              destruct (decide (i = j)) as [->|Hne]; [congruence|].
              exists r. by rewrite list_lookup_alter_ne by done.
           ++ rewrite list_lookup_alter, Hrj. cbn. eexists. by split.
        -- rewrite app_length. cbn. apply last_take in El. rewrite El, app_length in H3. cbn in H3. lia.
        -- rewrite app_length. intros [Hin|Hin%elem_of_list_singleton]%elem_of_app; [|done].
           destruct H3 as [_ H3]. specialize (H3 Hin). lia.
      * unfold handed. rewrite E, omap_id_app, app_nil_r.
        assert (pool = []) as -> by (by apply last_None).
        cbn in H3. split_and!; [done|done|cbn; lia|]. intros _. lia.
    + unfold handed. rewrite E, omap_id_app, app_nil_r. done.
  - unfold create. pose proof Hh as (H1 & H2 & H3). specialize (Hcr _ eq_refl) as ->.
    unfold count_inv in Hc.
    destruct (ls_state s) as [| |pool|] eqn:E; cbn [fst]; [..|done|done].
    1,2: unfold handed; cbn; split_and!; [done| | |];
      [ intros i Hi; destruct (H2 _ Hi) as (r & Hr & Hn); exists r; split; [|done];
        rewrite lookup_app_l; [done|by eapply lookup_lt_Some]
      | rewrite seq_length, all_some by (first [rewrite H3; set_solver|done]); lia
      | intros Hin; exfalso; first [by rewrite H3 in Hin; apply elem_of_nil in Hin|done] ].
  - done.
  - unfold write. destruct (ls_sink s) eqn:Esk; try done.
    destruct (existsb _ _).
    + apply handed_map; [done|]. intros r. apply write_replica_rx.
    + rewrite map_map. apply handed_map; [done|]. intros r. cbn. apply write_replica_rx.
  - unfold start_commit. destruct (ls_sink s); done.
  - unfold commit_step. destruct (ls_sink s); try done.
    destruct (list_find _ _) as [[i r0]|].
    + apply handed_alter; [done|]. intros r Hr. by destruct (rx_gone r).
    + by apply handed_map.
  - unfold abort. destruct (ls_sink s); try done. by apply handed_map.
  - apply handed_alter; [done|]. intros r. by rewrite recv_replica_rx.
  - apply handed_alter; [done|]. intros r Hr. unfold drop_rx. by destruct (rp_rx r) eqn:E; rewrite ?E.
Qed.

Lemma fetches_inv cap n (ops : list (op B)) :
  creates_n n ops -> no_timeout ops ->
  (foldl (fetch_step cap) (ls_init, []) ops).1 = run cap ops /\
  count_inv (run cap ops) (fetches cap ops) /\ handed (run cap ops) (fetches cap ops) n.
Proof.
  unfold fetches, run. induction ops as [|o ops IH] using rev_ind; intros Hcr Hto.
  - split_and!; [done|done|]. unfold handed. cbn. split_and!; [constructor| |done].
    intros i Hi. by apply elem_of_nil in Hi.
  - rewrite !foldl_app. cbn [foldl].
    destruct IH as (E & Hc & Hh).
    { intros m Hm. apply Hcr. set_solver. }
    { unfold no_timeout in *. set_solver. }
    destruct (foldl (fetch_step cap) (ls_init, []) ops) as [s fs] eqn:Ef.
    cbn in E. subst s. cbn in Hc, Hh. split_and!.
    + done.
    + apply (count_step cap _ fs o Hc).
    + apply (handed_step cap _ fs n o); [|done|done| |].
      * apply (published_inv cap ops).
      * intros m ->. apply Hcr. set_solver.
      * intros ->. apply Hto. set_solver.
Qed.

Lemma fetch_distinct cap n (ops : list (op B)) :
  creates_n n ops -> no_timeout ops -> NoDup (omap id (fetches cap ops)).
Proof. intros H1 H2. by destruct (fetches_inv cap n ops H1 H2) as (_ & _ & H & _). Qed.

Lemma fetches_prefix cap (ops1 ops2 : list (op B)) :
  fetches cap ops1 `prefix_of` fetches cap (ops1 ++ ops2).
Proof.
  unfold fetches. rewrite foldl_app. generalize (foldl (fetch_step cap) (ls_init, []) ops1).
  induction ops2 as [|o ops IH]; intros [s fs]; [done|]. cbn [foldl].
  etrans; [|apply IH]. cbn. destruct o; try done. by eexists.
Qed.

(** Nobody but the declared consumers and those who came early gets a replica. *)
Lemma created_stays cap (s : lstream B) (o : op B) pool :
  ls_state s = LCreated pool ->
  (exists pool', ls_state (step cap s o) = LCreated pool') /\
  length (ls_replicas (step cap s o)) = length (ls_replicas s).
Proof.
  intros E. destruct o; cbn [step].
  - unfold fetch. rewrite E. destruct (last pool); cbn; rewrite ?alter_length; eauto.
  - unfold create. rewrite E. eauto.
  - unfold fail_if_pending. rewrite E. eauto.
  - unfold write. destruct (ls_sink s); eauto. destruct (existsb _ _); cbn; rewrite ?map_length; eauto.
  - unfold start_commit. destruct (ls_sink s); cbn; eauto.
  - unfold commit_step. destruct (ls_sink s); eauto.
    destruct (list_find _ _) as [[? ?]|]; cbn; rewrite ?alter_length, ?map_length; eauto.
  - unfold abort. destruct (ls_sink s); eauto. cbn. rewrite map_length. eauto.
  - cbn. rewrite alter_length. eauto.
  - cbn. rewrite alter_length. eauto.
Qed.
Lemma not_created cap (ops : list (op B)) :
  (forall m, Create m ∉ ops) -> no_timeout ops -> ls_state (run cap ops) = LVacant \/ ls_state (run cap ops) = LPending.
Proof.
  unfold run. induction ops as [|o ops IH] using rev_ind; intros Hc Ht; [by left|].
  rewrite foldl_app. cbn [foldl].
  assert (Hc' : forall m, Create m ∉ ops) by (intros m Hm; apply (Hc m), elem_of_app; by left).
  assert (Ht' : no_timeout ops) by (intros Hm; apply Ht, elem_of_app; by left).
  specialize (IH Hc' Ht'). set (s := foldl (step cap) ls_init ops) in *.
  assert (Ho : o ∈ ops ++ [o]) by (apply elem_of_app; right; by apply elem_of_list_singleton).
  destruct o; cbn [step].
  - unfold fetch. destruct IH as [E|E]; rewrite E; cbn; auto.
  - by apply Hc in Ho.
  - by apply Ht in Ho.
  - unfold write. destruct (ls_sink s); auto. destruct (existsb _ _); cbn; auto.
  - unfold start_commit. destruct (ls_sink s); cbn; auto.
  - unfold commit_step. destruct (ls_sink s); auto. destruct (list_find _ _) as [[? ?]|]; cbn; auto.
  - unfold abort. destruct (ls_sink s); cbn; auto.
  - done.
  - done.
Qed.
Lemma replica_count cap n (ops1 ops2 : list (op B)) :
  (forall m, Create m ∉ ops1) -> no_timeout ops1 ->
  length (ls_replicas (run cap (ops1 ++ Create n :: ops2))) = Nat.max n (length (fetches cap ops1)).
Proof.
  intros Hc Ht. destruct (not_created cap ops1 Hc Ht) as [E|E].
  all: assert (Hcount : count_inv (run cap ops1) (fetches cap ops1))
    by (apply (fetches_inv cap n); [intros m Hm; by apply Hc in Hm|done]).
  all: unfold count_inv in Hcount; rewrite E in Hcount.
  all: unfold run in *; rewrite foldl_app; cbn [foldl step]; set (s := foldl (step cap) ls_init ops1) in *.
  all: assert (H0 : (exists pool, ls_state (create n s).1 = LCreated pool) /\
    length (ls_replicas (create n s).1) = Nat.max n (length (fetches cap ops1)))
    by (unfold create; rewrite E; cbn; split; [eauto|]; rewrite app_length, replicate_length; lia).
  all: revert H0; generalize (create n s).1; clear; induction ops2 as [|o ops IH]; intros s [[pool Hp] Hl]; [done|].
  all: cbn [foldl]; apply IH; destruct (created_stays cap s o pool Hp) as [H1 H2]; split; [done|congruence].
Qed.
Lemma consumers_bounded cap n (ops1 ops2 : list (op B)) :
  (forall m, Create m ∉ ops1) -> creates_n n (ops1 ++ Create n :: ops2) -> no_timeout (ops1 ++ Create n :: ops2) ->
  length (omap id (fetches cap (ops1 ++ Create n :: ops2))) <= Nat.max n (length (fetches cap ops1)).
Proof.
  intros Hc Hn Ht. destruct (fetches_inv cap n _ Hn Ht) as (_ & _ & H1 & H2 & _).
  rewrite <- (replica_count cap n ops1 ops2); [|done|intros Hm; apply Ht, elem_of_app; by left].
  apply NoDup_length_bound; [done|]. intros i Hi. destruct (H2 i Hi) as (r & Hr & _). by eapply lookup_lt_Some.
Qed.

Lemma declared_served cap n (ops : list (op B)) k :
  creates_n n ops -> no_timeout ops -> k < n -> fetches cap ops !! k <> Some None.
Proof.
  induction ops as [|o ops IH] using rev_ind; intros Hcr Hto Hk; [done|].
  assert (Hcr' : creates_n n ops) by (intros m Hm; apply Hcr; set_solver).
  assert (Hto' : no_timeout ops) by (unfold no_timeout in *; set_solver).
  specialize (IH Hcr' Hto' Hk).
  destruct (fetches_inv cap n ops Hcr' Hto') as (E & Hc & Hh).
  unfold fetches in *. rewrite foldl_app. cbn [foldl].
  destruct (foldl (fetch_step cap) (ls_init, []) ops) as [s fs] eqn:Ef. cbn in E. subst s.
  cbn in *. destruct o; try done. intros Hlook.
  apply lookup_app_Some in Hlook as [Hlook|[Hge Hlook]]; [done|].
  destruct (k - length fs) as [|?] eqn:Ek; [|done]. cbn in Hlook. injection Hlook as Hlook.
  unfold fetch in Hlook. destruct Hh as (_ & _ & H3).
  destruct (ls_state (run cap ops)) as [| |pool|] eqn:Est; try done.
  - destruct (last pool) as [j|] eqn:El; [done|]. apply last_None in El as ->. cbn in H3.
    assert (length (omap id fs) <= length fs); [|lia].
    clear. induction fs as [|[x|] fs IH]; cbn; lia.
  - (* failed without a timeout is impossible *)
    exfalso. clear -Est Hto'. revert Est.
    assert (forall ops : list (op B), no_timeout ops -> ls_state (run cap ops) <> LFailed) as H; [|by apply H].
    clear. intros ops. unfold run. induction ops as [|o ops IH] using rev_ind; intros Hto; [done|].
    rewrite foldl_app. cbn [foldl].
    assert (Hto' : no_timeout ops) by (unfold no_timeout in *; set_solver).
    specialize (IH Hto'). destruct o; cbn [step].
    + unfold fetch. destruct (ls_state _) eqn:E; cbn; try done.
      destruct (last pool); cbn; [done|]. by rewrite E.
    + unfold create. destruct (ls_state _) eqn:E; cbn; try done. by rewrite E.
    + exfalso. apply Hto. set_solver.
    + unfold write. destruct (ls_sink _); try done. by destruct (existsb _ _).
    + unfold start_commit. by destruct (ls_sink _).
    + unfold commit_step. destruct (ls_sink _); try done. by destruct (list_find _ _) as [[? ?]|].
    + unfold abort. by destruct (ls_sink _).
    + done.
    + done.
Qed.
End proofs.
