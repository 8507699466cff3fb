(** Proofs about the Celeborn shuffle. *)
From Coq Require Import Lia.
From stdpp Require Import prelude list gmap.
From Verif.Celeborn Require Import ShuffleModel ShuffleSpec.

Definition attempt_of (f : frame) : nat * nat := (f_map f, f_attempt f).
Definition is_stored (st : state) (f : frame) : Prop := exists l, (l, f) ∈ stored st.
Definition late (st : state) (f : frame) : Prop := com st <> NotYet /\ ~ won st f.
Definition phase_loc (ph : phase) : option loc :=
  match ph with
  | Pushing l | Reviving l _ | Waiting l _ | Retrying l => Some l
  | Completing l _ => l
  end.
Definition phase_stored (ph : phase) : bool :=
  match ph with
  | Reviving _ b | Waiting _ b => b
  | Completing _ b => b
  | _ => false
  end.
Definition com_locs (x : commit) : list loc :=
  match x with NotYet => [] | Committing ls _ | CommitFailed ls | Committed ls => ls end.

Record push_ok (st : state) (i : nat) (x : push) : Prop := PushOk {
  po_id : f_push (p_frame x) = i;
  po_next : i < next st;
  po_loc : forall l, phase_loc (p_phase x) = Some l -> l ∈ known st /\ l.1 = f_part (p_frame x);
  po_stored : phase_stored (p_phase x) = true -> is_stored st (p_frame x) \/ late st (p_frame x);
  po_ends : attempt_of (p_frame x) ∉ ends st;
}.
Record client_ok (st : state) (k : client) : Prop := ClientOk {
  co_known : forall l, l ∈ c_history k -> l ∈ known st;
  co_nodup : NoDup (c_history k);
  co_latest : forall p e, c_latest k !! p = Some e -> (p, e) ∈ known st;
}.
Record inv (st : state) : Prop := Inv {
  i_stored : forall l f, (l, f) ∈ stored st -> l ∈ known st /\ l.1 = f_part f /\ f_push f < next st;
  i_current : forall p e, current st !! p = Some e -> (p, e) ∈ known st;
  i_clients : forall c k, clients st !! c = Some k -> client_ok st k;
  i_replies : forall i r, replies st !! i = Some r -> i < next st /\ forall l, l ∈ s_locs r -> l ∈ known st;
  i_pushes : forall i x, pushes st !! i = Some x -> push_ok st i x;
  i_ends : forall y, y ∈ ends st -> y ∉ broken st;
  i_attempts : forall m a, attempts st !! m = Some (Some a) -> (m, a) ∈ ends st;
  i_com : com st <> NotYet -> None ∉ attempts st;
  i_closed : forall l, l ∈ closed st -> l ∈ com_locs (com st);
  i_committed : forall ls, com st = Committed ls -> forall l, l ∈ ls -> l ∈ closed st;
  i_won : com st <> NotYet -> forall l f, (l, f) ∈ stored st -> won st f -> l ∈ com_locs (com st);
  i_known : forall l, l ∈ com_locs (com st) -> l ∈ known st;
  i_acked : forall f, f ∈ acked st ->
    (is_stored st f \/ late st f) /\ pushes st !! f_push f = None /\ f_push f < next st;
  i_acked_nodup : NoDup (acked st);
  i_unreg : registered st = false -> known st = [];
  i_revives : forall p ws i, revives st !! p = Some ws -> i ∈ ws ->
    i < next st /\ forall x, pushes st !! i = Some x -> f_part (p_frame x) = p;
}.

Lemma inv_init n : inv (init n).
Proof.
  split; cbn; try set_solver.
  - intros m a H. apply lookup_replicate in H as [? _]. done.
  - constructor.
Qed.

(** What only grows. *)
Record grows (a b : state) : Prop := Grows {
  g_known : forall l, l ∈ known a -> l ∈ known b;
  g_stored : forall y, y ∈ stored a -> y ∈ stored b;
  g_next : next a <= next b;
  g_com : com a <> NotYet -> com b <> NotYet /\ attempts b = attempts a;
}.
Lemma grows_is_stored a b f : grows a b -> is_stored a f -> is_stored b f.
Proof. intros [_ G _ _] [l H]. exists l. by apply G. Qed.
Lemma grows_late a b f : grows a b -> late a f -> late b f.
Proof. intros [_ _ _ G] [H1 H2]. destruct (G H1) as [H3 H4]. split; [done|]. unfold won. by rewrite H4. Qed.
Lemma grows_client a b k : grows a b -> client_ok a k -> client_ok b k.
Proof. intros [G _ _ _] [H1 H2 H3]. split; naive_solver. Qed.
Lemma grows_push a b i x :
  grows a b -> ends b = ends a -> push_ok a i x -> push_ok b i x.
Proof.
  intros G E [H1 H2 H3 H4 H5]. pose proof G as [G1 G2 G3 G4]. split.
  - done.
  - lia.
  - intros l Hl. destruct (H3 l Hl). auto.
  - intros Hp. destruct (H4 Hp); [left; by eapply grows_is_stored|right; by eapply grows_late].
  - by rewrite E.
Qed.

(** Clients *)
Lemma elem_of_insert_by_epoch l h y : y ∈ insert_by_epoch l h <-> y = l \/ y ∈ h.
Proof.
  induction h as [|z h IH]; cbn [insert_by_epoch].
  - rewrite elem_of_list_singleton, elem_of_nil. tauto.
  - destruct (decide (z.2 <= l.2)); rewrite !elem_of_cons; [rewrite IH|]; tauto.
Qed.
Lemma NoDup_insert_by_epoch l h : l ∉ h -> NoDup h -> NoDup (insert_by_epoch l h).
Proof.
  induction h as [|z h IH]; cbn [insert_by_epoch]; intros Hl Hn.
  - apply NoDup_singleton.
  - apply not_elem_of_cons in Hl as [Hlz Hl]. pose proof Hn as Hn'. apply NoDup_cons in Hn as [Hz Hn].
    destruct (decide (z.2 <= l.2)).
    + apply NoDup_cons. split; [|by apply IH]. rewrite elem_of_insert_by_epoch. naive_solver.
    + apply NoDup_cons. split; [|done]. apply not_elem_of_cons. done.
Qed.
Lemma client_ok_update st k l : client_ok st k -> l ∈ known st -> client_ok st (update_location k l).
Proof.
  intros [H1 H2 H3] Hl. unfold update_location. split; cbn [c_history c_latest].
  - intros y. destruct (decide (l ∈ c_history k)); [apply H1|].
    rewrite elem_of_insert_by_epoch. intros [->|?]; auto.
  - destruct (decide (l ∈ c_history k)); [done|]. by apply NoDup_insert_by_epoch.
  - intros p e. destruct l as [lp le]. cbn [fst snd]. destruct (c_latest k !! lp) as [e'|] eqn:E.
    + destruct (decide (e' <= le)); [|apply H3]. rewrite lookup_insert_Some.
      intros [[-> ->]|[_ ?]]; auto.
    + rewrite lookup_insert_Some. intros [[-> ->]|[_ ?]]; auto.
Qed.
Lemma client_ok_fold st ls : forall k,
  client_ok st k -> (forall l, l ∈ ls -> l ∈ known st) -> client_ok st (fold_left update_location ls k).
Proof.
  induction ls as [|l ls IH]; intros k Hk Hl; [done|]. cbn [fold_left]. apply IH.
  - apply client_ok_update; [done|]. apply Hl, elem_of_list_here.
  - intros y Hy. apply Hl. by apply elem_of_list_further.
Qed.
Lemma client_ok_0 st : client_ok st client0.
Proof.
  split; cbn.
  - intros l Hl. by apply elem_of_nil in Hl.
  - constructor.
  - intros p e H. by rewrite lookup_empty in H.
Qed.
Lemma client_ok_of st c : inv st -> client_ok st (client_of st c).
Proof.
  intros HI. unfold client_of. destruct (clients st !! c) as [k|] eqn:E; cbn.
  - by eapply i_clients.
  - apply client_ok_0.
Qed.

(** A step that keeps everything but clients, replies and the counter. *)
Lemma inv_shell st cl rs n :
  inv st -> next st <= n ->
  (forall c k, cl !! c = Some k -> client_ok st k) ->
  (forall i r, rs !! i = Some r -> i < n /\ forall l, l ∈ s_locs r -> l ∈ known st) ->
  inv (with_next (with_replies (with_clients st cl) rs) n).
Proof.
  intros [A1 A2 A3 A4 A5 A6 A7 A8 A9 A10 A11 A12 A13 A14 A15 A16] Hn Hc Hr.
  set (st' := with_next _ _).
  assert (G : grows st st') by (split; cbn; auto).
  split; try done.
  - intros l f H. destruct (A1 l f H) as (? & ? & ?). split_and!; try done. cbn. lia.
  - intros c k H. eapply grows_client; [exact G|]. by eapply Hc.
  - intros i x H. eapply grows_push; [exact G|done|]. by apply A5.
  - intros f H. destruct (A13 f H) as (? & ? & ?). split_and!; [done|done|]. cbn. lia.
  - intros p ws i H1 H2. destruct (A16 p ws i H1 H2) as [? ?]. split; [cbn; lia|done].
Qed.

Lemma inv_update_client st c ls :
  inv st -> (forall l, l ∈ ls -> l ∈ known st) -> inv (update_client st c ls).
Proof.
  intros HI Hl. unfold update_client.
  set (cl := <[c := _]> (clients st)).
  pose proof (inv_shell st cl (replies st) (next st) HI (le_n _)) as H.
  destruct st. apply H; clear H.
  - intros c' k H. unfold cl in H. apply lookup_insert_Some in H as [[<- <-]|[_ H]].
    + apply client_ok_fold; [by apply client_ok_of|done].
    + by eapply i_clients.
  - by apply i_replies.
Qed.

Lemma inv_reply st i r :
  inv st -> (forall l, l ∈ s_locs r -> l ∈ known st) -> i = next st ->
  inv (with_next (with_replies st (<[i := r]> (replies st))) (S i)).
Proof.
  intros HI Hl ->.
  pose proof (inv_shell st (clients st) (<[next st := r]> (replies st)) (S (next st)) HI) as H.
  destruct st. apply H; clear H; cbn.
  - lia.
  - by apply (i_clients _ HI).
  - intros i' r' H. apply lookup_insert_Some in H as [[<- <-]|[_ H]].
    + split; [lia|done].
    + apply (i_replies _ HI) in H as [? ?]. cbn in *. split; [lia|done].
Qed.

Lemma inv_drop_reply st i : inv st -> inv (with_replies st (delete i (replies st))).
Proof.
  intros HI.
  pose proof (inv_shell st (clients st) (delete i (replies st)) (next st) HI) as H.
  destruct st. apply H; clear H; cbn.
  - lia.
  - by apply (i_clients _ HI).
  - intros i' r' H. apply lookup_delete_Some in H as [_ H]. by apply (i_replies _ HI) in H.
Qed.

(** A step that adds places and the answers that wait for them. *)
Lemma inv_places st r cur ls :
  inv st -> (forall l, l ∈ known st -> l ∈ ls) -> (forall p e, cur !! p = Some e -> (p, e) ∈ ls) ->
  r = true -> inv (with_places st r cur ls).
Proof.
  intros [A1 A2 A3 A4 A5 A6 A7 A8 A9 A10 A11 A12 A13 A14 A15 A16] Hk Hc ->.
  set (st' := with_places _ _ _ _).
  assert (G : grows st st') by (split; cbn; auto).
  split; try done.
  - intros l f H. destruct (A1 l f H) as (? & ? & ?). split_and!; try done. by apply Hk.
  - intros c k H. eapply grows_client; [exact G|]. by eapply A3.
  - intros i x H. destruct (A4 i x H) as [? ?]. split; [done|]. intros l Hl. apply Hk. auto.
  - intros i x H. eapply grows_push; [exact G|done|]. by apply A5.
  - intros l Hl. apply Hk. by apply A12.
Qed.

Lemma inv_ask_register channels st c ok : inv st -> inv (ask_register channels st c ok).1.
Proof.
  intros HI. unfold ask_register. destruct (registered st) eqn:Hr.
  - cbn [fst]. by apply inv_reply.
  - destruct ok; [|done]. cbn [fst].
    set (ls := map (fun p => (p, 0)) (seq 0 channels)).
    apply (inv_reply (with_places st true (list_to_map ls) ls)); [|done|done].
    apply inv_places; [done| | |done].
    + rewrite (i_unreg _ HI Hr). intros l Hl. by apply elem_of_nil in Hl.
    + intros p e H. by apply elem_of_list_to_map_2 in H.
Qed.

Lemma inv_ask_read st c p : inv st -> inv (ask_read st c p).1.
Proof. intros HI. unfold ask_read. destruct (decide _); [|done]. cbn [fst]. by apply inv_reply. Qed.

Lemma inv_reply_arrives st i : inv st -> inv (reply_arrives st i).1.
Proof.
  intros HI. unfold reply_arrives. destruct (replies st !! i) as [r|] eqn:Hr; [|done].
  destruct (i_replies _ HI _ _ Hr) as [_ Hl].
  set (st1 := with_replies st _). assert (HI1 : inv st1) by by apply inv_drop_reply.
  destruct (s_read r) as [p|].
  - set (st2 := update_client st1 _ _).
    assert (inv st2).
    { apply inv_update_client; [done|]. intros l H. apply elem_of_list_filter in H as [_ H]. by apply Hl. }
    by destruct (read_partition _ _ _).
  - apply inv_update_client; [done|]. done.
Qed.

(** Pushes *)
Lemma inv_pushes st ps n :
  inv st -> next st <= n ->
  (forall i x, ps !! i = Some x -> push_ok (with_next st n) i x) ->
  (forall i y, ps !! i = Some y ->
    (exists x, pushes st !! i = Some x /\ p_frame y = p_frame x) \/ next st <= i) ->
  inv (with_next (with_pushes st ps) n).
Proof.
  intros [A1 A2 A3 A4 A5 A6 A7 A8 A9 A10 A11 A12 A13 A14 A15 A16] Hn Hp Hold.
  set (st' := with_next _ _).
  assert (G : grows st st') by (split; cbn; auto).
  split; try done.
  - intros l f H. destruct (A1 l f H) as (? & ? & ?). split_and!; try done. cbn. lia.
  - intros c k H. eapply grows_client; [exact G|]. by eapply A3.
  - intros i r H. destruct (A4 i r H) as [? ?]. split; [cbn; lia|done].
  - intros i x H. destruct (Hp _ _ H) as [B1 B2 B3 B4 B5]. by split.
  - intros f H. destruct (A13 f H) as (? & Hf & ?). split_and!; [done| |cbn; lia]. cbn.
    destruct (ps !! f_push f) eqn:E; [|done]. exfalso.
    destruct (Hold (f_push f) _ E) as [(x & Hy1 & _)|Hy2]; [congruence|lia].
  - intros p ws i H1 H2. destruct (A16 p ws i H1 H2) as [Hi Hx]. split; [cbn; lia|].
    intros y Hy. cbn in Hy. destruct (Hold _ _ Hy) as [(x & Hy1 & ->)|Hy2]; [by apply Hx|lia].
Qed.

Lemma inv_set_phase st i x ph :
  inv st -> pushes st !! i = Some x ->
  (forall l, phase_loc ph = Some l -> l ∈ known st /\ l.1 = f_part (p_frame x)) ->
  (phase_stored ph = true -> is_stored st (p_frame x) \/ late st (p_frame x)) ->
  inv (set_phase st i x ph).
Proof.
  intros HI Hx Hl Hs.
  pose proof (inv_pushes st (<[i := Push (p_client x) (p_frame x) ph]> (pushes st)) (next st) HI (le_n _)) as H.
  unfold set_phase. destruct st. apply H; clear H.
  - intros j y H. apply lookup_insert_Some in H as [[<- <-]|[_ H]].
    + destruct (i_pushes _ HI _ _ Hx) as [B1 B2 B3 B4 B5]. by split.
    + by apply (i_pushes _ HI).
  - intros j y H. left. apply lookup_insert_Some in H as [[<- <-]|[_ H]]; eauto.
Qed.

Lemma inv_start_push st c p m a d : inv st -> inv (start_push st c p m a d).1.
Proof.
  intros HI. unfold start_push. destruct (decide _) as [|Hno]; [done|].
  apply Decidable.not_or in Hno as [Hne Hnb].
  destruct (c_latest (client_of st c) !! p) as [e|] eqn:He.
  - cbn [fst]. set (k' := Client _ _ _).
    pose proof (client_ok_of st c HI) as [C1 C2 C3].
    assert (HI1 : inv (with_clients st (<[c := k']> (clients st)))).
    { pose proof (inv_shell st (<[c := k']> (clients st)) (replies st) (next st) HI (le_n _)) as H.
      destruct st. apply H; clear H.
      - intros c' k H. apply lookup_insert_Some in H as [[<- <-]|[_ H]].
        + by split.
        + by eapply i_clients.
      - by apply i_replies. }
    apply (inv_pushes (with_clients st (<[c := k']> (clients st)))); [done|cbn; lia| |].
    + intros i x H. apply lookup_insert_Some in H as [[<- <-]|[_ H]].
      * split; cbn; try done; try lia. intros l [= <-]. split; [|done]. by apply C3.
      * destruct (i_pushes _ HI _ _ H) as [B1 B2 B3 B4 B5]. split; try done. cbn. lia.
    + intros i y H. apply lookup_insert_Some in H as [[<- <-]|[_ H]]; [by right|left]. eauto.
  - cbn [fst]. destruct HI as [A1 A2 A3 A4 A5 A6 A7 A8 A9 A10 A11 A12 A13 A14 A15 A16].
    split; try done.
    + intros c' k' H. destruct (A3 _ _ H). by split.
    + intros i x H. destruct (A5 _ _ H). by split.
    + intros y Hy. cbn. apply not_elem_of_cons. split; [|by apply A6]. intros ->. done.
Qed.

Lemma inv_store st l f :
  inv st -> l ∈ known st -> l.1 = f_part f -> f_push f < next st -> attempt_of f ∉ ends st ->
  inv (with_stored st (stored st ++ [(l, f)])).
Proof.
  intros [A1 A2 A3 A4 A5 A6 A7 A8 A9 A10 A11 A12 A13 A14 A15 A16] Hk Hl Hf He.
  set (st' := with_stored _ _).
  assert (G : grows st st').
  { split; cbn; auto. intros y Hy. apply elem_of_app. by left. }
  split; try done.
  - intros l' f' H. cbn in H. apply elem_of_app in H as [H|H]; [by apply A1|].
    apply elem_of_list_singleton in H. by simplify_eq.
  - intros c k H. eapply grows_client; [exact G|]. by eapply A3.
  - intros i x H. eapply grows_push; [exact G|done|]. by apply A5.
  - intros Hc l' f' H Hw. cbn in H. apply elem_of_app in H as [H|H]; [by eapply A11|].
    apply elem_of_list_singleton in H. simplify_eq. exfalso. apply He. by apply A7.
  - intros f' H. destruct (A13 _ H) as (Hs & ? & ?). split_and!; try done.
    destruct Hs; [left; by eapply grows_is_stored|right; by eapply grows_late].
Qed.

Lemma pending_not_won st i x : inv st -> pushes st !! i = Some x -> ~ won st (p_frame x).
Proof. intros HI Hx Hw. apply (po_ends _ _ _ (i_pushes _ HI _ _ Hx)). by apply (i_attempts _ HI). Qed.

Lemma closed_com st l : inv st -> l ∈ closed st -> com st <> NotYet.
Proof. intros HI H E. apply (i_closed _ HI) in H. rewrite E in H. by apply elem_of_nil in H. Qed.

Lemma inv_answer st i s ans : inv st -> inv (receive_answer st i s ans).1.
Proof.
  intros HI. unfold receive_answer. destruct (pushes st !! i) as [x|] eqn:Hx; [|done].
  pose proof (i_pushes _ HI _ _ Hx) as [B1 B2 B3 B4 B5].
  assert (Hgen : forall l ph, phase_loc (p_phase x) = Some l -> may_answer st l s ans = true ->
    (forall l', phase_loc ph = Some l' -> l' = l) ->
    (phase_stored ph = true -> ans = AOk \/ ans = AMapEnded \/ ans = ASoftSplit) ->
    inv (set_phase (if s then with_stored st (stored st ++ [(l, p_frame x)]) else st) i x ph)).
  { intros l ph Hl Hm Hph Hst. destruct (B3 l Hl) as [Hk Hp].
    apply inv_set_phase.
    - destruct s; [|done]. apply inv_store; try done. by rewrite B1.
    - by destruct s.
    - intros l' Hl'. apply Hph in Hl' as ->. by destruct s.
    - intros H. apply Hst in H.
      destruct s.
      + left. exists l. cbn. apply elem_of_app. right. apply elem_of_list_here.
      + right. destruct H as [->|[->| ->]]; cbn in Hm; try done.
        apply bool_decide_eq_true in Hm. split; [by eapply closed_com|]. by eapply pending_not_won. }
  destruct (p_phase x) as [l|l b|l b|l|l b] eqn:Hph; try done.
  - destruct (may_answer st l s ans) eqn:Hm; [|done]. cbn [fst].
    apply Hgen; [done|done| |]; destruct ans; cbn; naive_solver.
  - destruct (may_answer st l s ans) eqn:Hm; [|done]. cbn [fst].
    apply Hgen; [done|done| |]; destruct ans; cbn; naive_solver.
Qed.

Lemma inv_revives st rv : inv st ->
  (forall p ws i, rv !! p = Some ws -> i ∈ ws ->
    i < next st /\ forall x, pushes st !! i = Some x -> f_part (p_frame x) = p) ->
  inv (with_revives st rv).
Proof.
  intros [A1 A2 A3 A4 A5 A6 A7 A8 A9 A10 A11 A12 A13 A14 A15 A16] Hr. split; try done.
  - intros c k H. destruct (A3 _ _ H). by split.
  - intros i y H. destruct (A5 _ _ H). by split.
Qed.

Lemma inv_ask_revive st i : inv st -> inv (ask_revive st i).1.
Proof.
  intros HI. unfold ask_revive. destruct (pushes st !! i) as [x|] eqn:Hx; [|done].
  pose proof (i_pushes _ HI _ _ Hx) as [B1 B2 B3 B4 B5].
  destruct (p_phase x) as [l|l b|l b|l|l b] eqn:Hph; try done.
  assert (Hfail : inv (set_phase st i x (Completing None false))) by by apply inv_set_phase.
  destruct (B3 l eq_refl) as [Hk Hp].
  assert (Hgo : inv (match current st !! l.1 with
    | Some e =>
        if decide (l.2 < e) then (set_phase st i x (revived (l.1, e) b), None')
        else if decide (e = l.2) then
          (with_revives (set_phase st i x (Waiting l b))
             (<[l.1:=default [] (revives st !! l.1) ++ [i]]> (revives st)), None')
        else (set_phase st i x (Completing None false), None')
    | None => (set_phase st i x (Completing None false), None')
    end).1).
  { destruct (current st !! l.1) as [e|] eqn:He; [|done].
    destruct (decide (l.2 < e)).
    - apply inv_set_phase; [done|done| |].
      + intros l' Hl'. assert (l' = (l.1, e)) as -> by (destruct b; cbn in Hl'; congruence).
        split; [by apply (i_current _ HI)|done].
      + intros Hs. apply B4. by destruct b.
    - destruct (decide (e = l.2)); [|done].
      assert (HI1 : inv (set_phase st i x (Waiting l b))).
      { apply inv_set_phase; [done|done| |].
        + intros l' Hl'. by apply B3.
        + intros Hs. by apply B4. }
      apply inv_revives; [done|]. intros p ws j H Hj.
      apply lookup_insert_Some in H as [[<- <-]|[_ H]]; [|by apply (i_revives _ HI1 _ _ _ H Hj)].
      apply elem_of_app in Hj as [Hj|Hj].
      + destruct (revives st !! l.1) as [ws|] eqn:Hw; [|by apply elem_of_nil in Hj].
        by apply (i_revives _ HI1 _ _ _ Hw).
      + apply elem_of_list_singleton in Hj as ->. split; [done|]. intros y Hy. cbn in Hy.
        rewrite lookup_insert in Hy. injection Hy as <-. by cbn. }
  by destruct (com st).
Qed.

Lemma lookup_wake answer waiting : forall (m : gmap nat push) i x',
  fold_left (fun m i => alter (wake answer) i m) waiting m !! i = Some x' ->
  exists x, m !! i = Some x /\ (x' = x \/ (i ∈ waiting /\ x' = wake answer x)).
Proof.
  assert (Hidem : forall x, wake answer (wake answer x) = wake answer x).
  { intros [c f ph]. destruct ph as [| |l b| |]; cbn; try done. destruct answer as [?|]; [|done].
    by destruct b. }
  induction waiting as [|j waiting IH]; intros m i x' H; [exists x'; auto|].
  cbn [fold_left] in H. apply IH in H as (x & Hx & Hor).
  destruct (decide (j = i)) as [->|Hne].
  - rewrite lookup_alter in Hx. apply fmap_Some in Hx as (y & Hy & ->). exists y. split; [done|].
    rewrite Hidem in Hor. right. split; [apply elem_of_list_here|]. by destruct Hor as [?|[_ ?]].
  - rewrite lookup_alter_ne in Hx by done. exists x. split; [done|].
    destruct Hor as [->|[Hi ->]]; [by left|right]. split; [by apply elem_of_list_further|done].
Qed.
Lemma wake_frame answer x : p_frame (wake answer x) = p_frame x.
Proof. destruct x as [c f ph]. by destruct ph. Qed.

Lemma inv_revive_done st p ok : inv st -> inv (revive_done st p ok).1.
Proof.
  intros HI. unfold revive_done. destruct (revives st !! p) as [waiting|] eqn:Hw; [|done].
  destruct (current st !! p) as [e|] eqn:He; [|done]. cbn [fst].
  set (answer := if ok then Some (p, S e) else None).
  set (st1 := with_revives st (delete p (revives st))).
  set (st2 := if ok then _ else _).
  assert (HI2 : inv st2).
  { assert (inv st1).
    { apply inv_revives; [done|]. intros p' ws i H Hi. apply lookup_delete_Some in H as [_ H].
      by apply (i_revives _ HI _ _ _ H). }
    destruct ok; [|done]. apply inv_places; [done| | |].
    - intros l Hl. apply elem_of_app. by left.
    - intros p' e' H'. apply lookup_insert_Some in H' as [[-> ->]|[_ H']].
      + apply elem_of_app. right. apply elem_of_list_here.
      + apply elem_of_app. left. by apply (i_current _ HI).
    - cbn. destruct (registered st) eqn:Hr; [done|]. exfalso. apply (i_current _ HI) in He.
      rewrite (i_unreg _ HI Hr) in He. by apply elem_of_nil in He. }
  assert (Hnew : forall l, answer = Some l -> l ∈ known st2 /\ l.1 = p).
  { intros l Hl. unfold answer, st2 in *. destruct ok; [|done]. injection Hl as <-. split; [|done].
    cbn. apply elem_of_app. right. apply elem_of_list_here. }
  assert (Hps : pushes st2 = pushes st) by by unfold st2; destruct ok.
  pose proof (inv_pushes st2 (fold_left (fun m i => alter (wake answer) i m) waiting (pushes st2))
    (next st2) HI2 (le_n _)) as H.
  replace (with_pushes st2 _) with (with_next (with_pushes st2
    (fold_left (fun m i => alter (wake answer) i m) waiting (pushes st2))) (next st2)) by by destruct st2.
  apply H; clear H.
  - intros i y H. apply lookup_wake in H as (x & Hx & Hor).
    pose proof (i_pushes _ HI2 _ _ Hx) as [B1 B2 B3 B4 B5].
    destruct Hor as [->|[Hi ->]]; [by split|].
    assert (Hp : f_part (p_frame x) = p).
    { rewrite Hps in Hx. by apply (i_revives _ HI _ _ _ Hw Hi). }
    destruct x as [c f ph]. cbn [p_frame p_phase] in *.
    destruct ph as [| |l b| |]; try (by split). cbn [wake p_phase p_client p_frame].
    destruct answer as [l'|]; cbn [revived].
    + destruct (Hnew l' eq_refl) as [Hk Hl'].
      split; cbn [p_frame p_phase]; try done.
      * intros l0 H0. assert (l0 = l') as -> by (destruct b; cbn in H0; congruence).
        split; [done|congruence].
      * intros Hs. apply B4. by destruct b.
    + split; cbn [p_frame p_phase]; done.
  - intros i y H. left. apply lookup_wake in H as (x & Hx & Hor). exists x. split; [done|].
    destruct Hor as [->|[_ ->]]; [done|apply wake_frame].
Qed.

(** The log *)
Lemma inv_push_completes st i : inv st -> inv (push_completes st i).1.
Proof.
  intros HI. unfold push_completes. destruct (pushes st !! i) as [x|] eqn:Hx; [|done].
  pose proof (i_pushes _ HI _ _ Hx) as [B1 B2 B3 B4 B5].
  destruct (p_phase x) as [l|l b|l b|l|l b] eqn:Hph; try done.
  set (st1 := with_pushes st (delete i (pushes st))).
  assert (HI1 : inv st1).
  { pose proof (inv_pushes st (delete i (pushes st)) (next st) HI (le_n _)) as H.
    replace st1 with (with_next (with_pushes st (delete i (pushes st))) (next st)) by by destruct st.
    apply H; clear H.
    - intros j y H. apply lookup_delete_Some in H as [_ H]. apply (i_pushes _ HI) in H as []. by split.
    - intros j y H. apply lookup_delete_Some in H as [_ H]. left. eauto. }
  set (st2 := match l with Some _ => _ | None => _ end).
  assert (HI2 : inv st2).
  { destruct l as [l|]; [|done]. apply inv_update_client; [done|]. intros l' Hl'.
    apply elem_of_list_singleton in Hl' as ->. by apply B3. }
  assert (H2 : pushes st2 = delete i (pushes st) /\ stored st2 = stored st /\ com st2 = com st /\
    attempts st2 = attempts st /\ next st2 = next st /\ ends st2 = ends st)
    by by unfold st2; destruct l.
  destruct H2 as (E1 & E2 & E3 & E4 & E5 & E6).
  assert (Hack : forall f, f ∈ acked st2 -> pushes st !! f_push f = None).
  { intros f Hf. assert (f ∈ acked st) by (unfold st2 in Hf; by destruct l).
    by apply (i_acked _ HI). }
  clearbody st2. destruct HI2 as [A1 A2 A3 A4 A5 A6 A7 A8 A9 A10 A11 A12 A13 A14 A15 A16].
  destruct b; cbn [fst].
  - split; try done.
    + intros c k H. destruct (A3 _ _ H). by split.
    + intros j y H. destruct (A5 _ _ H). by split.
    + intros f Hf. cbn in Hf. apply elem_of_app in Hf as [Hf|Hf]; [by apply A13|].
      apply elem_of_list_singleton in Hf as ->. split_and!; cbn.
      * destruct (B4 eq_refl) as [Hs|Hl]; [left|right].
        -- destruct Hs as [l' Hs]. exists l'. cbn. by rewrite E2.
        -- destruct Hl as [Hl1 Hl2]. split; [cbn; by rewrite E3|]. unfold won. cbn. by rewrite E4.
      * rewrite E1, B1. apply lookup_delete.
      * rewrite B1, E5. done.
    + cbn. apply NoDup_app. split; [done|]. split; [|apply NoDup_singleton].
      intros f Hf Hf'. apply elem_of_list_singleton in Hf' as ->. apply Hack in Hf.
      rewrite B1 in Hf. congruence.
  - split; try done.
    + intros c k H. destruct (A3 _ _ H). by split.
    + intros j y H. destruct (A5 _ _ H). by split.
    + intros y Hy. cbn. apply not_elem_of_cons. split; [|by apply A6]. intros ->. apply B5.
      cbn in Hy. by rewrite E6 in Hy.
Qed.

(** mapper_end *)
Lemma inv_log_end st m a ok :
  inv st -> ready_to_end st m a = true ->
  inv (with_log st (acked st) (broken st) ((m, a) :: ends st) ok).
Proof.
  intros [A1 A2 A3 A4 A5 A6 A7 A8 A9 A10 A11 A12 A13 A14 A15 A16] Hr.
  unfold ready_to_end in Hr. apply andb_prop in Hr as [Hr H3]. apply andb_prop in Hr as [H1 H2].
  apply bool_decide_eq_true in H1, H2, H3.
  split; try done.
  - intros c k H. destruct (A3 _ _ H). by split.
  - intros i x H. destruct (A5 _ _ H) as [B1 B2 B3 B4 B5]. split; try done.
    cbn. apply not_elem_of_cons. split; [|done]. by apply (H3 i x).
  - intros y Hy. cbn in *. apply elem_of_cons in Hy as [->|Hy]; [done|by apply A6].
  - intros m' a' H. cbn. apply elem_of_cons. right. by apply A7.
Qed.

Lemma inv_mapper_end st m a : inv st -> inv (mapper_end st m a).1.
Proof.
  intros HI. unfold mapper_end. destruct (ready_to_end st m a) eqn:Hr; [|done]. cbn [negb].
  destruct (decide _) as [|Hm]; [by apply inv_log_end|].
  assert (Hok : inv (end_ok st m a).1) by by apply inv_log_end.
  assert (Herr : inv (end_err st m a).1) by by apply inv_log_end.
  assert (Hgo : inv (if registered st then
        match attempts st !! m with
        | Some (Some _) => end_ok st m a
        | _ =>
          let st1 := with_attempts st (<[m := Some a]> (attempts st)) in
          if decide (None ∈ attempts st1) then end_ok st1 m a
          else
            let st2 := with_commit st1 (Committing (known st1) (m, a)) (closed st1) in
            (with_log st2 (acked st2) (broken st2) ((m, a) :: ends st2) (ok_ends st2), None')
        end
      else end_err st m a).1).
  { destruct (registered st); [|done].
    destruct (attempts st !! m) as [[a'|]|] eqn:Ha; [done| |].
    2:{ apply lookup_ge_None in Ha. lia. }
    assert (Hny : com st = NotYet).
    { destruct (com st) eqn:Hc; [done|exfalso..];
        (apply (i_com _ HI); [by rewrite Hc|]; by apply elem_of_list_lookup_2 in Ha). }
    pose proof (inv_log_end st m a (ok_ends st) HI Hr) as HI1.
    assert (Hcl : closed st = []).
    { destruct (closed st) as [|l cl] eqn:Hcl; [done|]. exfalso.
      eapply (closed_com st l HI); [|done]. rewrite Hcl. apply elem_of_list_here. }
    destruct HI1 as [A1 A2 A3 A4 A5 A6 A7 A8 A9 A10 A11 A12 A13 A14 A15 A16].
    assert (Hnl : forall f, f ∈ acked st -> is_stored st f).
    { intros f Hf. destruct (A13 f Hf) as ([Hs|[Hl _]] & _); [done|]. by cbn in Hl. }
    assert (Hps : forall i x, pushes st !! i = Some x -> phase_stored (p_phase x) = true ->
      is_stored st (p_frame x)).
    { intros i x Hx Hph. destruct (po_stored _ _ _ (A5 _ _ Hx) Hph) as [Hs|[Hl _]]; [done|]. by cbn in Hl. }
    set (st1 := with_attempts st (<[m := Some a]> (attempts st))).
    cbn [attempts st1 with_attempts]. cbv zeta.
    destruct (decide _) as [Hin|Hnin]; cbn [fst].
    - split; try done.
      + intros c k H. destruct (A3 _ _ H). by split.
      + intros i x H. destruct (A5 _ _ H) as [B1 B2 B3 B4 B5]. split; try done. intros Hph. left.
        by eapply Hps.
      + intros m' a' H. cbn in *. destruct (decide (m' = m)) as [->|Hne].
        * rewrite list_lookup_insert in H by lia. injection H as ->. apply elem_of_list_here.
        * rewrite list_lookup_insert_ne in H by done. by apply A7.
      + intros f Hf. destruct (A13 f Hf) as (_ & ? & ?). split_and!; try done. left. by apply Hnl.
    - split; try done.
      + intros c k H. destruct (A3 _ _ H). by split.
      + intros i x H. destruct (A5 _ _ H) as [B1 B2 B3 B4 B5]. split; try done. intros Hph. left.
        by eapply Hps.
      + intros m' a' H. cbn in *. destruct (decide (m' = m)) as [->|Hne].
        * rewrite list_lookup_insert in H by lia. injection H as ->. apply elem_of_list_here.
        * rewrite list_lookup_insert_ne in H by done. by apply A7.
      + intros l H. cbn in H. rewrite Hcl in H. by apply elem_of_nil in H.
      + intros _ l f H _. cbn in *. by apply (A1 l f).
      + intros f Hf. destruct (A13 f Hf) as (_ & ? & ?). split_and!; try done. left. by apply Hnl. }
  destruct (com st); done.
Qed.

Lemma inv_commit st x cl :
  inv st -> com st <> NotYet -> x <> NotYet -> com_locs x = com_locs (com st) ->
  (forall l, l ∈ cl -> l ∈ com_locs x) -> (forall ls, x = Committed ls -> forall l, l ∈ ls -> l ∈ cl) ->
  inv (with_commit st x cl).
Proof.
  intros [A1 A2 A3 A4 A5 A6 A7 A8 A9 A10 A11 A12 A13 A14 A15 A16] Hc Hx El Hcl Hcom.
  assert (G : grows st (with_commit st x cl)) by by split.
  split; try done.
  - intros c k H. destruct (A3 _ _ H). by split.
  - intros i y H. eapply grows_push; [exact G|done|]. by apply A5.
  - intros _. by apply A8.
  - intros _ l f H Hw. cbn. rewrite El. by eapply A11.
  - cbn. rewrite El. done.
  - intros f Hf. destruct (A13 f Hf) as (Hs & ? & ?). split_and!; try done.
    destruct Hs; [left; by eapply grows_is_stored|right; by eapply grows_late].
Qed.

Lemma inv_close_file st l : inv st -> inv (close_file st l).1.
Proof.
  intros HI. unfold close_file. destruct (com st) as [|ls w| |] eqn:Hc; try done.
  destruct (decide (l ∈ ls)); [|done]. cbn [fst]. rewrite <- Hc. apply inv_commit; try done.
  - by rewrite Hc.
  - by rewrite Hc.
  - intros l' Hl'. rewrite Hc. cbn. apply elem_of_cons in Hl' as [->|Hl']; [done|].
    apply (i_closed _ HI) in Hl'. by rewrite Hc in Hl'.
  - intros ls' E. congruence.
Qed.

Lemma inv_commit_done st ok : inv st -> inv (commit_done st ok).1.
Proof.
  intros HI. unfold commit_done. destruct (com st) as [|ls w| |] eqn:Hc; try done.
  assert (Hcl : forall l, l ∈ closed st -> l ∈ ls).
  { intros l Hl. apply (i_closed _ HI) in Hl. by rewrite Hc in Hl. }
  destruct ok.
  - destruct (decide _) as [Hall|]; [|done]. cbn [fst].
    assert (HI1 : inv (with_commit st (Committed ls) (closed st))).
    { apply inv_commit; try done.
      - by rewrite Hc.
      - by rewrite Hc.
      - intros ls' [= <-] l Hl. rewrite list.Forall_forall in Hall. by apply Hall. }
    destruct HI1 as [A1 A2 A3 A4 A5 A6 A7 A8 A9 A10 A11 A12 A13 A14 A15 A16]. split; try done.
    + intros c k H. destruct (A3 _ _ H). by split.
    + intros i y H. destruct (A5 _ _ H). by split.
  - cbn [fst]. apply inv_commit; try done.
    + by rewrite Hc.
    + by rewrite Hc.
Qed.

Lemma inv_step channels st o : inv st -> inv (step channels st o).1.
Proof.
  intros HI. destruct o; cbn [step].
  - by apply inv_ask_register.
  - by apply inv_ask_read.
  - by apply inv_reply_arrives.
  - by apply inv_start_push.
  - by apply inv_answer.
  - by apply inv_ask_revive.
  - by apply inv_revive_done.
  - by apply inv_push_completes.
  - by apply inv_mapper_end.
  - by apply inv_close_file.
  - by apply inv_commit_done.
Qed.
Lemma inv_run channels ops : forall st, inv st -> inv (run channels st ops).
Proof.
  induction ops as [|o ops IH]; intros st HI; [done|]. cbn [run]. by apply IH, inv_step.
Qed.

(** ** What a step keeps *)
Record keeps (a b : state) : Prop := Keeps {
  k_grows : grows a b;
  k_committed : forall ls, com a = Committed ls -> com b = Committed ls;
  k_failed : forall ls, com a = CommitFailed ls -> com b = CommitFailed ls;
  k_replies : forall i, i < next a -> replies b !! i = replies a !! i \/ replies b !! i = None;
}.
Lemma keeps_refl a : keeps a a.
Proof. split; auto. split; auto. Qed.
Lemma keeps_trans a b c : keeps a b -> keeps b c -> keeps a c.
Proof.
  intros [[G1 G2 G3 G4] K1 K2 K3] [[G1' G2' G3' G4'] K1' K2' K3']. split.
  - split; auto; [lia|]. intros H. destruct (G4 H) as [H1 H2]. destruct (G4' H1) as [H3 H4]. split; [done|congruence].
  - auto.
  - auto.
  - intros i Hi. destruct (K3' i) as [->|]; [lia| |by right]. by apply K3.
Qed.
(** Steps that leave the manager and the files alone. *)
Lemma keeps_same a b :
  known b = known a -> stored b = stored a -> next a <= next b -> com b = com a ->
  attempts b = attempts a ->
  (forall i, i < next a -> replies b !! i = replies a !! i \/ replies b !! i = None) -> keeps a b.
Proof.
  intros E1 E2 E3 E4 E5 E6. split; [split|..]; rewrite ?E1, ?E2, ?E4, ?E5; auto.
Qed.

Lemma keeps_step channels st o : inv st -> keeps st (step channels st o).1.
Proof.
  intros HI. destruct o as [c ok|c p|i|c p m a d|i s ans|i|p ok|i|m a|l|ok]; cbn [step].
  - unfold ask_register. destruct (registered st) eqn:Hr.
    + apply keeps_same; cbn; auto. intros i Hi. rewrite lookup_insert_ne by lia. by left.
    + destruct ok; [|apply keeps_refl]. cbn [fst]. split; [split|..]; cbn; auto.
      * rewrite (i_unreg _ HI Hr). intros l Hl. by apply elem_of_nil in Hl.
      * intros i Hi. rewrite lookup_insert_ne by lia. by left.
  - unfold ask_read. destruct (decide _); [|apply keeps_refl].
    apply keeps_same; cbn; auto. intros i Hi. rewrite lookup_insert_ne by lia. by left.
  - unfold reply_arrives. destruct (replies st !! i) as [r|]; [|apply keeps_refl].
    assert (Hd : forall j, delete i (replies st) !! j = replies st !! j \/ delete i (replies st) !! j = None).
    { intros j. destruct (decide (i = j)) as [->|]; [right; apply lookup_delete|left; by apply lookup_delete_ne]. }
    destruct (s_read r); [|apply keeps_same; cbn; auto].
    destruct (read_partition _ _ _); apply keeps_same; cbn; auto.
  - unfold start_push. destruct (decide _); [apply keeps_refl|].
    destruct (c_latest _ !! p); apply keeps_same; cbn; auto.
  - unfold receive_answer. destruct (pushes st !! i) as [x|]; [|apply keeps_refl].
    assert (Hgen : forall l ph,
      keeps st (set_phase (if s then with_stored st (stored st ++ [(l, p_frame x)]) else st) i x ph)).
    { intros l ph. destruct s; [|apply keeps_same; cbn; auto].
      split; [split|..]; cbn; auto. intros y Hy. apply elem_of_app. by left. }
    destruct (p_phase x); try apply keeps_refl; (destruct (may_answer _ _ _ _); [apply Hgen|apply keeps_refl]).
  - unfold ask_revive. destruct (pushes st !! i) as [x|]; [|apply keeps_refl].
    destruct (p_phase x); try apply keeps_refl.
    destruct (com st) eqn:Hc; try (apply keeps_same; cbn; by auto);
      (destruct (current st !! l.1); [|apply keeps_same; cbn; by auto];
       destruct (decide _); [apply keeps_same; cbn; by auto|];
       destruct (decide _); apply keeps_same; cbn; by auto).
  - unfold revive_done. destruct (revives st !! p) as [ws|]; [|apply keeps_refl].
    destruct (current st !! p); [|apply keeps_refl]. cbn [fst]. destruct ok.
    + split; [split|..]; cbn; auto. intros l Hl. apply elem_of_app. by left.
    + apply keeps_same; cbn; auto.
  - unfold push_completes. destruct (pushes st !! i) as [x|]; [|apply keeps_refl].
    destruct (p_phase x) as [| | | |l b]; try apply keeps_refl.
    destruct l, b; apply keeps_same; cbn; auto.
  - unfold mapper_end. destruct (negb _); [apply keeps_refl|].
    destruct (decide _) as [|Hm]; [apply keeps_same; cbn; auto|].
    destruct (attempts st !! m) as [[a'|]|] eqn:Ha.
    + destruct (com st) eqn:Hc; try (apply keeps_same; cbn; by auto);
        (destruct (registered st); apply keeps_same; cbn; by auto).
    + assert (Hny : com st = NotYet).
      { destruct (com st) eqn:Hc; [done|exfalso..];
          (apply (i_com _ HI); [by rewrite Hc|]; by apply elem_of_list_lookup_2 in Ha). }
      rewrite Hny. destruct (registered st); [|apply keeps_same; cbn; by auto].
      cbv zeta. destruct (decide _); cbn [fst];
        (split; [split|..]; cbn; auto; rewrite ?Hny; done).
    + apply lookup_ge_None in Ha. lia.
  - unfold close_file. destruct (com st) eqn:Hc; try apply keeps_refl.
    destruct (decide _); [|apply keeps_refl]. apply keeps_same; cbn; auto.
  - unfold commit_done. destruct (com st) eqn:Hc; try apply keeps_refl.
    destruct ok; [destruct (decide _); [|apply keeps_refl]|]; cbn [fst];
      (split; [split|..]; cbn; auto; rewrite ?Hc; try done).
Qed.
Lemma keeps_run channels ops : forall st, inv st -> keeps st (run channels st ops).
Proof.
  induction ops as [|o ops IH]; intros st HI; [apply keeps_refl|]. cbn [run].
  eapply keeps_trans; [by apply keeps_step|]. by apply IH, inv_step.
Qed.

(** ** Reading *)
Lemma elem_of_omap_place st l f :
  f ∈ omap (fun x : loc * frame => if decide (x.1 = l) then Some x.2 else None) (stored st) <->
  (l, f) ∈ stored st.
Proof.
  rewrite elem_of_list_omap. split.
  - intros ([l' f'] & Hin & H). cbn in H. destruct (decide (l' = l)); [|done]. by simplify_eq.
  - intros H. exists (l, f). split; [done|]. cbn. by rewrite decide_True.
Qed.
Lemma read_partition_spec st k p fs :
  read_partition st k p = Some fs ->
  (forall f, f ∈ fs <-> exists l, l ∈ c_history k /\ l.1 = p /\ (l, f) ∈ stored st) /\
  (forall l, l ∈ c_history k -> l.1 = p -> l ∈ closed st) /\
  (NoDup (c_history k) -> NoDup (map snd (stored st)) -> NoDup fs).
Proof.
  unfold read_partition. intros H.
  destruct (mapM (read_place st) (filter (fun l => l.1 = p) (c_history k))) as [fss|] eqn:Hm; [|done].
  injection H as <-.
  assert (Hf : forall l, l ∈ filter (fun l : loc => l.1 = p) (c_history k) <-> l ∈ c_history k /\ l.1 = p).
  { intros l. rewrite elem_of_list_filter. tauto. }
  assert (Hnd : NoDup (c_history k) -> NoDup (filter (fun l : loc => l.1 = p) (c_history k)))
    by apply NoDup_filter.
  revert Hf Hnd Hm. generalize (filter (fun l : loc => l.1 = p) (c_history k)) as ls. intros ls Hf Hnd Hm.
  apply mapM_Some in Hm.
  assert (Hall : forall l, l ∈ ls -> l ∈ closed st).
  { intros l Hl. clear -Hl Hm. induction Hm as [|l' fs' ls fss H1 H2 IH]; [by apply elem_of_nil in Hl|].
    apply elem_of_cons in Hl as [->|Hl]; [|by apply IH]. unfold read_place in H1.
    by destruct (decide (l' ∈ closed st)). }
  assert (Hin : forall f, f ∈ concat fss <-> exists l, l ∈ ls /\ (l, f) ∈ stored st).
  { intros f. clear -Hm. induction Hm as [|l' fs' ls fss H1 H2 IH]; cbn [concat].
    - split; [intros H; by apply elem_of_nil in H|]. intros (l & H & _). by apply elem_of_nil in H.
    - unfold read_place in H1. destruct (decide (l' ∈ closed st)); [|done]. injection H1 as <-.
      rewrite elem_of_app, IH, elem_of_omap_place. split.
      + intros [H|(l & ? & ?)]; [exists l'; split; [apply elem_of_list_here|done]|].
        exists l. split; [by apply elem_of_list_further|done].
      + intros (l & H & ?). apply elem_of_cons in H as [->|H]; [by left|right; eauto]. }
  split_and!.
  - intros f. rewrite Hin. split.
    + intros (l & H & ?). apply Hf in H as [? ?]. eauto.
    + intros (l & ? & ? & ?). exists l. split; [by apply Hf|done].
  - intros l ? ?. apply Hall. by apply Hf.
  - intros Hk Hs. specialize (Hnd Hk). clear -Hm Hnd Hs.
    assert (Hinj : forall l l' f, (l, f) ∈ stored st -> (l', f) ∈ stored st -> l = l').
    { intros l l' f. revert Hs. generalize (stored st). intros s Hs.
      induction s as [|[l0 f0] s IH]; intros H1 H2; [by apply elem_of_nil in H1|].
      cbn in Hs. apply NoDup_cons in Hs as [Hn Hs].
      assert (Hno : forall l, (l, f0) ∈ s -> False).
      { intros l1 H. apply Hn. apply elem_of_list_fmap. by exists (l1, f0). }
      apply elem_of_cons in H1 as [H1|H1]; apply elem_of_cons in H2 as [H2|H2]; simplify_eq; try done.
      - exfalso. by eapply Hno.
      - exfalso. by eapply Hno.
      - by apply IH. }
    assert (Hone : forall l, NoDup (omap (fun x : loc * frame => if decide (x.1 = l) then Some x.2 else None) (stored st))).
    { intros l. revert Hs. generalize (stored st). intros s Hs.
      induction s as [|[l0 f0] s IH]; [constructor|]. cbn in Hs. apply NoDup_cons in Hs as [Hn Hs].
      cbn. destruct (decide (l0 = l)); [|by apply IH]. apply NoDup_cons. split; [|by apply IH].
      intros H. apply elem_of_list_omap in H as ([l1 f1] & H1 & H2). cbn in H2.
      destruct (decide (l1 = l)); [|done]. apply Hn. apply elem_of_list_fmap. exists (l1, f1).
      split; [|done]. cbn. congruence. }
    induction Hm as [|l' fs' ls fss H1 H2 IH]; cbn [concat]; [constructor|].
    apply NoDup_cons in Hnd as [Hn Hnd]. unfold read_place in H1.
    destruct (decide (l' ∈ closed st)); [|done]. injection H1 as <-.
    apply NoDup_app. split; [apply Hone|]. split; [|by apply IH].
    intros f Hf Hf'. apply elem_of_omap_place in Hf.
    assert (exists l, l ∈ ls /\ (l, f) ∈ stored st) as (l & Hl & Hlf).
    { clear -H2 Hf'. induction H2 as [|l' fs' ls fss H1 H2 IH]; cbn [concat] in Hf'; [by apply elem_of_nil in Hf'|].
      apply elem_of_app in Hf' as [Hf'|Hf'].
      - unfold read_place in H1. destruct (decide (l' ∈ closed st)); [|done]. injection H1 as <-.
        apply elem_of_omap_place in Hf'. exists l'. split; [apply elem_of_list_here|done].
      - destruct (IH Hf') as (l & ? & ?). exists l. split; [by apply elem_of_list_further|done]. }
    apply Hn. by rewrite (Hinj _ _ _ Hf Hlf).
Qed.

Lemma elem_of_fold_history ls : forall k l,
  l ∈ c_history (fold_left update_location ls k) <-> l ∈ c_history k \/ l ∈ ls.
Proof.
  induction ls as [|l' ls IH]; intros k l; cbn [fold_left].
  - rewrite elem_of_nil. tauto.
  - rewrite IH, elem_of_cons. unfold update_location. cbn [c_history].
    destruct (decide (l' ∈ c_history k)) as [Hin|].
    + naive_solver.
    + rewrite elem_of_insert_by_epoch. tauto.
Qed.

(** ** Each batch is stored once if failed pushes store nothing *)
Definition phase_fresh (ph : phase) : bool :=
  match ph with
  | Pushing _ | Retrying _ => true
  | Reviving _ b | Waiting _ b => negb b
  | Completing _ _ => false
  end.
Record once (st : state) : Prop := Once {
  o_nodup : NoDup (map snd (stored st));
  o_from : forall l f, (l, f) ∈ stored st ->
    f ∈ acked st \/ (exists x, pushes st !! f_push f = Some x /\ p_frame x = f) \/ attempt_of f ∈ broken st;
  o_fresh : forall i x, pushes st !! i = Some x -> phase_fresh (p_phase x) = true -> ~ is_stored st (p_frame x);
}.
Lemma once_init n : once (init n).
Proof.
  split; cbn.
  - constructor.
  - intros l f H. by apply elem_of_nil in H.
  - intros i x H. by rewrite lookup_empty in H.
Qed.
Lemma once_same st st' :
  inv st -> once st -> stored st' = stored st ->
  (forall f, f ∈ acked st -> f ∈ acked st') -> (forall y, y ∈ broken st -> y ∈ broken st') ->
  (forall i x, pushes st !! i = Some x ->
    (exists x', pushes st' !! i = Some x' /\ p_frame x' = p_frame x) \/
    p_frame x ∈ acked st' \/ attempt_of (p_frame x) ∈ broken st') ->
  (forall i x', pushes st' !! i = Some x' -> phase_fresh (p_phase x') = true ->
    (exists x, pushes st !! i = Some x /\ phase_fresh (p_phase x) = true /\ p_frame x = p_frame x') \/
    next st <= f_push (p_frame x')) ->
  once st'.
Proof.
  intros HI [O1 O2 O3] Es Ha Hb Hp Hp'. split.
  - by rewrite Es.
  - intros l f H. rewrite Es in H. destruct (O2 l f H) as [H1|[(x & H1 & H2)|H1]]; auto.
    destruct (Hp _ _ H1) as [(x' & H3 & H4)|[H3|H3]].
    + right. left. exists x'. split; [done|congruence].
    + left. congruence.
    + right. right. congruence.
  - intros i x' H Hf [l Hs]. rewrite Es in Hs. destruct (Hp' _ _ H Hf) as [(x & H1 & H2 & H3)|H1].
    + apply (O3 _ _ H1 H2). exists l. by rewrite H3.
    + apply (i_stored _ HI) in Hs as (_ & _ & Hs). lia.
Qed.
Lemma once_keep_pushes st st' :
  inv st -> once st -> stored st' = stored st -> acked st' = acked st -> broken st' = broken st ->
  pushes st' = pushes st -> once st'.
Proof.
  intros HI HO E1 E2 E3 E4. apply (once_same st); try done; rewrite ?E2, ?E3, ?E4; eauto.
Qed.
Lemma once_phase st i x ph :
  inv st -> once st -> pushes st !! i = Some x ->
  (phase_fresh ph = true -> phase_fresh (p_phase x) = true) -> once (set_phase st i x ph).
Proof.
  intros HI HO Hx Hf. apply (once_same st); try done; cbn.
  - intros j y H. destruct (decide (i = j)) as [->|Hne].
    + left. eexists. rewrite lookup_insert. split; [done|]. cbn. congruence.
    + left. exists y. by rewrite lookup_insert_ne.
  - intros j y H Hy. apply lookup_insert_Some in H as [[<- <-]|[Hne H]]; [|eauto].
    left. exists x. split_and!; auto.
Qed.

Lemma once_step channels st o : honest o -> inv st -> once st -> once (step channels st o).1.
Proof.
  intros Hh HI HO. destruct o as [c ok|c p|i|c p m a d|i s ans|i|p ok|i|m a|l|ok]; cbn [step].
  - unfold ask_register. destruct (registered st); [by apply (once_keep_pushes st)|].
    destruct ok; [|done]. by apply (once_keep_pushes st).
  - unfold ask_read. destruct (decide _); [|done]. by apply (once_keep_pushes st).
  - unfold reply_arrives. destruct (replies st !! i) as [r|]; [|done].
    destruct (s_read r); [|by apply (once_keep_pushes st)].
    destruct (read_partition _ _ _); by apply (once_keep_pushes st).
  - unfold start_push. destruct (decide _) as [|Hno]; [done|].
    destruct (c_latest _ !! p).
    + apply (once_same st); try done; cbn.
      * intros i x H. left. exists x. rewrite lookup_insert_ne; [done|]. intros <-.
        apply (i_pushes _ HI) in H as [? ? _ _ _]. lia.
      * intros i x H Hf. apply lookup_insert_Some in H as [[<- <-]|[_ H]]; [right; done|left; eauto].
    + apply (once_same st); try done; cbn; eauto. intros y Hy. by apply elem_of_list_further.
  - unfold receive_answer. destruct (pushes st !! i) as [x|] eqn:Hx; [|done].
    pose proof (i_pushes _ HI _ _ Hx) as [B1 B2 B3 B4 B5].
    assert (Hgen : forall l ph, phase_fresh (p_phase x) = true -> may_answer st l s ans = true ->
      (s = true -> phase_fresh ph = false) ->
      once (set_phase (if s then with_stored st (stored st ++ [(l, p_frame x)]) else st) i x ph)).
    { intros l ph Hfr Hm Hph. destruct s; [|by apply once_phase].
      specialize (Hph eq_refl). destruct HO as [O1 O2 O3]. split; cbn.
      - rewrite map_app. apply NoDup_app. split; [done|]. split; [|apply NoDup_singleton].
        intros f Hf Hf'. apply elem_of_list_singleton in Hf' as ->. apply (O3 _ _ Hx Hfr).
        apply elem_of_list_fmap in Hf as ([l' f'] & E & Hf). cbn in E. subst f'. by exists l'.
      - intros l' f' H. apply elem_of_app in H as [H|H].
        + destruct (O2 _ _ H) as [H1|[(y & H1 & H2)|H1]]; [by left| |by right; right].
          right. left. destruct (decide (i = f_push f')) as [->|Hne].
          * eexists. rewrite lookup_insert. split; [done|]. cbn. congruence.
          * exists y. by rewrite lookup_insert_ne.
        + apply elem_of_list_singleton in H. simplify_eq. right. left. eexists.
          rewrite lookup_insert. split; [done|]. done.
      - intros j y H Hf [l' Hs]. cbn in Hs. apply lookup_insert_Some in H as [[<- <-]|[Hne H]].
        + cbn in Hf. congruence.
        + apply elem_of_app in Hs as [Hs|Hs]; [by apply (O3 _ _ H Hf); exists l'|].
          apply elem_of_list_singleton in Hs. simplify_eq.
          apply (i_pushes _ HI) in H as [H _ _ _ _]. congruence. }
    destruct (p_phase x) as [l|l b|l b|l|l b] eqn:Hph; try done.
    + destruct (may_answer st l s ans) eqn:Hm; [|done]. apply Hgen; [done|done|].
      intros ->. destruct ans; cbn in *; done.
    + destruct (may_answer st l s ans) eqn:Hm; [|done]. by apply Hgen.
  - unfold ask_revive. destruct (pushes st !! i) as [x|] eqn:Hx; [|done].
    destruct (p_phase x) as [l|l b|l b|l|l b] eqn:Hph; try done.
    assert (Hgo : once (match current st !! l.1 with
      | Some e =>
          if decide (l.2 < e) then (set_phase st i x (revived (l.1, e) b), None')
          else if decide (e = l.2) then
            (with_revives (set_phase st i x (Waiting l b))
               (<[l.1:=default [] (revives st !! l.1) ++ [i]]> (revives st)), None')
          else (set_phase st i x (Completing None false), None')
      | None => (set_phase st i x (Completing None false), None')
      end).1).
    { destruct (current st !! l.1) as [e|]; [|by apply once_phase].
      destruct (decide _).
      - apply once_phase; try done. rewrite Hph. by destruct b.
      - destruct (decide _); [|by apply once_phase].
        assert (H1 : once (set_phase st i x (Waiting l b))).
        { apply once_phase; try done. by rewrite Hph. }
        destruct H1 as [O1 O2 O3]. by split. }
    destruct (com st); try done; by apply once_phase.
  - unfold revive_done. destruct (revives st !! p) as [ws|]; [|done].
    destruct (current st !! p) as [e|]; [|done]. cbn [fst].
    set (answer := if ok then Some (p, S e) else None).
    set (st2 := if ok then _ else _).
    assert (E : pushes st2 = pushes st /\ stored st2 = stored st /\ acked st2 = acked st /\ broken st2 = broken st)
      by by unfold st2; destruct ok.
    destruct E as (E1 & E2 & E3 & E4). clearbody st2. apply (once_same st); try done; cbn.
    + by rewrite E3.
    + by rewrite E4.
    + intros i x H. left. rewrite E1.
      assert (Hall : forall ws (m : gmap nat push), (exists y, m !! i = Some y /\ p_frame y = p_frame x) ->
        exists y, fold_left (fun m i => alter (wake answer) i m) ws m !! i = Some y /\ p_frame y = p_frame x).
      { clear. induction ws as [|j ws IH]; intros m (y & Hy & E); [eauto|]. cbn [fold_left]. apply IH.
        destruct (decide (j = i)) as [->|Hne].
        - exists (wake answer y). rewrite lookup_alter, Hy. split; [done|]. by rewrite wake_frame.
        - exists y. by rewrite lookup_alter_ne. }
      apply Hall. eauto.
    + intros i x' H Hf. rewrite E1 in H. apply lookup_wake in H as (x & Hx & Hor). left. exists x.
      destruct Hor as [->|[_ ->]]; [done|]. split_and!; [done| |by rewrite wake_frame].
      destruct x as [c f ph]. destruct ph as [| |l b| |]; try done. cbn in *.
      destruct answer; [|done]. by destruct b.
  - unfold push_completes. destruct (pushes st !! i) as [x|] eqn:Hx; [|done].
    destruct (p_phase x) as [l|l b|l b|l|l b] eqn:Hph; try done.
    set (st2 := match l with Some _ => _ | None => _ end).
    assert (E : pushes st2 = delete i (pushes st) /\ stored st2 = stored st /\ acked st2 = acked st /\ broken st2 = broken st)
      by by unfold st2; destruct l.
    destruct E as (E1 & E2 & E3 & E4). clearbody st2.
    destruct b; cbn [fst]; (apply (once_same st); try done; cbn; rewrite ?E1, ?E3, ?E4; try done).
    + intros f Hf. apply elem_of_app. by left.
    + intros j y H. destruct (decide (i = j)) as [->|Hne].
      * right. left. apply elem_of_app. right. assert (y = x) as -> by congruence. apply elem_of_list_here.
      * left. exists y. by rewrite lookup_delete_ne.
    + intros j y H Hf. apply lookup_delete_Some in H as [_ H]. left. eauto.
    + intros y Hy. by apply elem_of_list_further.
    + intros j y H. destruct (decide (i = j)) as [->|Hne].
      * right. right. assert (y = x) as -> by congruence. apply elem_of_list_here.
      * left. exists y. by rewrite lookup_delete_ne.
    + intros j y H Hf. apply lookup_delete_Some in H as [_ H]. left. eauto.
  - unfold mapper_end. destruct (negb _); [done|]. destruct (decide _); [by apply (once_keep_pushes st)|].
    assert (Hgo : once (if registered st then
        match attempts st !! m with
        | Some (Some _) => end_ok st m a
        | _ =>
          let st1 := with_attempts st (<[m := Some a]> (attempts st)) in
          if decide (None ∈ attempts st1) then end_ok st1 m a
          else
            let st2 := with_commit st1 (Committing (known st1) (m, a)) (closed st1) in
            (with_log st2 (acked st2) (broken st2) ((m, a) :: ends st2) (ok_ends st2), None')
        end
      else end_err st m a).1).
    { destruct (registered st); [|by apply (once_keep_pushes st)].
      destruct (attempts st !! m) as [[]|]; [by apply (once_keep_pushes st)|..];
        (cbv zeta; destruct (decide _); by apply (once_keep_pushes st)). }
    destruct (com st); try done; by apply (once_keep_pushes st).
  - unfold close_file. destruct (com st); try done. destruct (decide _); [|done].
    by apply (once_keep_pushes st).
  - unfold commit_done. destruct (com st); try done. destruct ok.
    + destruct (decide _); [|done]. by apply (once_keep_pushes st).
    + by apply (once_keep_pushes st).
Qed.
Lemma once_run channels ops : forall st,
  Forall honest ops -> inv st -> once st -> once (run channels st ops).
Proof.
  induction ops as [|o ops IH]; intros st Hh HI HO; [done|]. cbn [run].
  apply Forall_cons in Hh as [Hh1 Hh2]. apply IH; [done|by apply inv_step|by apply once_step].
Qed.

(** ** The theorems *)
Section theorems.
Context (channels n c p : nat) (ops1 ops2 : list op).
Let st1 := run channels (init n) ops1.
Context (st1' : state).
Context (Hask : step channels st1 (AskRead c p) = (st1', None')).
Let st2 := run channels st1' ops2.
Context (st3 : state) (fs : list frame).
Context (Hread : step channels st2 (ReplyArrives (next st1)) = (st3, Batches fs)).

Lemma read_facts :
  inv st1 /\ inv st2 /\ keeps st1 st2 /\
  exists k, NoDup (c_history k) /\
    (forall l, l ∈ known st1 -> l.1 = p -> l ∈ c_history k) /\
    (forall f, f ∈ fs <-> exists l, l ∈ c_history k /\ l.1 = p /\ (l, f) ∈ stored st2) /\
    (forall l, l ∈ c_history k -> l.1 = p -> l ∈ closed st2) /\
    (NoDup (map snd (stored st2)) -> NoDup fs).
Proof using Hask Hread.
  assert (HI1 : inv st1) by apply inv_run, inv_init.
  assert (HI1' : inv st1').
  { replace st1' with (step channels st1 (AskRead c p)).1 by by rewrite Hask. by apply inv_step. }
  assert (HI2 : inv st2) by by apply inv_run.
  assert (K1 : keeps st1 st1').
  { replace st1' with (step channels st1 (AskRead c p)).1 by by rewrite Hask. by apply keeps_step. }
  assert (K2 : keeps st1' st2) by by apply keeps_run.
  split; [done|]. split; [done|]. split; [by eapply keeps_trans|].
  assert (Hr2 : exists r, replies st2 !! next st1 = Some r).
  { cbn [step] in Hread. unfold reply_arrives in Hread. destruct (replies st2 !! next st1); [eauto|done]. }
  destruct Hr2 as [r Hr2].
  assert (Hr : r = Reply c (Some p) (known st1)).
  { cbn [step] in Hask. unfold ask_read in Hask.
    destruct (decide (Exists (fun l => l.1 = p) (c_history (client_of st1 c)))); [|done].
    injection Hask as E. 
    assert (E1 : replies st1' !! next st1 = Some (Reply c (Some p) (known st1)))
      by by rewrite <- E; cbn; rewrite lookup_insert.
    assert (E2 : next st1 < next st1') by (rewrite <- E; cbn; lia).
    destruct (k_replies _ _ K2 _ E2) as [E3|E3]; congruence. }
  subst r. cbn [step] in Hread. unfold reply_arrives in Hread. rewrite Hr2 in Hread.
  cbn [s_read s_client s_locs] in Hread.
  set (st2' := update_client _ _ _) in Hread.
  assert (HI2' : inv st2').
  { pose proof (inv_reply_arrives st2 (next st1) HI2) as H. unfold reply_arrives in H. rewrite Hr2 in H.
    cbn [s_read s_client s_locs] in H. fold st2' in H. by destruct (read_partition _ _ _). }
  destruct (read_partition st2' (client_of st2' c) p) as [fs'|] eqn:Hrp; [|done].
  injection Hread as <- <-. apply read_partition_spec in Hrp as (R1 & R2 & R3).
  exists (client_of st2' c). split_and!.
  - by apply (client_ok_of st2').
  - intros l Hl Hp. unfold st2', client_of, update_client. cbn [clients with_clients]. rewrite lookup_insert.
    cbn [default]. apply elem_of_fold_history. right. apply elem_of_list_filter. done.
  - exact R1.
  - exact R2.
  - apply R3. by apply (client_ok_of st2').
Qed.

(** A read that was asked for after the shuffle is committed returns everything the winning
    attempts wrote. *)
Lemma read_complete f :
  is_committed st1 -> f ∈ written p st1 -> won st1 f -> f ∈ fs.
Proof using Hask Hread.
  intros [ls Hc] Hf Hw. destruct read_facts as (HI1 & HI2 & K & k & _ & R1 & R2 & _ & _).
  apply elem_of_list_filter in Hf as [Hp Hf]. apply R2.
  destruct (i_acked _ HI1 _ Hf) as [[[l Hl]|[_ Hn]] _]; [|done].
  destruct (i_stored _ HI1 _ _ Hl) as (H1 & H2 & _). exists l. split_and!.
  - apply R1; [done|congruence].
  - congruence.
  - by apply (g_stored _ _ (k_grows _ _ K)).
Qed.
Lemma read_sound f :
  f ∈ fs -> f_part f = p /\ exists l, (l, f) ∈ stored st2 /\ l ∈ closed st2.
Proof using Hask Hread.
  intros Hf. destruct read_facts as (HI1 & HI2 & K & k & _ & R1 & R2 & R3 & _).
  apply R2 in Hf as (l & H1 & H2 & H3). destruct (i_stored _ HI2 _ _ H3) as (_ & H4 & _).
  split; [congruence|]. eauto.
Qed.
Lemma read_exact :
  is_committed st1 -> Forall honest (ops1 ++ AskRead c p :: ops2) ->
  filter (won st2) fs ≡ₚ filter (won st2) (written p st2).
Proof using Hask Hread.
  intros [ls Hc] Hh. destruct read_facts as (HI1 & HI2 & K & k & _ & R1 & R2 & R3 & R4).
  assert (HO : once st2).
  { apply Forall_app in Hh as [Hh1 Hh2]. apply Forall_cons in Hh2 as [Hh2 Hh3].
    assert (H1 : once st1) by (apply once_run; [done|apply inv_init|apply once_init]).
    assert (H2 : once st1').
    { replace st1' with (step channels st1 (AskRead c p)).1 by by rewrite Hask. by apply once_step. }
    apply once_run; [done| |done].
    replace st1' with (step channels st1 (AskRead c p)).1 by by rewrite Hask. by apply inv_step. }
  destruct HO as [O1 O2 O3].
  apply NoDup_Permutation.
  - apply NoDup_filter. by apply R4.
  - apply NoDup_filter, NoDup_filter. apply (i_acked_nodup _ HI2).
  - intros f. rewrite !elem_of_list_filter. split.
    + intros [Hw Hf]. split; [done|]. apply R2 in Hf as (l & H1 & H2 & H3).
      unfold written. rewrite elem_of_list_filter. destruct (i_stored _ HI2 _ _ H3) as (_ & H4 & _). split; [congruence|].
      destruct (O2 _ _ H3) as [?|[(x & Hx & E)|Hb]]; [done| |].
      * exfalso. apply (pending_not_won _ _ _ HI2 Hx). by rewrite E.
      * exfalso. apply (i_ends _ HI2) in Hb; [done|]. by apply (i_attempts _ HI2).
    + intros (Hw & Hf). apply elem_of_list_filter in Hf as [Hp Hf]. split; [done|]. apply R2.
      destruct (i_acked _ HI2 _ Hf) as [[[l Hl]|[_ Hn]] _]; [|done].
      destruct (i_stored _ HI2 _ _ Hl) as (H1 & H2 & _). exists l. split_and!; [|congruence|done].
      apply R1; [|congruence]. apply (i_known _ HI1). rewrite Hc. cbn.
      assert (Hc2 : com st2 = Committed ls) by by apply (k_committed _ _ K).
      assert (H3 : l ∈ com_locs (com st2)) by (apply (i_won _ HI2) with f; rewrite ?Hc2; done).
      by rewrite Hc2 in H3.
Qed.
End theorems.

(** ** Ends of mappers *)
Record ended (st : state) : Prop := Ended {
  e_ok : forall y, y ∈ ok_ends st -> y ∈ ends st;
  e_done : forall m a, (m, a) ∈ ok_ends st -> attempts st !! m <> Some None;
  e_open : com st = NotYet -> None ∈ attempts st;
  e_wait : forall ls m a, com st = Committing ls (m, a) ->
    (m, a) ∈ ends st /\ (m, a) ∉ ok_ends st /\ m < length (attempts st);
  e_failed : forall ls, com st = CommitFailed ls ->
    exists m a, (m, a) ∈ ends st /\ (m, a) ∉ ok_ends st /\ m < length (attempts st);
}.
Lemma ended_init n : 0 < n -> ended (init n).
Proof.
  intros Hn. split; cbn; try done.
  - intros m a H. by apply elem_of_nil in H.
  - intros _. destruct n; [lia|]. apply elem_of_list_here.
Qed.
Lemma ended_same st st' :
  ended st -> ends st' = ends st -> ok_ends st' = ok_ends st -> com st' = com st ->
  attempts st' = attempts st -> ended st'.
Proof. intros [E1 E5 E2 E3 E4] H1 H2 H3 H4. split; rewrite ?H1, ?H2, ?H3, ?H4; auto. Qed.
Lemma ended_log st m a ok :
  ended st -> (m, a) ∉ ends st -> (ok = true -> attempts st !! m <> Some None) ->
  ended (with_log st (acked st) (broken st) ((m, a) :: ends st) (if ok : bool then (m, a) :: ok_ends st else ok_ends st)).
Proof.
  intros [E1 E5 E2 E3 E4] Hn Hat.
  assert (Hok : forall y, y ∈ (if ok : bool then (m, a) :: ok_ends st else ok_ends st) -> y = (m, a) \/ y ∈ ok_ends st).
  { intros y. destruct ok; [|by right]. intros H. by apply elem_of_cons in H. }
  split; cbn.
  - intros y Hy. apply elem_of_cons. apply Hok in Hy as [->|Hy]; auto.
  - intros m' a' Hy. destruct ok; [|by eapply E5]. apply elem_of_cons in Hy as [Hy|Hy]; [|by eapply E5].
    injection Hy as -> ->. by apply Hat.
  - done.
  - intros ls m' a' H. destruct (E3 _ _ _ H) as (H1 & H2 & H3). split_and!; [by apply elem_of_list_further| |done].
    intros H4. apply Hok in H4 as [H4|H4]; [congruence|done].
  - intros ls H. destruct (E4 _ H) as (m' & a' & H1 & H2 & H3). exists m', a'.
    split_and!; [by apply elem_of_list_further| |done].
    intros H4. apply Hok in H4 as [H4|H4]; [congruence|done].
Qed.
Lemma ended_step channels st o : inv st -> ended st -> ended (step channels st o).1.
Proof.
  intros HI HE. destruct o as [c ok|c p|i|c p m a d|i s ans|i|p ok|i|m a|l|ok]; cbn [step].
  - unfold ask_register. destruct (registered st); [by apply (ended_same st)|].
    destruct ok; [|done]. by apply (ended_same st).
  - unfold ask_read. destruct (decide _); [|done]. by apply (ended_same st).
  - unfold reply_arrives. destruct (replies st !! i) as [r|]; [|done].
    destruct (s_read r); [|by apply (ended_same st)].
    destruct (read_partition _ _ _); by apply (ended_same st).
  - unfold start_push. destruct (decide _) as [|Hno]; [done|].
    destruct (c_latest _ !! p); by apply (ended_same st).
  - unfold receive_answer. destruct (pushes st !! i) as [x|]; [|done].
    destruct (p_phase x); try done;
      (destruct (may_answer _ _ _ _); [|done]; destruct s; by apply (ended_same st)).
  - unfold ask_revive. destruct (pushes st !! i) as [x|]; [|done].
    destruct (p_phase x) as [l|l b|l b|l|l b]; try done.
    destruct (com st) eqn:Hc; try (by apply (ended_same st));
      (destruct (current st !! l.1); [|by apply (ended_same st)];
       destruct (decide _); [by apply (ended_same st)|];
       destruct (decide _); by apply (ended_same st)).
  - unfold revive_done. destruct (revives st !! p) as [ws|]; [|done].
    destruct (current st !! p) as [e|]; [|done]. cbn [fst]. destruct ok; by apply (ended_same st).
  - unfold push_completes. destruct (pushes st !! i) as [x|]; [|done].
    destruct (p_phase x) as [l|l b|l b|l|l b]; try done.
    destruct l, b; by apply (ended_same st).
  - unfold mapper_end. destruct (ready_to_end st m a) eqn:Hr; cbn [negb]; [|done].
    assert (Hn : (m, a) ∉ ends st).
    { unfold ready_to_end in Hr. apply andb_true_iff in Hr as [Hr _]. apply andb_true_iff in Hr as [_ Hr].
      by apply bool_decide_eq_true in Hr. }
    destruct (decide _) as [|Hm]; [by apply (ended_log st m a false)|].
    destruct (attempts st !! m) as [[a'|]|] eqn:Ha.
    + destruct (com st) eqn:Hc;
        [destruct (registered st)|destruct (registered st)|destruct (registered st)|];
        first [by apply (ended_log st m a true); rewrite ?Ha|by apply (ended_log st m a false)].
    + assert (Hny : com st = NotYet).
      { destruct (com st) eqn:Hc; [done|exfalso..];
          (apply (i_com _ HI); [by rewrite Hc|]; by apply elem_of_list_lookup_2 in Ha). }
      rewrite Hny. destruct (registered st); [|by apply (ended_log st m a false)].
      cbv zeta. destruct HE as [E1 E5 E2 E3 E4]. destruct (decide _) as [Hd|Hd]; cbn [fst].
      * split; cbn; rewrite ?Hny; try done.
        -- intros y Hy. apply elem_of_cons. apply elem_of_cons in Hy as [->|Hy]; auto.
        -- intros m' a' Hy. destruct (decide (m' = m)) as [->|Hne].
           ++ rewrite list_lookup_insert by lia. done.
           ++ rewrite list_lookup_insert_ne by done. apply elem_of_cons in Hy as [Hy|Hy]; [congruence|].
              by eapply E5.
      * split; cbn; try done.
        -- intros y Hy. apply elem_of_list_further. auto.
        -- intros m' a' Hy. destruct (decide (m' = m)) as [->|Hne].
           ++ rewrite list_lookup_insert by lia. done.
           ++ rewrite list_lookup_insert_ne by done. by eapply E5.
        -- intros ls m' a' H. simplify_eq. split_and!; [apply elem_of_list_here| |].
           ++ intros H. by apply E1 in H.
           ++ rewrite insert_length. lia.
    + apply lookup_ge_None in Ha. lia.
  - unfold close_file. destruct (com st) eqn:Hc; try done. destruct (decide _); [|done].
    apply (ended_same st); cbn; auto.
  - unfold commit_done. destruct (com st) as [|ls [m a]| |] eqn:Hc; try done.
    destruct HE as [E1 E5 E2 E3 E4]. destruct (E3 _ _ _ Hc) as (H1 & H2 & H3). destruct ok.
    + destruct (decide _); [|done]. cbn [fst]. split; cbn; try done.
      * intros y Hy. apply elem_of_cons in Hy as [->|Hy]; auto.
      * intros m' a' _ Hy. apply elem_of_list_lookup_2 in Hy. apply (i_com _ HI) in Hy; [done|]. by rewrite Hc.
    + cbn [fst]. split; cbn; try done. intros _ _. eauto.
Qed.
Lemma ended_run channels ops : forall st, inv st -> ended st -> ended (run channels st ops).
Proof.
  induction ops as [|o ops IH]; intros st HI HE; [done|]. cbn [run]. apply IH; [by apply inv_step|by apply ended_step].
Qed.
Lemma ended_committed st : ended st -> one_end_per_mapper st -> all_ended st -> is_committed st.
Proof.
  intros [E1 E5 E2 E3 E4] Hone Hall.
  assert (Hno : forall m a, (m, a) ∈ ends st -> (m, a) ∉ ok_ends st -> m < length (attempts st) -> False).
  { intros m a H1 H2 H3. destruct (Hall m H3) as [a' H4]. apply H2.
    assert (a' = a) as <-; [|done]. pose proof (E1 _ H4) as H5. clear -Hone H1 H5. unfold one_end_per_mapper in Hone.
    induction (ends st) as [|[m' b] l IH]; [by apply elem_of_nil in H1|].
    cbn in Hone. apply NoDup_cons in Hone as [Hn Hone].
    assert (Hno : forall a, (m', a) ∉ l).
    { intros y Hy. apply Hn. apply elem_of_list_fmap. by exists (m', y). }
    apply elem_of_cons in H1 as [H1|H1]; apply elem_of_cons in H5 as [H5|H5]; simplify_eq; try done.
    - by apply Hno in H5.
    - by apply Hno in H1.
    - by apply IH. }
  destruct (com st) as [|ls [m a]|ls|ls] eqn:Hc.
  - exfalso. specialize (E2 eq_refl). apply elem_of_list_lookup in E2 as [m Hm].
    destruct (Hall m) as [a Ha]; [by apply lookup_lt_Some in Hm|]. by apply E5 in Ha.
  - exfalso. destruct (E3 _ _ _ eq_refl) as (? & ? & ?). by eapply Hno.
  - exfalso. destruct (E4 _ eq_refl) as (m & a & ? & ? & ?). by eapply Hno.
  - by exists ls.
Qed.
