(** Proofs about the session manager. *)
From Coq Require Import Lia.
From stdpp Require Import prelude list gmap.
From Verif.Session Require Import SessionModel SessionSpec.

Section proofs.
Context (timeout : nat).

(** Reachable states. *)
Record inv (st : state) : Prop := Inv {
  inv_driver_lt : forall d, d ∈ drivers st -> d < next_driver st;
  inv_driver : forall d, d ∈ drivers st <->
    exists sid c u a, sessions st !! sid = Some (Running c u (Some d) a);
  inv_driver_inj : forall s1 s2 c1 u1 a1 c2 u2 a2 d,
    sessions st !! s1 = Some (Running c1 u1 (Some d) a1) ->
    sessions st !! s2 = Some (Running c2 u2 (Some d) a2) -> s1 = s2;
  inv_context_lt : forall sid c u d a, sessions st !! sid = Some (Running c u d a) -> c < next_context st;
  inv_context_inj : forall s1 s2 c u1 d1 a1 u2 d2 a2,
    sessions st !! s1 = Some (Running c u1 d1 a1) ->
    sessions st !! s2 = Some (Running c u2 d2 a2) -> s1 = s2;
  inv_active : forall sid c u d a, sessions st !! sid = Some (Running c u d a) ->
    a <= clock st /\ Probe (a + timeout) sid a ∈ probes st;
  inv_probe : forall p, p ∈ probes st -> p_due p = p_instant p + timeout /\ p_instant p <= clock st;
}.

Lemma inv_init : inv init.
Proof.
  split; cbn; set_solver.
Qed.

(** Closing a session that runs. *)
Lemma inv_close st sid c u d a s :
  inv st -> sessions st !! sid = Some (Running c u d a) -> (s = Deleted \/ s = Failed) ->
  inv (set_session (remove_driver st d) sid s).
Proof.
  intros [I1 I2 I3 I4 I5 I6 I7] Hs Hcl.
  assert (Hrun : forall sid' c' u' d' a',
    <[sid := s]> (sessions st) !! sid' = Some (Running c' u' d' a') ->
    sid' <> sid /\ sessions st !! sid' = Some (Running c' u' d' a')).
  { intros * H. destruct (decide (sid' = sid)) as [->|Hne].
    - rewrite lookup_insert in H. injection H as ->. by destruct Hcl.
    - rewrite lookup_insert_ne in H by done. done. }
  destruct d as [d|]; split; cbn [set_session remove_driver set_drivers sessions drivers next_driver
    next_context clock probes].
  - intros d' Hd'. apply I1. set_solver.
  - intros d'. rewrite elem_of_difference, elem_of_singleton, I2. split.
    + intros [(sid' & c' & u' & a' & H) Hne]. exists sid', c', u', a'.
      rewrite lookup_insert_ne; [done|]. intros <-. congruence.
    + intros (sid' & c' & u' & a' & H). apply Hrun in H as [Hne H]. split; [by exists sid', c', u', a'|].
      intros ->. apply Hne. eapply I3; [exact H|exact Hs].
  - intros * H1 H2. apply Hrun in H1 as [_ H1]. apply Hrun in H2 as [_ H2]. by eapply I3.
  - intros * H1. apply Hrun in H1 as [_ H1]. by eapply I4.
  - intros * H1 H2. apply Hrun in H1 as [_ H1]. apply Hrun in H2 as [_ H2]. by eapply I5.
  - intros * H1. apply Hrun in H1 as [_ H1]. by eapply I6.
  - done.
  - done.
  - intros d'. rewrite I2. split.
    + intros (sid' & c' & u' & a' & H). exists sid', c', u', a'.
      rewrite lookup_insert_ne; [done|]. intros <-. congruence.
    + intros (sid' & c' & u' & a' & H). apply Hrun in H as [Hne H]. by exists sid', c', u', a'.
  - intros * H1 H2. apply Hrun in H1 as [_ H1]. apply Hrun in H2 as [_ H2]. by eapply I3.
  - intros * H1. apply Hrun in H1 as [_ H1]. by eapply I4.
  - intros * H1 H2. apply Hrun in H1 as [_ H1]. apply Hrun in H2 as [_ H2]. by eapply I5.
  - intros * H1. apply Hrun in H1 as [_ H1]. by eapply I6.
  - done.
Qed.

(** Recording a closed session where none was running. *)
Lemma inv_record st sid s :
  inv st -> ~ is_running st sid -> (s = Deleted \/ s = Failed) -> inv (set_session st sid s).
Proof.
  intros [I1 I2 I3 I4 I5 I6 I7] Hn Hcl.
  assert (Hrun : forall sid' c' u' d' a',
    <[sid := s]> (sessions st) !! sid' = Some (Running c' u' d' a') ->
    sessions st !! sid' = Some (Running c' u' d' a')).
  { intros * H. destruct (decide (sid' = sid)) as [->|Hne].
    - rewrite lookup_insert in H. injection H as ->. by destruct Hcl.
    - by rewrite lookup_insert_ne in H by done. }
  split; cbn [set_session sessions drivers next_driver next_context clock probes]; try done.
  - intros d'. rewrite I2. split.
    + intros (sid' & c' & u' & a' & H). exists sid', c', u', a'.
      rewrite lookup_insert_ne; [done|]. intros <-. apply Hn. by exists c', u', (Some d'), a'.
    + intros (sid' & c' & u' & a' & H). apply Hrun in H. by exists sid', c', u', a'.
  - intros * H1 H2. apply Hrun in H1, H2. by eapply I3.
  - intros * H1. apply Hrun in H1. by eapply I4.
  - intros * H1 H2. apply Hrun in H1, H2. by eapply I5.
  - intros * H1. apply Hrun in H1. by eapply I6.
Qed.

Lemma inv_touch st sid c u d a :
  inv st -> sessions st !! sid = Some (Running c u d a) -> inv (touch timeout st sid).
Proof.
  intros [I1 I2 I3 I4 I5 I6 I7] Hs. unfold touch. rewrite Hs.
  assert (Hrun : forall sid' c' u' d' a',
    <[sid := Running c u d (clock st)]> (sessions st) !! sid' = Some (Running c' u' d' a') ->
    exists a0, sessions st !! sid' = Some (Running c' u' d' a0) /\
      ((sid' = sid /\ a' = clock st) \/ (sid' <> sid /\ a' = a0))).
  { intros * H. destruct (decide (sid' = sid)) as [->|Hne].
    - rewrite lookup_insert in H. injection H as -> -> -> <-. exists a. split; [done|]. by left.
    - rewrite lookup_insert_ne in H by done. exists a'. split; [done|]. by right. }
  split; cbn [sessions drivers next_driver next_context clock probes]; try done.
  - intros d'. rewrite I2. split.
    + intros (sid' & c' & u' & a' & H). destruct (decide (sid' = sid)) as [->|Hne].
      * rewrite Hs in H. injection H as -> -> -> ->. exists sid, c', u', (clock st).
        by rewrite lookup_insert.
      * exists sid', c', u', a'. by rewrite lookup_insert_ne.
    + intros (sid' & c' & u' & a' & H). apply Hrun in H as (a0 & H & _). eauto.
  - intros * H1 H2. apply Hrun in H1 as (? & H1 & _). apply Hrun in H2 as (? & H2 & _). by eapply I3.
  - intros * H1. apply Hrun in H1 as (? & H1 & _). by eapply I4.
  - intros * H1 H2. apply Hrun in H1 as (? & H1 & _). apply Hrun in H2 as (? & H2 & _). by eapply I5.
  - intros * H1. apply Hrun in H1 as (a1 & H1 & Hc). rewrite elem_of_app, elem_of_list_singleton.
    destruct Hc as [[-> ->]|[_ ->]].
    + split; [lia|]. by right.
    + apply I6 in H1 as [? ?]. split; [done|]. by left.
  - intros p. rewrite elem_of_app, elem_of_list_singleton. intros [Hp|Hp]; [by apply I7|].
    subst p. cbn. lia.
Qed.

Lemma create_spec st sid user r ok st' o :
  inv st -> sessions st !! sid = None -> create st sid user r ok = (st', o) ->
  clock st' = clock st /\
  (forall sid', sid' <> sid -> sessions st' !! sid' = sessions st !! sid') /\
  match o with
  | Context c =>
      c = next_context st /\ next_context st' = S c /\ (exists d, sessions st' !! sid = Some (Running c user d (clock st))) /\
      inv (touch timeout st' sid)
  | _ => (sessions st' !! sid = None \/ sessions st' !! sid = Some Failed) /\ o = Error /\
      next_context st' = next_context st /\ inv st'
  end.
Proof.
  intros [I1 I2 I3 I4 I5 I6 I7] Hs Hc. unfold create in Hc.
  assert (Hnew : forall d, (d = Some (next_driver st) \/ d = None) ->
    let st1 := State (<[sid := Running (next_context st) user d (clock st)]> (sessions st))
      (match d with Some d => drivers st ∪ {[d]} | None => drivers st end)
      (S (next_driver st)) (S (next_context st)) (clock st) (probes st) (busy st) in
    inv (touch timeout st1 sid)).
  { intros d Hd st1.
    assert (Hl : sessions st1 !! sid = Some (Running (next_context st) user d (clock st)))
      by (cbn; by rewrite lookup_insert).
    unfold touch. rewrite Hl. cbn [sessions drivers next_driver next_context clock probes st1].
    rewrite insert_insert.
    assert (Hrun : forall sid' c' u' d' a',
      <[sid := Running (next_context st) user d (clock st)]> (sessions st) !! sid' =
        Some (Running c' u' d' a') ->
      (sid' = sid /\ c' = next_context st /\ d' = d /\ a' = clock st) \/
      (sid' <> sid /\ sessions st !! sid' = Some (Running c' u' d' a'))).
    { intros * H. destruct (decide (sid' = sid)) as [->|Hne].
      - rewrite lookup_insert in H. injection H as <- <- <- <-. by left.
      - rewrite lookup_insert_ne in H by done. by right. }
    assert (Hdr : forall s c u d' a, sessions st !! s = Some (Running c u (Some d') a) ->
      d' < next_driver st).
    { intros. apply I1, I2. eauto 10. }
    split; cbn [sessions drivers next_driver next_context clock probes].
    - intros d' Hd'. destruct Hd as [->| ->].
      + apply elem_of_union in Hd' as [Hd'|Hd']; [apply I1 in Hd'; lia|].
        apply elem_of_singleton in Hd'. lia.
      + apply I1 in Hd'. lia.
    - intros d'. split.
      + intros Hd'.
        assert (Hold : d' ∈ drivers st -> exists sid0 c u a,
          <[sid := Running (next_context st) user d (clock st)]> (sessions st) !! sid0 =
            Some (Running c u (Some d') a)).
        { intros H. apply I2 in H as (sid' & c' & u' & a' & H). exists sid', c', u', a'.
          rewrite lookup_insert_ne; [done|]. intros <-. congruence. }
        destruct Hd as [->| ->]; [|by apply Hold].
        apply elem_of_union in Hd' as [Hd'|Hd']; [by apply Hold|].
        apply elem_of_singleton in Hd' as ->. exists sid, (next_context st), user, (clock st).
        by rewrite lookup_insert.
      + intros (sid' & c' & u' & a' & H). apply Hrun in H as [(-> & -> & Hd' & ->)|[_ H]].
        * rewrite <- Hd'. set_solver.
        * assert (d' ∈ drivers st) by (apply I2; eauto 10). destruct d; set_solver.
    - intros * H1 H2. apply Hrun in H1 as [(-> & -> & Hd1 & ->)|[Hn1 H1]];
        apply Hrun in H2 as [(-> & -> & Hd2 & ->)|[Hn2 H2]]; try done.
      + exfalso. destruct Hd as [->| ->]; [|done]. injection Hd1 as ->. apply Hdr in H2. lia.
      + exfalso. destruct Hd as [->| ->]; [|done]. injection Hd2 as ->. apply Hdr in H1. lia.
      + by eapply I3.
    - intros * H1. apply Hrun in H1 as [(-> & -> & Hd1 & ->)|[Hn1 H1]]; [lia|].
      apply I4 in H1. lia.
    - intros * H1 H2. apply Hrun in H1 as [(-> & Ec1 & Hd1 & ->)|[Hn1 H1]];
        apply Hrun in H2 as [(-> & Ec2 & Hd2 & ->)|[Hn2 H2]]; try done.
      + exfalso. apply I4 in H2. lia.
      + exfalso. apply I4 in H1. lia.
      + by eapply I5.
    - intros * H1. rewrite elem_of_app, elem_of_list_singleton.
      apply Hrun in H1 as [(-> & -> & Hd1 & ->)|[Hn1 H1]].
      + split; [lia|]. by right.
      + apply I6 in H1 as [? ?]. split; [done|]. by left.
    - intros p. rewrite elem_of_app, elem_of_list_singleton. intros [Hp|Hp]; [by apply I7|].
      subst p. cbn. lia. }
  assert (Hfail : forall n dr, dr = drivers st ->
    inv (State (<[sid := Failed]> (sessions st)) dr (S n) (next_context st) (clock st)
           (probes st) (busy st)) \/ n <> next_driver st).
  { intros n dr ->. destruct (decide (n = next_driver st)) as [->|]; [left|by right].
    pose proof (inv_record (State (sessions st) (drivers st) (S (next_driver st)) (next_context st)
      (clock st) (probes st) (busy st)) sid Failed) as Hr. cbn in Hr. apply Hr; [|..].
    - split; cbn; try done. intros d Hd. apply I1 in Hd. lia.
    - intros (? & ? & ? & ? & H). cbn in H. congruence.
    - by right. }
  assert (Hdd : drivers st ∪ {[next_driver st]} ∖ {[next_driver st]} = drivers st).
  { apply set_eq. intros x. set_solver. }
  destruct r.
  - injection Hc as <- <-. split_and!; try done. 
    + by left.
    + split; cbn; try done. intros d Hd. apply I1 in Hd. lia.
  - destruct ok; injection Hc as <- <-.
    + split_and!; try done.
      * intros sid' Hne. cbn. by rewrite lookup_insert_ne.
      * exists None. cbn. by rewrite lookup_insert.
      * apply (Hnew None). by right.
    + split_and!; try done.
      * intros sid' Hne. cbn. by rewrite lookup_insert_ne.
      * right. cbn. by rewrite lookup_insert.
      * destruct (Hfail (next_driver st) (drivers st) eq_refl) as [?|?]; done.
  - destruct ok; injection Hc as <- <-.
    + split_and!; try done.
      * intros sid' Hne. cbn. by rewrite lookup_insert_ne.
      * exists (Some (next_driver st)). cbn. by rewrite lookup_insert.
      * apply (Hnew (Some (next_driver st))). by left.
    + split_and!; try done.
      * intros sid' Hne. cbn. by rewrite lookup_insert_ne.
      * right. cbn. by rewrite lookup_insert.
      * cbn. destruct (Hfail (next_driver st)
          ((drivers st ∪ {[next_driver st]}) ∖ {[next_driver st]})) as [?|?]; [|done|done].
        apply set_eq. intros x. rewrite elem_of_difference, elem_of_union, !elem_of_singleton.
        split; [tauto|]. intros Hx. split; [by left|]. intros ->. apply I1 in Hx. lia.
Qed.

Lemma inv_request st sid user r ok : inv st -> inv (request timeout st sid user r ok).1.
Proof.
  intros HI. unfold request. destruct (sessions st !! sid) as [[c u d a| |]|] eqn:Hs; try done.
  - by eapply inv_touch.
  - destruct (create st sid user r ok) as [st' o] eqn:Hc.
    apply create_spec in Hc as (_ & _ & Hc); [|done|done].
    destruct o; cbn [fst]; [|by destruct Hc as (_ & _ & _ & ?)..].
    by destruct Hc as (_ & _ & _ & ?).
Qed.

Lemma elem_of_remove_nth {A} (l : list A) i x :
  x ∈ take i l ++ drop (S i) l -> x ∈ l.
Proof.
  rewrite elem_of_app. intros [H|H].
  - by apply elem_of_take in H as (j & H & _); apply elem_of_list_lookup_2 in H.
  - apply elem_of_list_lookup in H as [j H]. rewrite lookup_drop in H.
    by apply elem_of_list_lookup_2 in H.
Qed.
Lemma elem_of_keep_nth {A} (l : list A) i x y :
  x ∈ l -> l !! i = Some y -> x <> y -> x ∈ take i l ++ drop (S i) l.
Proof.
  intros Hx Hy Hne. rewrite <- (take_drop_middle l i y Hy) in Hx.
  rewrite elem_of_app, elem_of_cons in Hx. rewrite elem_of_app. tauto.
Qed.

Lemma inv_handle_probe st i : inv st -> inv (handle_probe st i).
Proof.
  intros HI. unfold handle_probe. destruct (probes st !! i) as [p|] eqn:Hp; [|done].
  destruct (decide (clock st < p_due p)); [done|].
  set (st1 := State _ _ _ _ _ _ _).
  assert (Hclose : forall c u d a, sessions st !! p_session p = Some (Running c u d a) ->
    inv (set_session (remove_driver st1 d) (p_session p) Deleted)).
  { intros c u d a Hs.
    destruct (inv_close st (p_session p) c u d a Deleted HI Hs) as [J1 J2 J3 J4 J5 J6 J7];
      [by left|].
    destruct HI as [I1 I2 I3 I4 I5 I6 I7].
    destruct d as [d|]; split; cbn [set_session remove_driver set_drivers sessions drivers next_driver
      next_context clock probes st1] in *; try done.
    1,3: intros sid' c' u' d' a' H; split; [by eapply J6|];
      eapply elem_of_keep_nth; [by eapply J6|exact Hp|]; intros <-; cbn [p_session] in H;
      by rewrite lookup_insert in H.
    all: intros q Hq; apply elem_of_remove_nth in Hq; by apply J7. }
  destruct (sessions st1 !! p_session p) as [[c u d a| |]|] eqn:Hs.
  - destruct (decide (a <= p_instant p)) as [Hle|Hgt]; [by eapply Hclose|].
    destruct HI as [I1 I2 I3 I4 I5 I6 I7].
    split; cbn [sessions drivers next_driver next_context clock probes st1] in *; try done.
    + intros * H. split; [by eapply I6|]. eapply elem_of_keep_nth; [by eapply I6|exact Hp|].
      intros <-. cbn in *. rewrite H in Hs. injection Hs as -> -> -> ->. lia.
    + intros q Hq. apply I7. by eapply elem_of_remove_nth.
  - destruct HI as [I1 I2 I3 I4 I5 I6 I7].
    split; cbn [sessions drivers next_driver next_context clock probes st1] in *; try done.
    + intros * H. split; [by eapply I6|]. eapply elem_of_keep_nth; [by eapply I6|exact Hp|].
      intros <-. cbn in *. by rewrite H in Hs.
    + intros q Hq. apply I7. by eapply elem_of_remove_nth.
  - destruct HI as [I1 I2 I3 I4 I5 I6 I7].
    split; cbn [sessions drivers next_driver next_context clock probes st1] in *; try done.
    + intros * H. split; [by eapply I6|]. eapply elem_of_keep_nth; [by eapply I6|exact Hp|].
      intros <-. cbn in *. by rewrite H in Hs.
    + intros q Hq. apply I7. by eapply elem_of_remove_nth.
  - destruct HI as [I1 I2 I3 I4 I5 I6 I7].
    split; cbn [sessions drivers next_driver next_context clock probes st1] in *; try done.
    + intros * H. split; [by eapply I6|]. eapply elem_of_keep_nth; [by eapply I6|exact Hp|].
      intros <-. cbn in *. by rewrite H in Hs.
    + intros q Hq. apply I7. by eapply elem_of_remove_nth.
Qed.

Lemma inv_step st o : inv st -> inv (step timeout st o).1.
Proof.
  intros HI. destruct o; cbn [step fst].
  - by apply inv_request.
  - destruct HI as [I1 I2 I3 I4 I5 I6 I7]. split; cbn; try done.
    + intros * H. apply I6 in H as [? ?]. split; [lia|done].
    + intros p Hp. apply I7 in Hp. lia.
  - by apply inv_handle_probe.
  - unfold delete_session. destruct (sessions st !! sid) as [[c u dr a| |]|] eqn:Hs; try done.
    eapply inv_close; [done|exact Hs|by left].
  - unfold set_failure. destruct (sessions st !! sid) as [[c u dr a| |]|] eqn:Hs; try done.
    + eapply inv_close; [done|exact Hs|by right].
    + apply inv_record; [done| |by right]. intros (? & ? & ? & ? & H). congruence.
    + apply inv_record; [done| |by right]. intros (? & ? & ? & ? & H). congruence.
  - destruct HI as [I1 I2 I3 I4 I5 I6 I7]. by split.
  - destruct HI as [I1 I2 I3 I4 I5 I6 I7]. by split.
Qed.

(** ** Histories *)
Lemma inv_run ops : forall st, inv st -> inv (run timeout st ops).
Proof.
  induction ops as [|o ops IH]; intros st HI; [done|]. cbn [run]. by apply IH, inv_step.
Qed.

Lemma run_app st ops1 ops2 : run timeout st (ops1 ++ ops2) = run timeout (run timeout st ops1) ops2.
Proof. revert st. induction ops1 as [|o ops1 IH]; intros st; [done|]. cbn. apply IH. Qed.

Lemma history_app st ops1 ops2 :
  history timeout st (ops1 ++ ops2) =
  history timeout st ops1 ++ history timeout (run timeout st ops1) ops2.
Proof.
  revert st. induction ops1 as [|o ops1 IH]; intros st; [done|]. cbn [app history run].
  destruct (step timeout st o) as [st' r] eqn:E. cbn [fst app]. by rewrite IH.
Qed.

Lemma history_length st ops : length (history timeout st ops) = length ops.
Proof.
  revert st. induction ops as [|o ops IH]; intros st; [done|]. cbn [history].
  destruct (step timeout st o). cbn [length]. by rewrite IH.
Qed.

Lemma history_lookup st ops i e :
  history timeout st ops !! i = Some e ->
  h_before e = run timeout st (take i ops) /\ ops !! i = Some (h_op e) /\
  step timeout (h_before e) (h_op e) = (h_after e, h_out e) /\
  h_after e = run timeout st (take (S i) ops).
Proof.
  revert st i. induction ops as [|o ops IH]; intros st i H; [done|].
  cbn [history] in H. destruct (step timeout st o) as [st' r] eqn:E.
  destruct i as [|i].
  - injection H as <-. cbn [h_before h_op h_after h_out]. split_and!; try done.
    cbn [take run]. by rewrite E.
  - cbn in H. apply IH in H as (H1 & H2 & H3 & H4). split_and!; try done.
    + cbn [take run]. by rewrite E.
    + rewrite H4. cbn [take run]. by rewrite E.
Qed.

(** What one operation does to one session. *)
Lemma step_session st o sid :
  inv st ->
  match sessions st !! sid with
  | Some (Running c u d a) =>
      match sessions (step timeout st o).1 !! sid with
      | Some (Running c' u' d' a') => c' = c /\ u' = u /\ d' = d /\
          (a' = a \/ (a' = clock st /\ exists u0 r ok, o = Request sid u0 r ok))
      | Some _ => True
      | None => False
      end
  | Some _ => is_closed (step timeout st o).1 sid
  | None =>
      match sessions (step timeout st o).1 !! sid with
      | Some (Running c u d a) => c = next_context st /\ next_context (step timeout st o).1 = S c /\
          a = clock st /\ exists r ok, o = Request sid u r ok
      | _ => True
      end
  end /\ next_context st <= next_context (step timeout st o).1 /\
  clock st <= clock (step timeout st o).1.
Proof.
  intros HI.
  assert (Hsame : match sessions st !! sid with
    | Some (Running c u d a) =>
        match sessions st !! sid with
        | Some (Running c' u' d' a') => c' = c /\ u' = u /\ d' = d /\
            (a' = a \/ (a' = clock st /\ exists u0 r ok, o = Request sid u0 r ok))
        | Some _ => True
        | None => False
        end
    | Some _ => is_closed st sid
    | None =>
        match sessions st !! sid with
        | Some (Running c u d a) => c = next_context st /\ next_context st = S c /\
            a = clock st /\ exists r ok, o = Request sid u r ok
        | _ => True
        end
    end).
  { unfold is_closed. destruct (sessions st !! sid) as [[c u d a| |]|] eqn:E; auto; split_and!; auto. }
  assert (Hrem : forall st0 d, sessions (remove_driver st0 d) = sessions st0 /\
    next_context (remove_driver st0 d) = next_context st0 /\ clock (remove_driver st0 d) = clock st0).
  { by intros st0 [d|]. }
  assert (Hset : forall st0 d sid0 s, sessions st0 = sessions st -> (s = Deleted \/ s = Failed) ->
    match sessions st !! sid with
    | Some (Running c u d1 a) =>
        match sessions (set_session (remove_driver st0 d) sid0 s) !! sid with
        | Some (Running c' u' d' a') => c' = c /\ u' = u /\ d' = d1 /\
            (a' = a \/ (a' = clock st /\ exists u0 r ok, o = Request sid u0 r ok))
        | Some _ => True
        | None => False
        end
    | Some _ => is_closed (set_session (remove_driver st0 d) sid0 s) sid
    | None =>
        match sessions (set_session (remove_driver st0 d) sid0 s) !! sid with
        | Some (Running c u d1 a) => c = next_context st /\
            next_context (set_session (remove_driver st0 d) sid0 s) = S c /\
            a = clock st /\ exists r ok, o = Request sid u r ok
        | _ => True
        end
    end).
  { intros st0 d sid0 s E0 Hcl. unfold is_closed. cbn [set_session sessions].
    destruct (Hrem st0 d) as (-> & _ & _). rewrite E0.
    destruct (decide (sid0 = sid)) as [->|Hne].
    - rewrite lookup_insert. destruct (sessions st !! sid) as [[]|]; destruct Hcl as [-> | ->]; auto.
    - rewrite lookup_insert_ne by done.
      destruct (sessions st !! sid) as [[]|] eqn:E; auto; split_and!; auto. }
  destruct o as [sid0 user r ok|dt|i|sid0|sid0|sid0|sid0]; cbn [step fst].
  - unfold request. destruct (sessions st !! sid0) as [[c u d a| |]|] eqn:Hs.
    + cbn [fst]. unfold touch. rewrite Hs. unfold is_closed. cbn [sessions next_context clock].
      split; [|lia]. destruct (decide (sid0 = sid)) as [->|Hne].
      * rewrite Hs, lookup_insert. split_and!; eauto 10.
      * rewrite lookup_insert_ne by done.
        destruct (sessions st !! sid) as [[]|] eqn:E; auto; split_and!; auto.
    + cbn [fst]. split; [|lia]. done.
    + cbn [fst]. split; [|lia]. done.
    + destruct (create st sid0 user r ok) as [st' x] eqn:Hc.
      apply create_spec in Hc as (Hck & Hoth & Hc); [|done|done].
      destruct x as [c| |]; cbn [fst].
      * destruct Hc as (-> & Hn & (d & Hnew) & _). unfold touch. rewrite Hnew. unfold is_closed.
        cbn [sessions next_context clock]. split; [|lia].
        destruct (decide (sid0 = sid)) as [->|Hne].
        -- rewrite Hs, lookup_insert. split_and!; eauto.
        -- rewrite lookup_insert_ne by done. rewrite Hoth by done.
           destruct (sessions st !! sid) as [[]|] eqn:E; auto; split_and!; auto.
      * destruct Hc as (Hnew & _ & Hn & _). split; [|lia]. unfold is_closed.
        destruct (decide (sid0 = sid)) as [->|Hne].
        -- rewrite Hs. by destruct Hnew as [-> | ->].
        -- rewrite Hoth by done.
           destruct (sessions st !! sid) as [[]|] eqn:E; auto; split_and!; auto.
      * by destruct Hc as (_ & ? & _).
  - split; [|cbn; lia]. exact Hsame.
  - unfold handle_probe. destruct (probes st !! i) as [p|]; [|cbn; split; [done|lia]].
    destruct (decide (clock st < p_due p)); [split; [done|lia]|].
    set (st1 := State _ _ _ _ _ _ _).
    destruct (sessions st1 !! p_session p) as [[c u d a| |]|]; [|split; [done|cbn; lia]..].
    destruct (decide (a <= p_instant p)); [|split; [done|cbn; lia]].
    split; [by apply Hset; [|left]|]. destruct (Hrem st1 d) as (_ & E1 & E2).
    cbn [set_session next_context clock]. rewrite E1, E2. cbn. lia.
  - unfold delete_session. destruct (sessions st !! sid0) as [[c u d a| |]|]; cbn [fst];
      [|split; [done|cbn; lia]..].
    split; [by apply Hset; [|left]|]. destruct (Hrem st d) as (_ & E1 & E2).
    cbn [set_session next_context clock]. rewrite E1, E2. lia.
  - unfold set_failure. destruct (sessions st !! sid0) as [[c u d a| |]|]; cbn [fst].
    + split; [by apply Hset; [|right]|]. destruct (Hrem st d) as (_ & E1 & E2).
      cbn [set_session next_context clock]. rewrite E1, E2. lia.
    + split; [|cbn; lia]. apply (Hset st None sid0 Failed); [done|by right].
    + split; [|cbn; lia]. apply (Hset st None sid0 Failed); [done|by right].
    + split; [done|lia].
  - split; [|cbn; lia]. exact Hsame.
  - split; [|cbn; lia]. exact Hsame.
Qed.

Lemma closed_run ops : forall st sid, inv st -> is_closed st sid -> is_closed (run timeout st ops) sid.
Proof.
  induction ops as [|o ops IH]; intros st sid HI Hc; [done|]. cbn [run]. apply IH; [by apply inv_step|].
  destruct (step_session st o sid HI) as [H _]. by destruct Hc as [E|E]; rewrite E in H.
Qed.

Lemma closed_request st sid u r ok :
  is_closed st sid -> request timeout st sid u r ok = (st, Error).
Proof. intros [E|E]; unfold request; by rewrite E. Qed.

(** A context stays with the session it was made for. *)
Definition owns (c sid : nat) (st : state) : Prop :=
  c < next_context st /\
  ((exists u d a, sessions st !! sid = Some (Running c u d a)) \/ is_closed st sid) /\
  (forall s u d a, sessions st !! s = Some (Running c u d a) -> s = sid).

Lemma owns_step c sid st o : inv st -> owns c sid st -> owns c sid (step timeout st o).1.
Proof.
  intros HI (H1 & H2 & H3). destruct (step_session st o sid HI) as (Hs & Hn & _). split; [lia|]. split.
  - destruct H2 as [(u & d & a & E)|[E|E]]; rewrite E in Hs; [|by right..].
    unfold is_closed.
    destruct (sessions (step timeout st o).1 !! sid) as [[c' u' d' a'| |]|]; auto; [|done].
    destruct Hs as (-> & _). left. eauto.
  - intros s u d a E. destruct (step_session st o s HI) as (Hs' & _ & _).
    destruct (sessions st !! s) as [[c' u' d' a'| |]|] eqn:E'.
    + rewrite E in Hs'. destruct Hs' as (-> & _). by eapply H3.
    + destruct Hs' as [Hs'|Hs']; congruence.
    + destruct Hs' as [Hs'|Hs']; congruence.
    + rewrite E in Hs'. destruct Hs' as (-> & _). lia.
Qed.
Lemma owns_run c sid ops : forall st, inv st -> owns c sid st -> owns c sid (run timeout st ops).
Proof.
  induction ops as [|o ops IH]; intros st HI Ho; [done|]. cbn [run].
  apply IH; [by apply inv_step|by apply owns_step].
Qed.

Lemma request_context st sid u r ok st' c :
  inv st -> request timeout st sid u r ok = (st', Context c) ->
  exists u' d, sessions st' !! sid = Some (Running c u' d (clock st)) /\
    (sessions st !! sid = None /\ u' = u \/
     exists a, sessions st !! sid = Some (Running c u' d a)).
Proof.
  intros HI H. unfold request in H. destruct (sessions st !! sid) as [[c0 u0 d a| |]|] eqn:Hs; try done.
  - injection H as <- <-. exists u0, d. unfold touch. rewrite Hs. cbn. rewrite lookup_insert. eauto.
  - destruct (create st sid u r ok) as [st1 x] eqn:Hc.
    apply create_spec in Hc as (Hck & Hoth & Hc); [|done|done].
    destruct x as [c0| |]; try done. injection H as <- <-. destruct Hc as (_ & _ & (d & Hnew) & _).
    exists u, d. unfold touch. rewrite Hnew. cbn. rewrite lookup_insert. rewrite Hck. eauto.
Qed.

Lemma request_owns st sid u r ok st' c :
  inv st -> request timeout st sid u r ok = (st', Context c) -> owns c sid st'.
Proof.
  intros HI H.
  assert (HI' : inv st').
  { pose proof (inv_request st sid u r ok HI) as HI'. by rewrite H in HI'. }
  apply request_context in H as (u' & d & Hs & _); [|done]. split; [by eapply inv_context_lt|]. split.
  - left. eauto.
  - intros s u0 d0 a0 E. by eapply inv_context_inj.
Qed.

Lemma same_context_lt ops i j e1 e2 s1 u1 r1 ok1 c1 s2 u2 r2 ok2 c2 :
  i < j ->
  history timeout init ops !! i = Some e1 -> history timeout init ops !! j = Some e2 ->
  h_op e1 = Request s1 u1 r1 ok1 -> h_out e1 = Context c1 ->
  h_op e2 = Request s2 u2 r2 ok2 -> h_out e2 = Context c2 ->
  c1 = c2 <-> s1 = s2.
Proof.
  intros Hij H1 H2 O1 C1 O2 C2.
  apply history_lookup in H1 as (B1 & _ & S1 & A1). apply history_lookup in H2 as (B2 & _ & S2 & A2).
  rewrite O1, C1 in S1. rewrite O2, C2 in S2. cbn [step] in S1, S2.
  assert (HI1 : inv (h_before e1)) by (rewrite B1; apply inv_run, inv_init).
  assert (HI2 : inv (h_before e2)) by (rewrite B2; apply inv_run, inv_init).
  pose proof (request_owns _ _ _ _ _ _ _ HI1 S1) as Ho.
  assert (Ho2 : owns c1 s1 (h_before e2)).
  { rewrite B2. replace (take j ops) with (take (S i) ops ++ drop (S i) (take j ops)).
    - rewrite run_app, <- A1. apply owns_run; [|done].
      rewrite A1. apply inv_run, inv_init.
    - replace (take (S i) ops) with (take (S i) (take j ops)) by (rewrite take_take; f_equal; lia).
      apply take_drop. }
  assert (Ho3 : owns c1 s1 (h_after e2)).
  { pose proof (owns_step c1 s1 _ (Request s2 u2 r2 ok2) HI2 Ho2) as Ho3. cbn [step] in Ho3.
    by rewrite S2 in Ho3. }
  pose proof (request_context _ _ _ _ _ _ _ HI2 S2) as (u' & d' & Hs2 & Hc). split.
  - intros <-. destruct Ho3 as (_ & _ & Hu). symmetry. by eapply Hu.
  - intros <-. destruct Ho3 as (_ & [(u & d & a & E)|[E|E]] & _); congruence.
Qed.

Lemma same_context ops i j e1 e2 s1 u1 r1 ok1 c1 s2 u2 r2 ok2 c2 :
  history timeout init ops !! i = Some e1 -> history timeout init ops !! j = Some e2 ->
  h_op e1 = Request s1 u1 r1 ok1 -> h_out e1 = Context c1 ->
  h_op e2 = Request s2 u2 r2 ok2 -> h_out e2 = Context c2 ->
  c1 = c2 <-> s1 = s2.
Proof.
  intros H1 H2 O1 C1 O2 C2. destruct (lt_eq_lt_dec i j) as [[Hlt|Heq]|Hgt].
  - by eapply same_context_lt.
  - subst j. rewrite H1 in H2. injection H2 as <-. rewrite O1 in O2. rewrite C1 in C2.
    by simplify_eq.
  - pose proof (same_context_lt ops j i e2 e1 s2 u2 r2 ok2 c2 s1 u1 r1 ok1 c1 Hgt H2 H1 O2 C2 O1 C1).
    naive_solver.
Qed.

(** The recorded activity is the last successful request. *)
Lemma last_request_app sid h1 h2 :
  last_request sid (h1 ++ h2) =
  match last_request sid h2 with Some t => Some t | None => last_request sid h1 end.
Proof.
  induction h1 as [|e h1 IH]; cbn [app last_request]; [by destruct (last_request sid h2)|].
  rewrite IH. by destruct (last_request sid h2).
Qed.

Lemma running_last_request ops sid c u d a :
  sessions (run timeout init ops) !! sid = Some (Running c u d a) ->
  last_request sid (history timeout init ops) = Some a.
Proof.
  revert c u d a. induction ops as [|o ops IH] using rev_ind; intros c u d a H.
  { cbn in H. by rewrite lookup_empty in H. }
  rewrite history_app, last_request_app. rewrite run_app in H. cbn [run] in H.
  set (st := run timeout init ops) in *.
  assert (HI : inv st) by apply inv_run, inv_init.
  cbn [history]. destruct (step timeout st o) as [st' x] eqn:E. cbn [fst] in H.
  cbn [last_request h_op h_out h_before].
  destruct (match o, x with
            | Request sid' _ _ _, Context _ => if decide (sid' = sid) then Some (clock st) else None
            | _, _ => None end) as [t|] eqn:Em.
  - destruct o as [sid0 user r ok| | | | | |]; try done. destruct x as [c0| |]; try done.
    destruct (decide (sid0 = sid)) as [->|]; [|done]. injection Em as <-. cbn [step] in E.
    apply request_context in E as (u' & d' & Hs & _); [|done]. rewrite H in Hs. by simplify_eq.
  - pose proof (step_session st o sid HI) as (Hs & _ & _). rewrite E in Hs. cbn [fst] in Hs.
    rewrite H in Hs.
    assert (Hno : forall u0 r ok, o = Request sid u0 r ok -> False).
    { intros u0 r ok ->. cbn [step] in E. destruct x as [c0| |].
      - by rewrite decide_True in Em.
      - unfold request in E. destruct (sessions st !! sid) as [[]|] eqn:E0; try done.
        + destruct Hs as [?|?]; congruence.
        + destruct Hs as [?|?]; congruence.
        + destruct (create st sid u0 r ok) as [st1 y] eqn:Hc.
          apply create_spec in Hc as (_ & _ & Hc); [|done|done]. destruct y; try done.
          injection E as <-. destruct Hc as ([?|?] & _); congruence.
      - unfold request in E. destruct (sessions st !! sid) as [[]|] eqn:E0; try done.
        destruct (create st sid u0 r ok) as [st1 y] eqn:Hc.
        apply create_spec in Hc as (_ & _ & Hc); [|done|done]. destruct y; try done.
        by destruct Hc as (_ & ? & _). }
    destruct (sessions st !! sid) as [[c0 u0 d0 a0| |]|] eqn:E0.
    + destruct Hs as (_ & _ & _ & [->|(-> & u1 & r & ok & ->)]); [|exfalso; by eapply Hno].
      by eapply IH.
    + destruct Hs as [?|?]; congruence.
    + destruct Hs as [?|?]; congruence.
    + destruct Hs as (_ & _ & _ & r & ok & ->). exfalso; by eapply Hno.
Qed.

Lemma probe_removes st i sid :
  inv st -> is_running st sid -> ~ is_running (handle_probe st i) sid ->
  exists c u d a, sessions st !! sid = Some (Running c u d a) /\ a + timeout <= clock st.
Proof.
  intros HI (c & u & d & a & E) Hn. exists c, u, d, a. split; [done|].
  unfold handle_probe in Hn. destruct (probes st !! i) as [p|] eqn:Hp; [|exfalso; apply Hn; by exists c, u, d, a].
  destruct (decide (clock st < p_due p)) as [?|Hdue]; [exfalso; apply Hn; by exists c, u, d, a|].
  set (st1 := State _ _ _ _ _ _ _) in *.
  destruct (inv_probe _ HI p) as [Hd Hi]; [by eapply elem_of_list_lookup_2|].
  destruct (decide (p_session p = sid)) as [Heq|Hne].
  - rewrite Heq in Hn. cbn [sessions st1] in Hn. rewrite E in Hn.
    destruct (decide (a <= p_instant p)); [lia|]. exfalso. apply Hn. by exists c, u, d, a.
  - exfalso. apply Hn. exists c, u, d, a.
    destruct (sessions st1 !! p_session p) as [[c' u' d' a'| |]|]; try done.
    destruct (decide (a' <= p_instant p)); [|done].
    cbn [set_session sessions]. rewrite lookup_insert_ne by done. by destruct d'.
Qed.

Lemma idle_removed_late ops i e k sid :
  history timeout init ops !! i = Some e -> h_op e = HandleProbe k -> removes e sid ->
  exists t, last_request sid (take i (history timeout init ops)) = Some t /\
    t + timeout <= clock (h_before e).
Proof.
  intros H O [Hr Hn]. pose proof H as H'.
  apply history_lookup in H as (B & Hop & S & A).
  assert (HI : inv (h_before e)) by (rewrite B; apply inv_run, inv_init).
  rewrite O in S. cbn [step] in S. injection S as S _. rewrite <- S in Hn.
  destruct (probe_removes _ _ _ HI Hr Hn) as (c & u & d & a & E & Hle). exists a. split; [|done].
  rewrite B in E. apply running_last_request in E.
  assert (Ht : take i (history timeout init ops) = history timeout init (take i ops)).
  { rewrite <- (take_drop i ops) at 1. rewrite history_app. rewrite take_app_alt; [done|].
    rewrite history_length, take_length. apply lookup_lt_Some in Hop. lia. }
  by rewrite Ht.
Qed.

Lemma idle_pending ops sid :
  let st := run timeout init ops in
  is_running st sid ->
  exists t, last_request sid (history timeout init ops) = Some t /\ t <= clock st /\
    exists i p, probes st !! i = Some p /\ p_due p = t + timeout /\
      (t + timeout <= clock st -> is_closed (handle_probe st i) sid).
Proof.
  intros st (c & u & d & a & E).
  assert (HI : inv st) by apply inv_run, inv_init.
  exists a. split; [by eapply running_last_request|].
  destruct (inv_active _ HI _ _ _ _ _ E) as [Hle Hp]. split; [done|].
  apply elem_of_list_lookup in Hp as [i Hp]. exists i, (Probe (a + timeout) sid a).
  split_and!; [done|done|]. intros Hdue. unfold handle_probe. rewrite Hp. cbn [p_due p_session p_instant].
  rewrite decide_False by lia. cbn [sessions]. rewrite E. rewrite decide_True by done.
  left. cbn [set_session sessions]. by rewrite lookup_insert.
Qed.
End proofs.
