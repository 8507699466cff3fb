(** Proofs about the execution of one operation. *)
From Coq Require Import Lia.
From stdpp Require Import prelude list sorting.
From Verif.Connect Require Import ExecutorModel ExecutorSpec.

Definition ctx_of (e : estate) : option context :=
  match e with Pending x | Run _ (Active x _ _) | Run _ (Paused x) => Some x | _ => None end.
Definition olist (o : option output) : list output := match o with Some o => [o] | None => [] end.
Definition unsent_task (p : pc) (o : option output) : list output :=
  olist o ++ match p with PResend l => l | _ => [] end.
Definition unsent (e : estate) : list output := match e with Run _ (Active _ p o) => unsent_task p o | _ => [] end.
Definition flow (w : world) : list output := w_recv w ++ w_wire w ++ if w_conn w then unsent (w_state w) else [].

(** ** Ids are positions *)
Definition numbered (log : list output) : Prop := map o_id log = seq 0 (length log).
Lemma numbered_snoc log b : numbered log -> numbered (log ++ [Output (length log) b]).
Proof. unfold numbered. intros H. rewrite map_app, H, app_length. cbn [length]. by rewrite Nat.add_1_r, seq_S. Qed.
Lemma numbered_lookup log i o : numbered log -> log !! i = Some o -> o_id o = i.
Proof.
  unfold numbered. intros H Ho. assert (map o_id log !! i = Some (o_id o)) as H1 by (change (map o_id log) with (o_id <$> log); by rewrite list_lookup_fmap, Ho).
  rewrite H in H1. apply lookup_seq in H1 as [H1 _]. done.
Qed.
Lemma numbered_eq log o o' : numbered log -> o ∈ log -> o' ∈ log -> o_id o = o_id o' -> o = o'.
Proof.
  intros H [i Hi]%elem_of_list_lookup [j Hj]%elem_of_list_lookup E.
  rewrite (numbered_lookup _ _ _ H Hi), (numbered_lookup _ _ _ H Hj) in E. congruence.
Qed.

Lemma after_id_drop log d id : numbered log ->
  after_id id (drop d log) = if decide (d <= id < length log) then Some (drop (S id) log) else None.
Proof.
  intros H. remember (length log - d) as k eqn:Hk. revert d Hk. induction k as [|k IH]; intros d Hk.
  - rewrite drop_ge by lia. cbn [after_id]. rewrite decide_False by lia. done.
  - destruct (lookup_lt_is_Some_2 log d) as [o Ho]; [lia|]. rewrite (drop_S log o d Ho). cbn [after_id].
    rewrite (numbered_lookup _ _ _ H Ho). destruct (Nat.eqb_spec d id) as [->|Hd].
    + rewrite decide_True by lia. done.
    + rewrite IH by lia. destruct (decide (S d <= id < length log)), (decide (d <= id < length log)); try lia; done.
Qed.
Lemma remove_until_drop log d id : numbered log -> id < length log ->
  remove_until id (drop d log) = drop (d `max` S id) log.
Proof.
  intros H Hid. unfold remove_until. rewrite after_id_drop by done. destruct (decide _) as [Hd|Hd].
  - f_equal. lia.
  - f_equal. lia.
Qed.
Lemma buffer_add_drop log d o : d <= length log -> exists d', buffer_add (drop d log) o = drop d' (log ++ [o]) /\
  d' <= length log /\ (d' = d \/ (d' = S d /\ capacity <= length (drop d log))).
Proof.
  intros Hd. unfold buffer_add. destruct (Nat.leb_spec capacity (length (drop d log))) as [Hc|Hc].
  - exists (S d). assert (S d <= length log) by (rewrite drop_length in Hc; unfold capacity in Hc; lia).
    split; [|split; [lia|by right]]. rewrite (drop_app_le log [o] (S d)) by lia. f_equal.
    replace (S d) with (d + 1) by lia. rewrite <- drop_drop. by destruct (drop d log).
  - exists d. split; [|split; [lia|by left]]. by rewrite drop_app_le by lia.
Qed.

(** ** The invariant *)
(** What the task has yet to produce. *)
Definition remaining (x : context) : list result :=
  match x_state x with
  | TQuery => flat_map rows_result (x_source x)
  | TCommand bs (Some f) => value_result (f (bs ++ x_source x))
  | TCommand _ None => []
  end.
Definition is_query (x : context) : bool := match x_state x with TQuery => true | _ => false end.
Definition pc_ok (log : list output) (x : context) (p : pc) : Prop :=
  match p with
  | PAfter _ => x_source x = [] /\ x_fails x = false
  | PFinish => x_source x = [] /\ x_fails x = false /\ match x_state x with TCommand _ (Some _) => False | _ => True end
  | _ => True
  end /\
  (is_query x = true -> log = [] -> p = PSchema \/ exists l, p = PResend l).

Section inv.
  Context (m : mode) (source : list (list nat)) (fails : bool) (ok : Prop).
  Definition buffer_ok (log : list output) (w : world) (x : context) : Prop :=
    exists d, x_buffer x = drop d log /\ d <= length log /\ (ok -> d <= length (w_recv w)).
  Definition ctx_ok (x : context) (log : list output) : Prop :=
    results log ++ remaining x = expected m source /\ x_fails x = fails /\
    is_query x = match m with MQuery => true | _ => false end.
  Record inv (log : list output) (w : world) : Prop := {
    i_num : numbered log;
    i_next : w_next w = length log;
    i_buf : forall x, ctx_of (w_state w) = Some x -> buffer_ok log w x;
    i_sorted : StronglySorted lt (map o_id (flow w));
    i_sub : forall o, o ∈ flow w -> o ∈ log;
    i_flow : ok -> if w_conn w then flow w = log else flow w `prefix_of` log;
    i_results : exists rem, results log ++ rem = expected m source;
    i_ctx : forall x, ctx_of (w_state w) = Some x -> ctx_ok x log;
    i_pc : forall g x p o, w_state w = Run g (Active x p o) -> pc_ok log x p;
    i_complete : forall a o b, log = a ++ o :: b -> is_complete o = true -> results a = expected m source /\ fails = false;
    i_schema : m = MQuery -> log = [] \/ exists o t, log = o :: t /\ o_body o = BSchema }.

  Lemma sorted_prefix {A} (R : A -> A -> Prop) (l k : list A) : k `prefix_of` l -> StronglySorted R l -> StronglySorted R k.
  Proof. intros [t ->] H. by apply StronglySorted_app_inv_l in H. Qed.

  Lemma inv_initial : inv [] (initial m source fails).
  Proof.
    constructor; try done; cbn.
    - intros x [= <-]. exists 0. cbn. repeat split; lia.
    - constructor.
    - intros _. done.
    - exists (expected m source). done.
    - intros x [= <-]. unfold ctx_ok. cbn. destruct m; done.
    - intros [|? ?] ? ?; done.
    - by left.
  Qed.

  (** Steps that produce nothing. *)
  Lemma inv_same log w w' : inv log w -> w_next w' = w_next w ->
    (flow w' = flow w /\ w_conn w' = w_conn w \/ flow w' `prefix_of` flow w /\ w_conn w' = false) ->
    length (w_recv w) <= length (w_recv w') ->
    (forall x', ctx_of (w_state w') = Some x' -> exists x, ctx_of (w_state w) = Some x /\ (x_buffer x' = x_buffer x \/ buffer_ok log w' x') /\
      remaining x' = remaining x /\ x_fails x' = x_fails x /\ is_query x' = is_query x) ->
    (forall g x p o, w_state w' = Run g (Active x p o) -> pc_ok log x p) -> inv log w'.
  Proof.
    intros [] Hn Hf Hr Hx Hp.
    assert (flow w' `prefix_of` flow w) as Hpre by (destruct Hf as [[-> _]|[? _]]; done).
    constructor; try done.
    - congruence.
    - intros x' Hx'. destruct (Hx _ Hx') as (x & E & B & _). destruct B as [B|B]; [|done].
      destruct (i_buf0 x E) as (d & ? & ? & ?). exists d. rewrite B. repeat split; [done..|]. intros; etrans; [|exact Hr]. auto.
    - eapply sorted_prefix; [|exact i_sorted0]. destruct Hpre as [t ->]. rewrite map_app. by eexists.
    - intros o Ho. apply i_sub0. destruct Hpre as [t ->]. apply elem_of_app. by left.
    - intros Hok. specialize (i_flow0 Hok). destruct Hf as [[-> ->]|[Hq ->]]; [done|].
      etrans; [exact Hq|]. by destruct (w_conn w); [rewrite i_flow0|].
    - intros x' Hx'. destruct (Hx _ Hx') as (x & E & _ & B1 & B2 & B3). destruct (i_ctx0 x E) as (H1 & H2 & H3).
      unfold ctx_ok. by rewrite B1, B2, B3.
  Qed.

  (** A new response. *)
  Lemma inv_emit log w g x0 p0 x p b : inv log w -> (ok -> has_room w = true) ->
    w_state w = Run g (Active x0 p0 None) -> unsent_task p0 None = [] ->
    x_buffer x = x_buffer x0 -> x_fails x = x_fails x0 -> is_query x = is_query x0 ->
    result_of (Output (length log) b) ++ remaining x = remaining x0 -> unsent_task p None = [] ->
    (is_query x = true -> log = [] -> b = BSchema) ->
    (b = BComplete -> remaining x0 = [] /\ x_fails x0 = false) ->
    (forall l, pc_ok (log ++ [l]) x p) ->
    inv (log ++ [Output (length log) b]) (emit g x p b w).
  Proof.
    intros [] Hroom Hs Hu Hb Hfail Hq Hrem Hup Hsch Hcomp Hpc.
    set (o := Output (length log) b) in *.
    destruct (i_ctx0 x0) as (R1 & R2 & R3); [by rewrite Hs|].
    destruct (i_buf0 x0) as (d & D1 & D2 & D3); [by rewrite Hs|].
    assert (flow (emit g x p b w) = if w_conn w then flow w ++ [o] else flow w) as Hfl.
    { unfold flow, emit. cbn [w_recv w_wire w_conn w_state]. destruct (w_conn w); [|done]. rewrite Hs. cbn [unsent].
      rewrite Hu, app_nil_r. unfold unsent_task in Hup |- *. cbn [olist app] in Hup |- *. rewrite Hup, i_next0. cbn. by rewrite <- !app_assoc. }
    assert (forall q, q ∈ flow w -> o_id q < length log) as Hlt.
    { intros q Hq'. apply i_sub0, elem_of_list_lookup in Hq' as [i Hi]. rewrite (numbered_lookup _ _ _ i_num0 Hi). by eapply lookup_lt_Some. }
    constructor.
    - by apply numbered_snoc.
    - cbn. rewrite app_length. cbn. lia.
    - cbn. intros x' [= <-]. unfold buffer_ok. cbn [x_buffer w_recv]. rewrite Hb, D1, i_next0.
      destruct (buffer_add_drop log d o D2) as (d' & E1 & E2 & E3). exists d'. split; [exact E1|]. split; [rewrite app_length; lia|].
      intros Hok. destruct E3 as [->|[-> Hc]]; [by apply D3|]. specialize (Hroom Hok). unfold has_room in Hroom. rewrite Hs in Hroom. cbn [buffer_of] in Hroom.
      rewrite D1 in Hroom. destruct (Nat.ltb_spec (length (drop d log)) capacity); [lia|]. cbn [orb] in Hroom.
      destruct (lookup_lt_is_Some_2 log d) as [q Hq']; [rewrite drop_length in Hc; unfold capacity in Hc; lia|].
      rewrite (drop_S _ _ _ Hq') in Hroom. apply existsb_exists in Hroom as (r & Hr1%elem_of_list_In & Hr2%Nat.eqb_eq).
      rewrite (numbered_lookup _ _ _ i_num0 Hq') in Hr2. apply elem_of_list_lookup in Hr1 as [j Hj].
      specialize (i_flow0 Hok). assert (log !! j = Some r) as Hlj.
      { assert (flow w !! j = Some r) as Hfj by (unfold flow; by apply lookup_app_l_Some).
        destruct (w_conn w); [by rewrite <- i_flow0|]. by eapply prefix_lookup. }
      rewrite (numbered_lookup _ _ _ i_num0 Hlj) in Hr2. subst j. apply lookup_lt_Some in Hj. exact Hj.
    - rewrite Hfl. destruct (w_conn w); [|done]. rewrite map_app. clear -i_sorted0 Hlt. cbn [map o o_id].
      induction (flow w) as [|q l IH]; cbn [map app] in *; [repeat constructor|]. apply StronglySorted_inv in i_sorted0 as [S1 S2].
      constructor; [apply IH; [done|intros; apply Hlt; by right]|]. apply Forall_app. split; [done|]. constructor; [|constructor]. apply Hlt. left.
    - rewrite Hfl. intros q Hq'. apply elem_of_app. destruct (w_conn w); [apply elem_of_app in Hq' as [Hq'|Hq']; auto|left; auto].
    - intros Hok. specialize (i_flow0 Hok). rewrite Hfl. cbn [emit w_conn]. destruct (w_conn w); [by rewrite i_flow0|]. by apply prefix_app_r.
    - exists (remaining x). unfold results in *. rewrite flat_map_app. cbn [flat_map]. rewrite app_nil_r, <- app_assoc. rewrite Hrem. done.
    - cbn. intros x' [= <-]. split_and!; cbn; [|congruence|unfold is_query in *; cbn; congruence].
      unfold results in *. rewrite flat_map_app. cbn [flat_map]. rewrite app_nil_r, <- app_assoc. change (remaining _) with (remaining x). rewrite Hrem. done.
    - intros g' x' p' o' [= <- <- <- <-]. destruct (Hpc o) as [H1 H2]. split; [|exact H2]. exact H1.
    - intros a q c E Hc. destruct c as [|c0 c _] using rev_ind.
      + apply app_inj_tail in E as [<- <-]. destruct b; try done. destruct Hcomp as [C1 C2]; [done|]. rewrite C1, app_nil_r in R1. split; congruence.
      + rewrite app_comm_cons, app_assoc in E. apply app_inj_tail in E as [-> _]. by eapply i_complete0.
    - intros Hm. right. destruct (i_schema0 Hm) as [->|(q & t & -> & Hq')].
      + exists o, []. split; [done|]. apply Hsch; [|done]. rewrite Hq, R3, Hm. done.
      + exists q, (t ++ [o]). done.
  Qed.

  Lemma release_ctx id e x' : ctx_of (release id e) = Some x' -> exists x, ctx_of e = Some x /\
    (x' = x \/ x' = with_buffer x (remove_until id (x_buffer x))).
  Proof.
    destruct e as [|x|[] [x p o|x| |]| |]; cbn; intros [= <-] || done; eexists; (split; [done|]); auto.
  Qed.
  Lemma release_unsent id e : unsent (release id e) = unsent e.
  Proof. by destruct e as [|x|[] [x p o|x| |]| |]. Qed.

  Lemma last_id_recv log w n id : inv log w -> n <= length (w_recv w) -> last_id n (w_recv w) = Some id ->
    exists k o, n = S k /\ w_recv w !! k = Some o /\ o_id o = id /\ id < length log /\ log !! id = Some o /\ (ok -> id = k).
  Proof.
    intros Hi Hn H. destruct n as [|k]; [done|]. unfold last_id in H. destruct (nth_error (w_recv w) k) as [o|] eqn:E; [|done].
    injection H as <-. assert (w_recv w !! k = Some o) as Ho.
    { clear -E. revert k E. induction (w_recv w) as [|a l IH]; intros [|k] E; try done. by apply IH. }
    exists k, o. assert (flow w !! k = Some o) as Hf by (by apply lookup_app_l_Some).
    assert (o ∈ log) as [i Hl]%elem_of_list_lookup by (apply (i_sub _ _ Hi); by eapply elem_of_list_lookup_2).
    pose proof (numbered_lookup _ _ _ (i_num _ _ Hi) Hl) as Hid. rewrite Hid. split_and!; [done|done|done|by eapply lookup_lt_Some|done|].
    intros Hok. pose proof (i_flow _ _ Hi Hok) as Hfl. assert (log !! k = Some o) as Hk by (destruct (w_conn w); [by rewrite <- Hfl|by eapply prefix_lookup]).
    rewrite <- (numbered_lookup _ _ _ (i_num _ _ Hi) Hk). congruence.
  Qed.

  Lemma inv_release log w n : inv log w -> n <= length (w_recv w) -> inv log (release_last n w).
  Proof.
    intros Hi Hn. unfold release_last. destruct (last_id n (w_recv w)) as [id|] eqn:E; [|done].
    destruct (last_id_recv _ _ _ _ Hi Hn E) as (k & o & -> & Ho & Hid & Hlt & Hl & Hk).
    eapply inv_same; [exact Hi|done| |done| |].
    - left. split; [|done]. unfold flow. cbn [set_state w_recv w_wire w_conn w_state]. by rewrite release_unsent.
    - intros x' Hx'. cbn in Hx'. destruct (release_ctx _ _ _ Hx') as (x & Hx & [->| ->]); exists x; (split; [done|]); [split; [by left|done]|].
      split; [right|done]. destruct (i_buf _ _ Hi x Hx) as (d & D1 & D2 & D3). exists (d `max` S id). cbn [with_buffer x_buffer].
      rewrite D1, remove_until_drop by (done || apply (i_num _ _ Hi)). split_and!; [done|lia|]. intros Hok. cbn [set_state w_recv].
      specialize (D3 Hok). specialize (Hk Hok). apply lookup_lt_Some in Ho. lia.
    - intros g x p q H. cbn in H. destruct (w_state w) as [|y|[] [y p' q'|y| |]| |] eqn:Es; cbn in H; try done.
      + injection H as <- <- <- <-. by eapply (i_pc _ _ Hi).
      + injection H as <- <- <- <-. destruct (i_pc _ _ Hi _ _ _ _ Es) as [H1 H2]. split; [|exact H2]. exact H1.
  Qed.

  Lemma inv_step log w a : inv log w -> (ok -> w_next (step w a) <> w_next w -> has_room w = true) -> exists log', inv log' (step w a) /\ log `prefix_of` log'.
  Proof.
    intros Hi Hroom. destruct a as [late refused| | |n| | | |n heard]; cbn [step].
    - destruct (w_state w) as [|x|g [x p o|x| |]| |] eqn:Es; try (by exists log).
      destruct (i_pc _ _ Hi _ _ _ _ Es) as [Hpc1 Hpc2].
      destruct (i_ctx _ _ Hi x) as (C1 & C2 & C3); [by rewrite Es|].
      assert (forall p' q, unsent_task p o = q :: unsent_task p' None -> pc_ok log x p' -> inv log (send g x p' q refused w)) as Hsend.
      { intros p' q Hu Hp'. unfold send. destruct (w_conn w) eqn:Ec; [|destruct refused].
        - eapply inv_same; [exact Hi|done| |done| |].
          + left. split; [|by rewrite Ec]. unfold flow. cbn [w_recv w_wire w_conn w_state unsent]. rewrite Ec, Es. cbn [unsent].
            by rewrite Hu, <- !app_assoc.
          + cbn. intros x' [= <-]. exists x. rewrite Es. split_and!; try done. by left.
          + cbn. by intros g' x' p'' o' [= <- <- <- <-].
        - eapply inv_same; [exact Hi|done| |done| |].
          + right. unfold flow. cbn [set_state w_recv w_wire w_conn]. rewrite Ec. done.
          + cbn. intros x' [= <-]. exists x. rewrite Es. split_and!; try done. by left.
          + done.
        - eapply inv_same; [exact Hi|done| |done| |].
          + right. unfold flow. cbn [set_state w_recv w_wire w_conn]. rewrite Ec. done.
          + cbn. intros x' [= <-]. exists x. rewrite Es. split_and!; try done. by left.
          + cbn. by intros g' x' p'' o' [= <- <- <- <-]. }
      assert (forall t, unsent_task p o = [] -> unsent (Run g t) = [] ->
        (forall x', ctx_of (Run g t) = Some x' -> x_buffer x' = x_buffer x /\ remaining x' = remaining x /\ x_fails x' = x_fails x /\ is_query x' = is_query x) ->
        (forall x' p' o', t = Active x' p' o' -> pc_ok log x' p') -> inv log (set_state (Run g t) w)) as Hquiet.
      { intros t Hu Hu' Hx Hp'. eapply inv_same; [exact Hi|done| |done| |].
        - left. split; [|done]. unfold flow. cbn [set_state w_recv w_wire w_conn w_state]. rewrite Es, Hu'. cbn [unsent]. by rewrite Hu.
        - cbn [set_state w_state]. intros x' Hx'. exists x. rewrite Es. destruct (Hx x' Hx') as (? & ? & ? & ?). split_and!; try done. by left.
        - cbn. intros g' x' p' o' [= <- ->]. by eapply Hp'. }
      revert Hroom. cbn [step]. rewrite Es. unfold task_step. destruct o as [o|]; [|destruct p as [[|o l]| |empty|empty| |]].
      + intros Hroom. exists log. split; [|done]. apply Hsend; [done|]. by split.
      + intros Hroom. exists log. split; [|done]. apply Hquiet; try done.
        * cbn. by destruct (x_state x).
        * cbn. by intros x' [= <-].
        * intros x' p' o' [= <- <- <-]. unfold is_query. destruct (x_state x) eqn:E; split; try done; unfold is_query; try rewrite E; try done. auto.
      + intros Hroom. exists log. split; [|done]. apply Hsend; [done|]. split; [done|]. intros _ _. right. by exists l.
      + intros Hroom. eexists. split; [|by eexists]. eapply inv_emit; [exact Hi|intros Hok; apply Hroom; [exact Hok|cbn; lia]|exact Es|done..| |].
        * done.
        * intros l. split; [done|]. intros _ E. by apply app_eq_nil in E as [_ ?].
      + destruct late.
        { intros Hroom. eexists. split; [|by eexists]. eapply inv_emit; [exact Hi|intros Hok; apply Hroom; [exact Hok|cbn; lia]|exact Es|done..| | |].
          - intros Hq Hl. destruct (Hpc2 Hq Hl) as [?|[? ?]]; done.
          - done.
          - intros l. split; [done|]. intros _ E. by apply app_eq_nil in E as [_ ?]. }
        destruct (x_source x) as [|rows s] eqn:Esrc.
        * destruct (x_fails x) eqn:Ef.
          -- intros Hroom. exists log. split; [|done]. by apply Hquiet.
          -- intros Hroom. exists log. split; [|done]. apply Hquiet; try done.
             ++ cbn. by intros x' [= <-].
             ++ intros x' p' o' [= <- <- <-]. split; [by split|]. intros Hq Hl. destruct (Hpc2 Hq Hl) as [?|[? ?]]; done.
        * destruct (x_state x) as [|bs f] eqn:Est.
          -- intros Hroom. eexists. split; [|by eexists]. eapply inv_emit; [exact Hi|intros Hok; apply Hroom; [exact Hok|cbn; lia]|exact Es|done..| | | | |].
             ++ unfold result_of, remaining. cbn [o_body with_source x_state x_source]. by rewrite Est, Esrc.
             ++ done.
             ++ intros Hq Hl. destruct (Hpc2 Hq Hl) as [?|[? ?]]; done.
             ++ done.
             ++ intros l. split; [done|]. intros _ E. by apply app_eq_nil in E as [_ ?].
          -- intros Hroom. exists log. split; [|done]. apply Hquiet; try done.
             ++ cbn. intros x' [= <-]. split; [done|]. unfold remaining, is_query. cbn [with_state with_source x_state x_source x_fails]. rewrite Est, Esrc.
                split; [|done]. destruct f as [f|]; [|done]. by rewrite <- app_assoc.
             ++ intros x' p' o' [= <- <- <-]. split; [done|]. done.
      + destruct Hpc1 as [P1 P2].
        assert (log = [] -> is_query x = true -> False) as Hno by (intros Hl Hq; destruct (Hpc2 Hq Hl) as [?|[? ?]]; done).
        destruct (x_state x) as [|bs [f|]] eqn:Est.
        * destruct empty.
          -- intros Hroom. eexists. split; [|by eexists]. eapply inv_emit; [exact Hi|intros Hok; apply Hroom; [exact Hok|cbn; lia]|exact Es|done..| | |].
             ++ intros Hq Hl. by destruct Hno.
             ++ done.
             ++ intros l. split; [by rewrite Est|]. intros _ E. by apply app_eq_nil in E as [_ ?].
          -- intros Hroom. exists log. split; [|done]. apply Hquiet; try done.
             ++ cbn. by intros x' [= <-].
             ++ intros x' p' o' [= <- <- <-]. split; [by rewrite Est|]. intros Hq Hl. by destruct Hno.
        * destruct (f bs) as [r|] eqn:Ef.
          -- intros Hroom. eexists. split; [|by eexists]. eapply inv_emit; [exact Hi|intros Hok; apply Hroom; [exact Hok|cbn; lia]|exact Es|done..| | | | | |].
             ++ unfold is_query. cbn. by rewrite Est.
             ++ unfold result_of, remaining. cbn [o_body with_state x_state x_source]. rewrite Est, P1, !app_nil_r, Ef. done.
             ++ done.
             ++ done.
             ++ done.
             ++ intros l. split; [done|]. intros _ E. by apply app_eq_nil in E as [_ ?].
          -- intros Hroom. exists log. split; [|done]. apply Hquiet; try done.
             ++ cbn. intros x' [= <-]. split; [done|]. unfold remaining, is_query. cbn [with_state x_state x_source x_fails]. by rewrite Est, P1, app_nil_r, Ef.
             ++ intros x' p' o' [= <- <- <-]. split; [done|]. done.
        * intros Hroom. exists log. split; [|done]. apply Hquiet; try done.
          -- cbn. by intros x' [= <-].
          -- intros x' p' o' [= <- <- <-]. split; [by rewrite Est|]. intros Hq. unfold is_query in Hq. by rewrite Est in Hq.
      + destruct Hpc1 as (P1 & P2 & P3). intros Hroom. eexists. split; [|by eexists]. eapply inv_emit; [exact Hi|intros Hok; apply Hroom; [exact Hok|cbn; lia]|exact Es|done..| | |].
        * intros Hq Hl. destruct (Hpc2 Hq Hl) as [?|[? ?]]; done.
        * intros _. split; [|done]. unfold remaining. rewrite P1. by destruct (x_state x) as [|bs [f|]].
        * intros l. split; [done|]. intros _ E. by apply app_eq_nil in E as [_ ?].
      + intros Hroom. exists log. split; [|done]. by apply Hquiet.
    - destruct (w_wire w) as [|o l] eqn:Ew; [by exists log|]. exists log. split; [|done]. eapply inv_same; [exact Hi|done| | | |].
      + left. split; [|done]. unfold flow. cbn [w_recv w_wire w_conn w_state]. rewrite Ew. by rewrite <- !app_assoc.
      + cbn. rewrite app_length. lia.
      + cbn. intros x Hx. exists x. split_and!; try done. by left.
      + cbn. intros. by eapply (i_pc _ _ Hi).
    - exists log. split; [|done]. eapply inv_same; [exact Hi|done| |done| |].
      + right. split; [|done]. unfold flow. cbn. rewrite app_nil_r. by eexists.
      + cbn. intros x Hx. exists x. split_and!; try done. by left.
      + cbn. intros. by eapply (i_pc _ _ Hi).
    - exists log. split; [|done]. destruct (Nat.leb_spec n (length (w_recv w))); [|done]. by apply inv_release.
    - exists log. split; [|done]. destruct (w_state w) as [|x|[] t| |] eqn:Es; try done. eapply inv_same; [exact Hi|done| |done| |].
      + left. split; [|done]. unfold flow. cbn [set_state w_recv w_wire w_conn w_state]. by rewrite Es.
      + cbn [set_state w_state]. intros x Hx. exists x. rewrite Es. split_and!; try done. by left.
      + cbn. intros g x p o [= <- ->]. by eapply (i_pc _ _ Hi).
    - exists log. split; [|done].
      assert (forall e, (forall x, ctx_of e = Some x -> ctx_of (w_state w) = Some x) -> (forall g x p o, e <> Run g (Active x p o)) ->
        inv log (World e (w_wire w) false (w_recv w) (w_next w))) as Hend.
      { intros e He1 He2. eapply inv_same; [exact Hi|done| |done| |].
        - right. split; [|done]. unfold flow. cbn. rewrite app_nil_r, app_assoc. by eexists.
        - cbn. intros x Hx. exists x. split_and!; try auto; try done.
        - cbn. intros g x p o E. by destruct (He2 g x p o). }
      destruct (w_state w) as [|x|[] [x p o|x| |]| |] eqn:Es; try done; by apply Hend.
    - exists log. split; [|done]. destruct (w_state w) as [|x|[] t| |] eqn:Es; try done.
      eapply inv_same; [exact Hi|done| |done| |]; [|done|done].
      right. split; [|done]. unfold flow. cbn. rewrite app_nil_r, app_assoc. by eexists.
    - exists log. split; [|done]. destruct (_ && _) eqn:Hc; [|done]. apply andb_true_iff in Hc as [Hn%Nat.leb_le Hh].
      pose proof (inv_release _ _ n Hi Hn) as Hi'.
      assert (w_recv (release_last n w) = w_recv w) as Hrecv by (unfold release_last; by destruct (last_id n (w_recv w))).
      assert (Hlast : heard = true -> forall x, w_state (release_last n w) = Pending x ->
        StronglySorted lt (map o_id (w_recv w ++ x_buffer x)) /\ (ok -> w_recv w ++ x_buffer x = log)).
      { intros -> x Hx. cbn in Hh. apply Nat.eqb_eq in Hh. subst n.
        destruct (i_buf _ _ Hi' x) as (d & D1 & D2 & D3); [by rewrite Hx|]. rewrite Hrecv in D3.
        assert (forall o, o ∈ w_recv w -> o_id o < d) as Hbelow.
        { intros o [i Ho]%elem_of_list_lookup. unfold release_last in Hx.
          assert (w_recv w <> []) as Hne by (intros E; by rewrite E in Ho).
          destruct (last_id (length (w_recv w)) (w_recv w)) as [id|] eqn:E.
          - destruct (last_id_recv _ _ _ _ Hi Hn E) as (k & q & Hk1 & Hk2 & Hk3 & Hk4 & Hk5 & _).
            assert (o_id o <= id) as Hle.
            { rewrite <- Hk3. apply lookup_lt_Some in Ho as Hlt. destruct (decide (i = k)) as [->|Hik]; [replace o with q by congruence; lia|].
              assert (i < k) by lia. pose proof (i_sorted _ _ Hi) as Hs. unfold flow in Hs. rewrite map_app in Hs.
              apply StronglySorted_app_inv_l in Hs. clear -Hs Ho Hk2 H. revert i k Ho Hk2 H. induction (w_recv w) as [|a l IH]; intros i k Ho Hk Hlt; [done|].
              cbn [map] in Hs. apply StronglySorted_inv in Hs as [S1 S2]. destruct k as [|k]; [lia|]. cbn in Hk. destruct i as [|i].
              - injection Ho as ->. apply elem_of_list_lookup_2 in Hk. rewrite Forall_forall in S2. apply Nat.lt_le_incl, S2. change (o_id q ∈ o_id <$> l). apply elem_of_list_fmap. eauto.
              - cbn in Ho. apply (IH S1 i k); [done|done|lia]. }
            cbn [set_state w_state] in Hx.
            destruct (w_state w) as [|y|[] [y p' q'|y| |]| |] eqn:Es; cbn in Hx; try done. injection Hx as <-.
            destruct (i_buf _ _ Hi y) as (d0 & E1 & E2 & _); [by rewrite Es|]. cbn [with_buffer x_buffer] in D1.
            rewrite E1, remove_until_drop in D1 by (done || apply (i_num _ _ Hi)).
            apply (f_equal length) in D1 as D1l. rewrite !drop_length in D1l.
            assert (d = d0 `max` S id) by lia. lia.
          - exfalso. unfold last_id in E. destruct (length (w_recv w)) as [|k] eqn:El; [by apply nil_length_inv in El|].
            destruct (nth_error (w_recv w) k) eqn:En; [done|]. apply nth_error_None in En. lia. }
        assert (forall o, o ∈ x_buffer x -> d <= o_id o) as Habove.
        { rewrite D1. intros o [i Ho]%elem_of_list_lookup. rewrite lookup_drop in Ho. rewrite (numbered_lookup _ _ _ (i_num _ _ Hi) Ho). lia. }
        split.
        - rewrite map_app. assert (StronglySorted lt (map o_id (w_recv w))) as S1.
          { pose proof (i_sorted _ _ Hi) as Hs. unfold flow in Hs. rewrite map_app in Hs. by apply StronglySorted_app_inv_l in Hs. }
          assert (StronglySorted lt (map o_id (x_buffer x))) as S2.
          { rewrite D1. change (map o_id (drop d log)) with (o_id <$> drop d log). rewrite fmap_drop. change (o_id <$> log) with (map o_id log). rewrite (i_num _ _ Hi).
            assert (StronglySorted lt (seq 0 (length log))) as Hs.
            { clear. generalize 0. induction (length log) as [|k IH]; intros j; cbn [seq]; constructor; [apply IH|]. apply Forall_forall. intros z Hz%elem_of_seq. lia. }
            rewrite <- (take_drop d (seq 0 (length log))) in Hs. by apply StronglySorted_app_inv_r in Hs. }
          clear -S1 S2 Hbelow Habove. induction (w_recv w) as [|a l IH]; [exact S2|]. cbn [map app] in *. apply StronglySorted_inv in S1 as [S1 S1'].
          constructor; [apply IH; first [done|intros; apply Hbelow; by right]|]. apply Forall_app. split; [done|]. apply Forall_forall. intros z Hz.
          change (z ∈ o_id <$> x_buffer x) in Hz. apply elem_of_list_fmap in Hz as (o & -> & Ho). specialize (Habove o Ho). specialize (Hbelow a). feed pose proof Hbelow; [left|lia].
        - intros Hok. specialize (D3 Hok). pose proof (i_flow _ _ Hi Hok) as Hfl.
          assert (w_recv w `prefix_of` log) as [t Ht].
          { destruct (w_conn w); [rewrite <- Hfl|etrans; [|exact Hfl]]; by eexists. }
          assert (d = length (w_recv w)) as ->.
          { destruct (decide (w_recv w = [])) as [E|E]; [rewrite E in *; cbn in *; lia|].
            destruct (lookup_lt_is_Some_2 (w_recv w) (length (w_recv w) - 1)) as [o Ho]; [destruct (w_recv w); [done|cbn; lia]|].
            assert (log !! (length (w_recv w) - 1) = Some o) as Hl by (rewrite Ht; by apply lookup_app_l_Some).
            apply elem_of_list_lookup_2 in Ho as Ho'. specialize (Hbelow _ Ho'). rewrite (numbered_lookup _ _ _ (i_num _ _ Hi) Hl) in Hbelow. lia. }
          rewrite D1, Ht, drop_app. done. }
      assert (forall o x, w_state (release_last n w) = Pending x -> o ∈ w_recv w ++ x_buffer x -> o ∈ log) as Hsub.
      { intros o x Hx [Ho|Ho]%elem_of_app.
        - apply (i_sub _ _ Hi). apply elem_of_app. by left.
        - destruct (i_buf _ _ Hi' x) as (d & D1 & _); [by rewrite Hx|]. rewrite D1 in Ho. apply elem_of_list_lookup in Ho as [i Ho].
          rewrite lookup_drop in Ho. by eapply elem_of_list_lookup_2. }
      assert (forall e, (forall x, ctx_of e = Some x -> ctx_of (w_state (release_last n w)) = Some x) -> (forall g x p o, e = Run g (Active x p o) -> pc_ok log x p) ->
        inv log (World e [] false (w_recv (release_last n w)) (w_next (release_last n w)))) as Hgone.
      { intros e He Hp. eapply inv_same; [exact Hi'|done| |done| |].
        - right. split; [|done]. unfold flow. cbn. rewrite app_nil_r. by eexists.
        - cbn. intros x Hx. exists x. split_and!; try auto; try done.
        - cbn. done. }
      unfold start. destruct (w_state (release_last n w)) as [|x|g t| |] eqn:Es.
      + destruct heard; [|done]. apply Hgone; [done|]. done.
      + assert (pc_ok log x (PResend (x_buffer x))) as Hp by (split; [done|]; intros _ _; right; by eexists).
        destruct heard.
        * destruct (Hlast eq_refl x eq_refl) as [L1 L2]. rewrite Hrecv. destruct Hi'. constructor; try done.
          -- intros y [= <-]. destruct (i_buf0 x) as (d & D1 & D2 & D3); [by rewrite Es|]. exists d. rewrite Hrecv in D3. done.
          -- intros o Ho. cbn in Ho. by eapply Hsub.
          -- intros y [= <-]. apply i_ctx0. by rewrite Es.
          -- by intros g y p o [= <- <- <- <-].
        * eapply inv_same; [exact Hi'|done| |done| |].
          -- right. split; [|done]. unfold flow. cbn. rewrite app_nil_r, app_assoc. by eexists.
          -- cbn. intros y [= <-]. exists x. rewrite Es. split_and!; try done. by left.
          -- cbn. by intros g y p o [= <- <- <- <-].
      + destruct heard; [|done]. apply Hgone; [done|]. intros g' x p o Hg. by eapply (i_pc _ _ Hi'); rewrite Es.
      + destruct heard; [|done]. by apply Hgone.
      + destruct heard; [|done]. by apply Hgone.
  Qed.
End inv.

Lemma run_inv m source fails l : forall log w, inv m source fails True log w -> keeps_up w l = true ->
  exists log', inv m source fails True log' (run w l).
Proof.
  induction l as [|a l IH]; intros log w Hi Hk; [by exists log|]. cbn [keeps_up] in Hk. apply andb_true_iff in Hk as [H1 H2].
  destruct (inv_step m source fails True log w a Hi) as (log' & Hi' & _).
  - intros _ Hne. apply orb_true_iff in H1 as [H1%Nat.eqb_eq|H1]; done.
  - by apply (IH log').
Qed.
Lemma run_inv_any m source fails l : forall log w, inv m source fails False log w -> exists log', inv m source fails False log' (run w l).
Proof.
  induction l as [|a l IH]; intros log w Hi; [by exists log|].
  destruct (inv_step m source fails False log w a Hi) as (log' & Hi' & _); [done|]. by apply (IH log').
Qed.

Lemma received_results m source fails l : keeps_up (initial m source fails) l = true ->
  let r := w_recv (run (initial m source fails) l) in
  results r `prefix_of` expected m source /\
  (complete r = true -> results r = expected m source /\ fails = false) /\
  (m = MQuery -> match r with [] => True | o :: _ => o_body o = BSchema end).
Proof.
  intros Hk. destruct (run_inv m source fails l [] _ (inv_initial _ _ _ _) Hk) as [log Hi]. cbn zeta.
  assert (w_recv (run (initial m source fails) l) `prefix_of` log) as [t Ht].
  { pose proof (i_flow _ _ _ _ _ _ Hi I) as Hf. destruct (w_conn _); [rewrite <- Hf|etrans; [|exact Hf]]; by eexists. }
  destruct (i_results _ _ _ _ _ _ Hi) as [rem Hrem]. pose proof (i_complete _ _ _ _ _ _ Hi) as Hc. pose proof (i_schema _ _ _ _ _ _ Hi) as Hs. clear Hi.
  revert Ht. generalize (w_recv (run (initial m source fails) l)). intros r Ht. subst log.
  unfold results in Hrem. rewrite flat_map_app, <- app_assoc in Hrem. fold (results r) in Hrem. split_and!.
  - by eexists.
  - intros (o & Ho%elem_of_list_In & Hco)%existsb_exists. apply elem_of_list_split in Ho as (a & b & ->).
    destruct (Hc a o (b ++ t)) as [H1 H2]; [by rewrite <- app_assoc|done|]. split; [|done].
    unfold results in *. rewrite flat_map_app in Hrem |- *. rewrite <- !app_assoc in Hrem. rewrite H1 in Hrem |- *.
    apply (f_equal length) in Hrem. rewrite !app_length in Hrem. destruct (flat_map result_of (o :: b)); [by rewrite app_nil_r|cbn in Hrem; lia].
  - intros Hm. destruct (Hs Hm) as [E|(o & u & E & Ho)]; destruct r as [|q r]; try done. injection E as -> _. done.
Qed.

Lemma received_order m source fails l : StronglySorted lt (map o_id (w_recv (run (initial m source fails) l))).
Proof.
  destruct (run_inv_any m source fails l [] _ (inv_initial _ _ _ _)) as [log Hi]. pose proof (i_sorted _ _ _ _ _ _ Hi) as H.
  unfold flow in H. rewrite map_app in H. by apply StronglySorted_app_inv_l in H.
Qed.

(** ** The client can get to the end *)
Definition reaches (w : world) : Prop := exists l, keeps_up w l = true /\ complete (w_recv (run w l)) = true.
Lemma reaches_step w a : (w_next (step w a) = w_next w \/ has_room w = true) -> reaches (step w a) -> reaches w.
Proof.
  intros H (l & H1 & H2). exists (a :: l). split; [|done]. cbn [keeps_up]. rewrite H1, andb_true_r. apply orb_true_iff.
  destruct H as [->|H]; [left; apply Nat.eqb_refl|by right].
Qed.
Definition reading (x : context) (p : pc) (r : list output) (n : nat) : world := World (Run false (Active x p None)) [] true r n.
Definition seen (x : context) (r : list output) : Prop := forall o, o ∈ x_buffer x -> o ∈ r.

Lemma seen_room x p r n : seen x r -> has_room (reading x p r n) = true.
Proof.
  intros H. unfold has_room. cbn. destruct (x_buffer x) as [|o b] eqn:E; [done|]. apply orb_true_iff. right. apply existsb_exists.
  exists o. split; [apply elem_of_list_In, H; rewrite E; left|apply Nat.eqb_refl].
Qed.
Lemma buffer_add_elem b o q : q ∈ buffer_add b o -> q ∈ b \/ q = o.
Proof.
  unfold buffer_add. intros [H|H]%elem_of_app; [left|right; by apply elem_of_list_singleton in H].
  destruct (capacity <=? length b); [|done]. destruct b; [done|by right].
Qed.

(** A response is produced, sent and received. *)
Lemma reaches_emit x p r n x' p' b : seen x' r -> has_room (reading x p r n) = true ->
  step (reading x p r n) (TaskStep false false) = emit false x' p' b (reading x p r n) ->
  (forall b', seen (with_buffer x' b') (r ++ [Output n b]) -> reaches (reading (with_buffer x' b') p' (r ++ [Output n b]) (S n))) ->
  reaches (reading x p r n).
Proof.
  intros Hseen Hroom Hs Hnext. apply (reaches_step _ (TaskStep false false)); [by right|]. rewrite Hs.
  apply (reaches_step _ (TaskStep false false)); [by left|]. apply (reaches_step _ Receive); [by left|]. cbn.
  apply (Hnext (buffer_add (x_buffer x') (Output n b))). intros o Ho. cbn in Ho. apply elem_of_app.
  apply buffer_add_elem in Ho as [Ho| ->]; [left; auto|right; left].
Qed.

Definition todo (x : context) (p : pc) : option nat :=
  match p with
  | PSchema => Some (4 + length (x_source x))
  | PLoop _ => Some (3 + length (x_source x))
  | PAfter _ => Some 2
  | PFinish => Some 1
  | _ => None
  end.
Lemma reading_reaches k : forall x p r n j, todo x p = Some j -> j <= k -> x_fails x = false -> seen x r -> reaches (reading x p r n).
Proof.
  induction k as [|k IH]; intros x p r n j Hj Hk Hf Hs; [destruct p; try done; injection Hj; lia|].
  pose proof (seen_room x p r n Hs) as Hroom.
  assert (forall x' p', step (reading x p r n) (TaskStep false false) = reading x' p' r n -> x_fails x' = false -> x_buffer x' = x_buffer x ->
    (exists j', todo x' p' = Some j' /\ j' <= k) -> reaches (reading x p r n)) as Hquiet.
  { intros x' p' Hst Hf' Hb' (j' & Hj1 & Hj2). apply (reaches_step _ (TaskStep false false)); [by right|]. rewrite Hst.
    apply (IH _ _ _ _ j'); try done. intros o Ho. apply Hs. by rewrite Hb' in Ho. }
  destruct p as [ | |e|e| |]; try done; cbn in Hj; injection Hj as <-.
  - eapply reaches_emit; [exact Hs|done|done|]. intros b' Hb'. eapply IH; [done| |done|done]. cbn. lia.
  - destruct (x_source x) as [|rows s] eqn:Esrc.
    + apply (Hquiet x (PAfter e)); [|done|done|by exists 2; split; [|cbn in Hk; lia]]. cbn. by rewrite Esrc, Hf.
    + destruct (x_state x) as [|bs f] eqn:Est.
      * eapply (reaches_emit x _ r n (with_source x s) (PLoop false) (BRows rows)); [exact Hs|done|cbn; by rewrite Esrc, Est|].
        intros b' Hb'. eapply IH; [done| |done|done]. cbn in Hk |- *. lia.
      * apply (Hquiet (with_state (with_source x s) (TCommand (bs ++ [rows]) f)) (PLoop e)); [cbn; by rewrite Esrc, Est|done|done|].
        eexists. split; [done|]. cbn in Hk |- *. lia.
  - destruct (x_state x) as [|bs [f|]] eqn:Est.
    + destruct e.
      * eapply (reaches_emit x _ r n x PFinish (BRows [])); [exact Hs|done|cbn; by rewrite Est|].
        intros b' Hb'. eapply IH; [done| |done|done]. lia.
      * apply (Hquiet x PFinish); [cbn; by rewrite Est|done|done|]. exists 1. split; [done|lia].
    + destruct (f bs) as [v|] eqn:Ef.
      * eapply (reaches_emit x _ r n (with_state x (TCommand [] None)) PFinish (BResult v)); [exact Hs|done|cbn; by rewrite Est, Ef|].
        intros b' Hb'. eapply IH; [done| |done|done]. lia.
      * apply (Hquiet (with_state x (TCommand [] None)) PFinish); [cbn; by rewrite Est, Ef|done|done|]. exists 1. split; [done|lia].
    + apply (Hquiet x PFinish); [cbn; by rewrite Est|done|done|]. exists 1. split; [done|lia].
  - eapply (reaches_emit x _ r n x PEnd BComplete); [exact Hs|done|done|]. intros b' Hb'. exists []. split; [done|].
    cbn. unfold complete. rewrite existsb_app. apply orb_true_iff. by right.
Qed.

Lemma resend_reaches x l : forall r n, x_fails x = false -> (forall o, o ∈ x_buffer x -> o ∈ r ++ l) -> reaches (reading x (PResend l) r n).
Proof.
  induction l as [|o l IH]; intros r n Hf Hs.
  - apply (reaches_step _ (TaskStep false false)); [by left|]. rewrite app_nil_r in Hs. unfold step. cbn [reading w_state task_step set_state w_wire w_conn w_recv w_next].
    apply (reading_reaches (4 + length (x_source x)) _ _ _ _ (match x_state x with TQuery => 4 | _ => 3 end + length (x_source x))); try done.
    + by destruct (x_state x).
    + destruct (x_state x); lia.
  - apply (reaches_step _ (TaskStep false false)); [by left|]. apply (reaches_step _ Receive); [by left|].
    apply (IH (r ++ [o]) n Hf). intros q Hq. rewrite <- app_assoc. by apply Hs.
Qed.

Lemma resume m source l : keeps_up (initial m source false) l = true ->
  unfinished (w_state (run (initial m source false) l)) = true ->
  exists l', keeps_up (initial m source false) (l ++ l') = true /\ complete (w_recv (run (initial m source false) (l ++ l'))) = true.
Proof.
  intros Hk Hu. set (w0 := initial m source false) in *.
  assert (forall w, reaches w -> w = run w0 l -> exists l', keeps_up w0 (l ++ l') = true /\ complete (w_recv (run w0 (l ++ l'))) = true) as Hfinal.
  { intros w (l' & H1 & H2) ->. exists l'. split; [|by unfold run; rewrite fold_left_app].
    clear H2 Hu. revert Hk H1. generalize w0. induction l as [|a k IH]; intros v Hk H1; [done|]. cbn [app keeps_up] in *.
    apply andb_true_iff in Hk as [-> Hk]. by apply IH. }
  apply (Hfinal (run w0 l)); [|done]. clear Hfinal.
  destruct (run_inv m source false l [] w0 (inv_initial _ _ _ _) Hk) as [log Hi]. revert Hu Hi. generalize (run w0 l). intros w Hu Hi. clear w0 Hk.
  assert (forall log w x, inv m source false True log w -> w_state w = Pending x -> reaches w) as Hpend.
  { clear. intros log w x Hi Hs. apply (reaches_step _ (Start (length (w_recv w)) true)).
    { left. cbn. destruct (_ && _); [|done]. unfold start, release_last. destruct (last_id _ _); cbn; rewrite Hs; done. }
    set (w1 := release_last (length (w_recv w)) w).
    assert (exists x', w_state w1 = Pending x' /\ x_fails x' = x_fails x /\ w_recv w1 = w_recv w) as (x' & Hs' & Hf' & Hr).
    { unfold w1, release_last. destruct (last_id _ _); cbn; [|by exists x]. rewrite Hs. cbn. eexists. done. }
    cbn [step]. rewrite Nat.leb_refl, Nat.eqb_refl. cbn [negb orb andb]. fold w1. unfold start. rewrite Hs'.
    apply (resend_reaches x' (x_buffer x') (w_recv w1) (w_next w1)).
    - rewrite Hf'. apply (i_ctx _ _ _ _ _ _ Hi x). by rewrite Hs.
    - intros o Ho. apply elem_of_app. by right. }
  assert (forall log w t, inv m source false True log w -> w_state w = Run true t -> unfinished (w_state w) = true -> reaches w) as Hpausing.
  { intros log' w' t Hi' Hs Hu'. apply (reaches_step _ PauseEnd).
    { left. cbn. rewrite Hs. destruct t; done. }
    destruct (inv_step m source false True log' w' PauseEnd Hi') as (log2 & Hi2 & _).
    { cbn. rewrite Hs. by destruct t. }
    rewrite Hs in Hu'. destruct t as [x p o|x| |]; try done; apply (Hpend log2 _ x Hi2); cbn; by rewrite Hs. }
  destruct (w_state w) as [|x|[] t| |] eqn:Es; try done.
  - by apply (Hpend log w x).
  - apply (Hpausing log w t); try done. by rewrite Es.
  - apply (reaches_step _ Pause).
    { left. cbn. by rewrite Es. }
    destruct (inv_step m source false True log w Pause Hi) as (log2 & Hi2 & _).
    { cbn. rewrite Es. done. }
    apply (Hpausing log2 _ t Hi2); cbn; rewrite Es; [done|]. by destruct t.
Qed.

(** ** Lost operations *)
Definition lost (e : estate) : bool := match e with Idle | Abandoned | Failed => true | _ => false end.
Lemma lost_forever l : forall w, lost (w_state w) = true -> w_wire w = [] -> w_recv (run w l) = w_recv w.
Proof.
  induction l as [|a l IH]; intros w Hl Hw; [done|]. change (run w (a :: l)) with (run (step w a) l).
  assert (lost (w_state (step w a)) = true /\ w_wire (step w a) = [] /\ w_recv (step w a) = w_recv w) as (H1 & H2 & H3).
  { destruct w as [e wire c r k]. cbn in Hl, Hw. subst wire.
    destruct a as [late refused| | |n| | | |n heard]; cbn [step w_state w_wire w_recv].
    1, 2, 3, 5, 6, 7: by destruct e.
    - destruct (n <=? _); [|done]. unfold release_last. cbn [w_recv]. destruct (last_id _ _); [|done]. cbn. by destruct e.
    - destruct (_ && _); [|done]. unfold start, release_last. cbn [w_recv]. destruct (last_id _ _); cbn; destruct e; try done; by destruct heard. }
  rewrite IH by done. done.
Qed.
