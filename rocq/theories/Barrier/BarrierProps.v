(** C86: a plan starts only after all its preconditions, and what overwriting leaves behind. *)
From Coq Require Import Lia.
From stdpp Require Import prelude list gmap.
From Verif.Barrier Require Import BarrierModel.

(** ** Specification *)
(** The actions of one partition of a precondition, and of the plan, in a history. *)
Definition done_by_pre (i j : nat) (t : list event) : list action :=
  omap (fun e => match e with OfPre i' j' a => if decide (i' = i /\ j' = j) then Some a else None | _ => None end) t.
Definition done_by_plan (p : nat) (t : list event) : list action :=
  omap (fun e => match e with OfPlan p' a => if decide (p' = p) then Some a else None | _ => None end) t.
Definition of_plan (e : event) : Prop := match e with OfPlan _ _ => True | _ => False end.
(** All the actions of the precondition [i] are in the history, each partition's once and in order. *)
Definition complete (ps : list node) (i : nat) (t : list event) : Prop :=
  forall n j work, ps !! i = Some n -> n !! j = Some work -> done_by_pre i j t = work.

(** ** Invariants *)
Definition action_of (e : event) : action := match e with OfPre _ _ a | OfPlan _ a => a end.
Definition replay (s : store) (l : list action) : option store := foldl (fun o a => o ≫= perform a) (Some s) l.
Lemma foldl_None l : foldl (fun o a => o ≫= perform a) (None : option store) l = None.
Proof. induction l as [|a l IH]; [done|exact IH]. Qed.
Lemma replay_app s l1 l2 : replay s (l1 ++ l2) = replay s l1 ≫= fun s' => replay s' l2.
Proof.
  unfold replay. rewrite foldl_app. destruct (foldl _ (Some s) l1) as [s'|]; [done|]. cbn.
  induction l2 as [|a l2 IH]; [done|]. cbn. done.
Qed.

Definition matches (done work : list action) (left : option (list action)) : Prop :=
  match left with Some l => done ++ l = work | None => exists l, done ++ l = work /\ l <> [] end.
Definition all_done (q : pre) : Prop := forall j o, todo_pre q !! j = Some o -> o = Some [].
Record inv (s0 : store) (ps : list node) (plan : node) (s : state) : Prop := {
  inv_pres_len : length (pres s) = length ps;
  inv_how i n q : ps !! i = Some n -> pres s !! i = Some q -> how q = enforce (length plan) (length n);
  inv_len i n q : ps !! i = Some n -> pres s !! i = Some q -> length (todo_pre q) = length n;
  inv_pre i n q j work o : ps !! i = Some n -> pres s !! i = Some q -> n !! j = Some work -> todo_pre q !! j = Some o ->
    matches (done_by_pre i j (trace s)) work o;
  inv_parts_len : length (parts s) = length plan;
  inv_part p x work : parts s !! p = Some x -> plan !! p = Some work -> done_by_plan p (trace s) ++ todo x = work;
  inv_waited p x i q : parts s !! p = Some x -> i < waited x -> pres s !! i = Some q -> all_done q;
  inv_waited_le p x : parts s !! p = Some x -> waited x <= length ps;
  inv_split : exists t1 t2, trace s = t1 ++ t2 /\ Forall (fun e => ~ of_plan e) t1 /\ Forall of_plan t2 /\
    (t2 <> [] -> forall i q, pres s !! i = Some q -> all_done q);
  inv_replay : replay s0 (map action_of (trace s)) = Some (files s);
  inv_bounds i j a : OfPre i j a ∈ trace s -> exists n, ps !! i = Some n /\ j < length n;
  inv_plan_bounds p a : OfPlan p a ∈ trace s -> p < length plan;
  inv_order t1 i' a t2 i : trace s = t1 ++ OfPre i' 0 a :: t2 -> (exists n, ps !! i' = Some n /\ length n = 1) -> i < i' -> complete ps i t1
}.

Lemma exists_last_or_nil {A} (l : list A) : l = [] \/ exists l' x, l = l' ++ [x].
Proof. destruct l using rev_ind; [by left|right; eauto]. Qed.
Lemma done_by_pre_app i j t e : done_by_pre i j (t ++ [e]) = done_by_pre i j t ++ done_by_pre i j [e].
Proof. unfold done_by_pre. by rewrite omap_app. Qed.
Lemma done_by_plan_app p t e : done_by_plan p (t ++ [e]) = done_by_plan p t ++ done_by_plan p [e].
Proof. unfold done_by_plan. by rewrite omap_app. Qed.
Lemma done_by_pre_same i j a : done_by_pre i j [OfPre i j a] = [a].
Proof. unfold done_by_pre. cbn. by rewrite decide_True. Qed.
Lemma done_by_plan_same p a : done_by_plan p [OfPlan p a] = [a].
Proof. unfold done_by_plan. cbn. by rewrite decide_True. Qed.
Lemma done_by_plan_other p p' a : p' <> p -> done_by_plan p' [OfPlan p a] = [].
Proof. intros H. unfold done_by_plan. cbn. by rewrite decide_False. Qed.
Lemma existsb_failed l : existsb is_failed l = false -> forall j o, l !! j = Some o -> o <> None.
Proof.
  intros H j o Hj ->. apply not_true_iff_false in H. apply H, existsb_exists. exists None. split; [|done].
  apply elem_of_list_In. by eapply elem_of_list_lookup_2.
Qed.
Lemma forallb_done l : forallb is_done l = true -> forall j o, l !! j = Some o -> o = Some [].
Proof.
  intros H j o Hj. rewrite forallb_forall in H. specialize (H o). destruct o as [[|]|]; try done; exfalso;
    (discriminate H; apply elem_of_list_In; by eapply elem_of_list_lookup_2).
Qed.
Lemma enforce_cases target k :
  (k = 1 /\ target = 1 /\ enforce target k = Direct) \/ (target = 1 /\ k <> 1 /\ enforce target k = Coalesced) \/
  (target <> 1 /\ enforce target k = RoundRobin target).
Proof.
  unfold enforce. destruct (Nat.eqb_spec k 1), (Nat.eqb_spec target 1); cbn [andb]; auto.
Qed.
Lemma ended_all_done s0 ps plan s i n q p : inv s0 ps plan s -> ps !! i = Some n -> pres s !! i = Some q -> p < length plan ->
  ended q p = Some true -> all_done q.
Proof.
  intros I Hn Hq Hp. unfold ended. pose proof (inv_how _ _ _ _ I _ _ _ Hn Hq) as Hh. pose proof (inv_len _ _ _ _ I _ _ _ Hn Hq) as Hl.
  destruct (enforce_cases (length plan) (length n)) as [(E1 & E2 & E)|[(E1 & E2 & E)|(E1 & E)]]; rewrite Hh, E.
  - destruct (todo_pre q !! p) as [[[|]|]|] eqn:Ep; try done. intros _ j o Hj.
    apply lookup_lt_Some in Hj as Hlt. assert (j = p) as -> by lia. congruence.
  - destruct (existsb _ _); [done|]. destruct (forallb _ _) eqn:F; [|done]. intros _ j o. by apply forallb_done.
  - destruct (existsb _ _); [done|]. destruct (forallb _ _) eqn:F; [|done]. intros _ j o. by apply forallb_done.
Qed.

Lemma inv_start s0 ps plan : inv s0 ps plan (start s0 ps plan).
Proof.
  unfold start, start_with. constructor; cbn [pres parts trace files].
  - by rewrite map_length.
  - intros i n q Hn Hq. rewrite list_lookup_fmap, Hn in Hq. by injection Hq as <-.
  - intros i n q Hn Hq. rewrite list_lookup_fmap, Hn in Hq. injection Hq as <-. cbn. by rewrite map_length.
  - intros i n q j work o Hn Hq Hw Ho. rewrite list_lookup_fmap, Hn in Hq. injection Hq as <-. cbn in Ho.
    rewrite list_lookup_fmap, Hw in Ho. by injection Ho as <-.
  - by rewrite map_length.
  - intros p x work Hx Hw. rewrite list_lookup_fmap, Hw in Hx. by injection Hx as <-.
  - intros p x i q Hx Hi. rewrite list_lookup_fmap in Hx. destruct (plan !! p); [|done]. injection Hx as <-. cbn in Hi. lia.
  - intros p x Hx. rewrite list_lookup_fmap in Hx. destruct (plan !! p); [|done]. injection Hx as <-. cbn. lia.
  - exists [], []. split; [done|]. split; [constructor|]. split; [constructor|]. done.
  - done.
  - intros i j a H. by apply elem_of_nil in H.
  - intros p a H. by apply elem_of_nil in H.
  - intros t1 i' a t2 i H. by destruct t1.
Qed.
(** A finished precondition is complete. *)
Lemma all_done_complete s0 ps plan s i : inv s0 ps plan s -> (forall q, pres s !! i = Some q -> all_done q) -> complete ps i (trace s).
Proof.
  intros I H n j work Hn Hw. assert (exists q, pres s !! i = Some q) as [q Hq].
  { apply lookup_lt_is_Some. rewrite (inv_pres_len _ _ _ _ I). by eapply lookup_lt_Some. }
  assert (exists o, todo_pre q !! j = Some o) as [o Ho].
  { apply lookup_lt_is_Some. rewrite (inv_len _ _ _ _ I _ _ _ Hn Hq). by eapply lookup_lt_Some. }
  pose proof (H _ Hq _ _ Ho) as ->. pose proof (inv_pre _ _ _ _ I _ _ _ _ _ _ Hn Hq Hw Ho) as M. cbn in M. by rewrite app_nil_r in M.
Qed.
Lemma complete_app ps i t1 t2 : (forall e, e ∈ t2 -> of_plan e) -> complete ps i (t1 ++ t2) <-> complete ps i t1.
Proof.
  intros H. assert (forall j, done_by_pre i j (t1 ++ t2) = done_by_pre i j t1) as E.
  { intros j. unfold done_by_pre. rewrite omap_app. induction t2 as [|e t2 IH]; [by rewrite app_nil_r|].
    destruct e; [by specialize (H (OfPre i0 j0 a) ltac:(left))|]. apply IH. intros e He. apply H. by right. }
  unfold complete. by setoid_rewrite E.
Qed.

Lemma inv_step s0 ps plan s o : inv s0 ps plan s -> inv s0 ps plan (step s o).
Proof.
  intros I. destruct o as [i j|p]; cbn [step].
  - destruct (pres s !! i) as [q|] eqn:Hq; [|done]. destruct (todo_pre q !! j) as [[[|a l]|]|] eqn:Hj; try done.
    destruct (started s i j (how q)) eqn:Hst; [|done].
    assert (exists n, ps !! i = Some n) as [n Hn].
    { apply lookup_lt_is_Some. rewrite <- (inv_pres_len _ _ _ _ I). by eapply lookup_lt_Some. }
    pose proof (inv_how _ _ _ _ I _ _ _ Hn Hq) as Hh. pose proof (inv_len _ _ _ _ I _ _ _ Hn Hq) as Hl.
    assert (exists work, n !! j = Some work) as [work Hw].
    { apply lookup_lt_is_Some. rewrite <- Hl. by eapply lookup_lt_Some. }
    pose proof (inv_pre _ _ _ _ I _ _ _ _ _ _ Hn Hq Hw Hj) as HM. cbn in HM.
    assert (~ all_done q) as Hnd. { intros Hd. by specialize (Hd _ _ Hj). }
    assert (i < length (pres s)) as Hilt by (by eapply lookup_lt_Some).
    assert (j < length (todo_pre q)) as Hjlt by (by eapply lookup_lt_Some).
    (* the parts that do not depend on whether the action succeeds *)
    assert (forall p x k, parts s !! p = Some x -> k < waited x -> k <> i) as Hwi.
    { intros p x k Hx Hk ->. by eapply Hnd, inv_waited. }
    destruct (inv_split _ _ _ _ I) as (t1 & t2 & Ht & Ht1 & Ht2 & Hall).
    assert (t2 = []) as ->. { destruct t2; [done|]. exfalso. apply Hnd. by apply (Hall ltac:(done) i). }
    rewrite app_nil_r in Ht. subst t1.
    destruct (perform a (files s)) as [f|] eqn:Hp.
    + constructor; cbn [pres parts trace files].
      * rewrite insert_length. apply I.
      * intros k n' q' Hn' Hq'. destruct (decide (k = i)) as [->|]; [|rewrite list_lookup_insert_ne in Hq' by done; by eapply inv_how].
        rewrite list_lookup_insert in Hq' by done. injection Hq' as <-. cbn. by eapply inv_how.
      * intros k n' q' Hn' Hq'. destruct (decide (k = i)) as [->|]; [|rewrite list_lookup_insert_ne in Hq' by done; by eapply inv_len].
        rewrite list_lookup_insert in Hq' by done. injection Hq' as <-. cbn. rewrite insert_length. by eapply inv_len.
      * intros k n' q' j' w' o Hn' Hq' Hw' Ho. rewrite done_by_pre_app. destruct (decide (k = i)) as [->|Hki].
        2:{ rewrite list_lookup_insert_ne in Hq' by done. replace (done_by_pre k j' [OfPre i j a]) with (@nil action).
            - rewrite app_nil_r. by eapply inv_pre.
            - unfold done_by_pre. cbn. rewrite decide_False by (intros [? _]; congruence). done. }
        rewrite list_lookup_insert in Hq' by done. injection Hq' as <-. cbn [todo_pre] in Ho. destruct (decide (j' = j)) as [->|Hjj].
        2:{ rewrite list_lookup_insert_ne in Ho by done. replace (done_by_pre i j' [OfPre i j a]) with (@nil action).
            - rewrite app_nil_r. by eapply inv_pre.
            - unfold done_by_pre. cbn. rewrite decide_False by (intros [_ ?]; congruence). done. }
        rewrite list_lookup_insert in Ho by done. injection Ho as <-. cbn [matches]. assert (w' = work) as -> by congruence.
        rewrite done_by_pre_same. by rewrite <- app_assoc.
      * apply I.
      * intros p x w Hx Hpw. rewrite done_by_plan_app. cbn. rewrite app_nil_r. by eapply inv_part.
      * intros p x k q' Hx Hk Hq'. rewrite list_lookup_insert_ne in Hq' by (apply not_eq_sym; by eapply Hwi). by eapply inv_waited.
      * apply I.
      * exists (trace s ++ [OfPre i j a]), []. split; [by rewrite app_nil_r|]. split; [|split; [constructor|done]].
        apply Forall_app. split; [done|]. constructor; [intros []|constructor].
      * rewrite map_app, replay_app, (inv_replay _ _ _ _ I). cbn. done.
      * intros k j' b [H|H]%elem_of_app; [by eapply inv_bounds|]. apply elem_of_list_singleton in H. injection H as -> -> ->.
        exists n. split; [done|]. by rewrite <- Hl.
      * intros p b [H|H]%elem_of_app; [by eapply inv_plan_bounds|]. by apply elem_of_list_singleton in H.
      * intros u1 i' b u2 k Hu Hone Hk. destruct (exists_last_or_nil u2) as [->|(u2' & e & ->)].
        -- apply app_inj_tail in Hu as [<- E]. injection E as <- -> <-. eapply all_done_complete; [done|]. intros q' Hq'.
           destruct Hone as (n1 & Hn1 & Hlen1). assert (n1 = n) as -> by congruence.
           assert (exists p x, parts s !! p = Some x /\ i <= waited x) as (p & x & Hx & Hge).
           { rewrite Hh in Hst. destruct (enforce_cases (length plan) (length n)) as [(E1 & E2 & E)|[(E1 & E2 & E)|(E1 & E)]]; rewrite E in Hst; cbn in Hst.
             - destruct (parts s !! 0) as [x|] eqn:Hx; [|done]. apply Nat.leb_le in Hst. eauto.
             - congruence.
             - apply existsb_exists in Hst as (x & Hin & Hle). apply elem_of_list_In, elem_of_list_lookup in Hin as [p Hx].
               apply Nat.leb_le in Hle. eauto. }
           eapply inv_waited; [done|done| |done]. lia.
        -- rewrite app_comm_cons, app_assoc in Hu. apply app_inj_tail in Hu as [Hu _]. by eapply inv_order.
    + constructor; cbn [pres parts trace files].
      * rewrite insert_length. apply I.
      * intros k n' q' Hn' Hq'. destruct (decide (k = i)) as [->|]; [|rewrite list_lookup_insert_ne in Hq' by done; by eapply inv_how].
        rewrite list_lookup_insert in Hq' by done. injection Hq' as <-. cbn. by eapply inv_how.
      * intros k n' q' Hn' Hq'. destruct (decide (k = i)) as [->|]; [|rewrite list_lookup_insert_ne in Hq' by done; by eapply inv_len].
        rewrite list_lookup_insert in Hq' by done. injection Hq' as <-. cbn. rewrite insert_length. by eapply inv_len.
      * intros k n' q' j' w' o Hn' Hq' Hw' Ho. destruct (decide (k = i)) as [->|Hki].
        2:{ rewrite list_lookup_insert_ne in Hq' by done. by eapply inv_pre. }
        rewrite list_lookup_insert in Hq' by done. injection Hq' as <-. cbn [todo_pre] in Ho. destruct (decide (j' = j)) as [->|Hjj].
        2:{ rewrite list_lookup_insert_ne in Ho by done. by eapply inv_pre. }
        rewrite list_lookup_insert in Ho by done. injection Ho as <-. cbn. assert (w' = work) as -> by congruence. by exists (a :: l).
      * apply I.
      * apply I.
      * intros p x k q' Hx Hk Hq'. rewrite list_lookup_insert_ne in Hq' by (apply not_eq_sym; by eapply Hwi). by eapply inv_waited.
      * apply I.
      * exists (trace s), []. split; [by rewrite app_nil_r|]. split; [done|]. split; [constructor|done].
      * apply I.
      * apply I.
      * apply I.
      * apply I.
  - destruct (parts s !! p) as [x|] eqn:Hx; [|done]. destruct (broken x) eqn:Hb; [done|]. cbv zeta.
    assert (p < length (parts s)) as Hplt by (by eapply lookup_lt_Some).
    assert (p < length plan) as Hplt' by (rewrite <- (inv_parts_len _ _ _ _ I); done).
    (* only the state of this partition changes *)
    assert (forall w b, (forall i q, i < w -> pres s !! i = Some q -> all_done q) -> w <= length ps ->
      inv s0 ps plan (State (files s) (pres s) (<[p := Part w (todo x) b]> (parts s)) (trace s))) as Hput.
    { intros w b Hw Hle. constructor; cbn [pres parts trace files]; try apply I.
      - rewrite insert_length. apply I.
      - intros p' x' wk Hx' Hwk. destruct (decide (p' = p)) as [->|]; [|rewrite list_lookup_insert_ne in Hx' by done; by eapply inv_part].
        rewrite list_lookup_insert in Hx' by done. injection Hx' as <-. cbn. by eapply inv_part.
      - intros p' x' i q Hx' Hi Hq. destruct (decide (p' = p)) as [->|]; [|rewrite list_lookup_insert_ne in Hx' by done; by eapply inv_waited].
        rewrite list_lookup_insert in Hx' by done. injection Hx' as <-. cbn in Hi. by eapply Hw.
      - intros p' x' Hx'. destruct (decide (p' = p)) as [->|]; [|rewrite list_lookup_insert_ne in Hx' by done; by eapply inv_waited_le].
        rewrite list_lookup_insert in Hx' by done. by injection Hx' as <-. }
    pose proof (inv_waited_le _ _ _ _ I _ _ Hx) as Hle.
    destruct (pres s !! waited x) as [q|] eqn:Hq.
    + assert (exists n, ps !! waited x = Some n) as [n Hn].
      { apply lookup_lt_is_Some. rewrite <- (inv_pres_len _ _ _ _ I). by eapply lookup_lt_Some. }
      destruct (ended q p) as [[|]|] eqn:He; [| |done].
      * apply Hput; [|by apply lookup_lt_Some in Hn]. intros i q' Hi Hq'. destruct (decide (i = waited x)) as [->|].
        -- assert (q' = q) as -> by congruence. by eapply ended_all_done.
        -- eapply inv_waited; [done|done| |done]. lia.
      * apply Hput; [|done]. intros i q' Hi Hq'. by eapply inv_waited.
    + assert (forall i q, pres s !! i = Some q -> all_done q) as Hall.
      { intros i q Hqi. eapply inv_waited; [done|done| |done]. apply lookup_lt_Some in Hqi. apply lookup_ge_None in Hq. lia. }
      destruct (todo x) as [|a l] eqn:Ht; [done|]. rewrite <- Ht in *. destruct (perform a (files s)) as [f|] eqn:Hpf.
      2:{ apply Hput; [|done]. intros i q Hi Hqi. by eapply Hall. }
      constructor; cbn [pres parts trace files]; try apply I.
      * intros i n q j wk o Hn Hqi Hw Ho. rewrite done_by_pre_app. cbn. rewrite app_nil_r. by eapply inv_pre.
      * rewrite insert_length. apply I.
      * intros p' x' wk Hx' Hwk. rewrite done_by_plan_app. destruct (decide (p' = p)) as [->|Hpp].
        -- rewrite list_lookup_insert in Hx' by done. injection Hx' as <-. cbn [todo].
           pose proof (inv_part _ _ _ _ I _ _ _ Hx Hwk) as E. rewrite Ht in E. rewrite done_by_plan_same. by rewrite <- app_assoc.
        -- rewrite list_lookup_insert_ne in Hx' by done. rewrite done_by_plan_other by done. rewrite app_nil_r. by eapply inv_part.
      * intros p' x' i q Hx' Hi Hqi. by eapply Hall.
      * intros p' x' Hx'. destruct (decide (p' = p)) as [->|]; [|rewrite list_lookup_insert_ne in Hx' by done; by eapply inv_waited_le].
        rewrite list_lookup_insert in Hx' by done. by injection Hx' as <-.
      * destruct (inv_split _ _ _ _ I) as (t1 & t2 & E & Ht1 & Ht2 & _). exists t1, (t2 ++ [OfPlan p a]).
        split; [by rewrite E, app_assoc|]. split; [done|]. split; [|done]. apply Forall_app. split; [done|]. constructor; [done|constructor].
      * rewrite map_app, replay_app, (inv_replay _ _ _ _ I). cbn. done.
      * intros i j b [H|H]%elem_of_app; [by eapply inv_bounds|]. by apply elem_of_list_singleton in H.
      * intros p' b [H|H]%elem_of_app; [by eapply inv_plan_bounds|]. apply elem_of_list_singleton in H. by injection H as -> ->.
      * intros u1 i' b u2 k Hu Hone Hk. destruct (exists_last_or_nil u2) as [->|(u2' & e & ->)].
        -- by apply app_inj_tail in Hu as [_ ?].
        -- rewrite app_comm_cons, app_assoc in Hu. apply app_inj_tail in Hu as [Hu _]. by eapply inv_order.
Qed.
Lemma inv_run s0 ps plan ops : inv s0 ps plan (run (start s0 ps plan) ops).
Proof.
  unfold run. assert (forall s, inv s0 ps plan s -> inv s0 ps plan (foldl step s ops)) as H; [|apply H, inv_start].
  induction ops as [|o ops IH]; intros s Hs; [done|]. apply IH. by apply inv_step.
Qed.

(** ** C86 *)
(** Before the first action of the plan, every precondition is complete, each partition's actions once and
    in order; after it there are only actions of the plan. *)
Theorem C86_barrier s0 ps plan ops t1 p a t2 :
  trace (run (start s0 ps plan) ops) = t1 ++ OfPlan p a :: t2 ->
  (forall i, complete ps i t1) /\ Forall of_plan t2.
Proof.
  intros E. pose proof (inv_run s0 ps plan ops) as I. destruct (inv_split _ _ _ _ I) as (u1 & u2 & Eu & Hu1 & Hu2 & Hall).
  assert (Forall of_plan (OfPlan p a :: t2) /\ u2 <> []) as [Hp Hne].
  { rewrite E in Eu. clear -Eu Hu1 Hu2. revert u1 Eu Hu1. induction t1 as [|e t1 IH]; intros u1 Eu Hu1; destruct u1 as [|e' u1].
    - cbn in Eu. by subst u2.
    - cbn in Eu. injection Eu as <- _. apply Forall_cons_1 in Hu1 as [H _]. by destruct H.
    - cbn in Eu. subst u2. split; [|done]. change (e :: t1 ++ OfPlan p a :: t2) with ((e :: t1) ++ OfPlan p a :: t2) in Hu2. by apply Forall_app in Hu2 as [_ ?].
    - cbn in Eu. injection Eu as _ Eu. apply Forall_cons_1 in Hu1 as [_ Hu1]. by eapply IH. }
  split; [|by apply Forall_cons_1 in Hp as [_ ?]]. intros i.
  apply (complete_app ps i t1 (OfPlan p a :: t2)); [by apply list.Forall_forall|]. rewrite <- E. eapply all_done_complete; [done|].
  intros q Hq. by apply (Hall Hne i).
Qed.
Print Assumptions C86_barrier.
Example C86_barrier_example :
  let s := run (start ∅ [[[Command 1]; [Command 2]]; [[Command 3]]] [[Command 4]; [Command 5]])
    [RunPre 0 1; Poll 0; RunPre 1 0; RunPre 0 0; Poll 0; RunPre 1 0; Poll 0; Poll 0; Poll 1; Poll 1; Poll 1] in
  finished s = true /\ trace s = [OfPre 0 1 (Command 2); OfPre 0 0 (Command 1); OfPre 1 0 (Command 3); OfPlan 0 (Command 4); OfPlan 1 (Command 5)].
Proof. split; vm_compute; reflexivity. Qed.

(** When an action of a precondition fails, the plan does nothing. *)
Theorem C86_failed_precondition s0 ps plan ops i n work p a :
  ps !! i = Some n -> work ∈ n -> Fail ∈ work -> OfPlan p a ∉ trace (run (start s0 ps plan) ops).
Proof.
  intros Hn Hw Hf Hin. apply elem_of_list_split in Hin as (t1 & t2 & E). pose proof (inv_run s0 ps plan ops) as I.
  destruct (C86_barrier _ _ _ _ _ _ _ _ E) as [Hc _]. apply elem_of_list_lookup in Hw as [j Hj]. specialize (Hc i n j work Hn Hj).
  rewrite <- Hc in Hf. apply elem_of_list_omap in Hf as ([i' j' b|] & He & Hb); [|done]. case_decide; [|done]. injection Hb as ->.
  pose proof (inv_replay _ _ _ _ I) as Hr. rewrite E in Hr. apply elem_of_list_split in He as (v1 & v2 & ->).
  rewrite !map_app, <- app_assoc in Hr. rewrite replay_app in Hr. destruct (replay s0 (map action_of v1)) as [s'|]; [|done].
  cbn in Hr. unfold replay in Hr. cbn in Hr. by rewrite foldl_None in Hr.
Qed.
Print Assumptions C86_failed_precondition.

(** A precondition with one partition, such as a command, starts only when those before it are complete. *)
Theorem C86_order s0 ps plan ops t1 i' a t2 i n :
  trace (run (start s0 ps plan) ops) = t1 ++ OfPre i' 0 a :: t2 -> ps !! i' = Some n -> length n = 1 -> i < i' ->
  complete ps i t1.
Proof. intros E Hn H1 Hi. eapply inv_order; [apply inv_run|done|by exists n|done]. Qed.
Print Assumptions C86_order.

(** Execution never gets stuck: while a partition has neither failed nor finished, something can be done. *)
Theorem C86_progress s0 ps plan ops p x :
  let s := run (start s0 ps plan) ops in
  parts s !! p = Some x -> broken x = false -> waited x < length ps \/ todo x <> [] ->
  exists o, step s o <> s.
Proof.
  intros s Hx Hb Hmore. pose proof (inv_run s0 ps plan ops) as I. fold s in I. clearbody s. clear ops.
  assert (p < length (parts s)) as Hplt by (by eapply lookup_lt_Some).
  assert (forall y, y <> x -> State (files s) (pres s) (<[p := y]> (parts s)) (trace s) <> s) as Hchg.
  { intros y Hy E. apply (f_equal parts) in E. cbn in E. apply (f_equal (.!! p)) in E. rewrite list_lookup_insert in E by done. congruence. }
  destruct (pres s !! waited x) as [q|] eqn:Hq.
  - destruct (ended q p) as [[|]|] eqn:He.
    + exists (Poll p). cbn [step]. rewrite Hx, Hb, Hq, He. apply Hchg. intros E. apply (f_equal waited) in E. cbn in E. lia.
    + exists (Poll p). cbn [step]. rewrite Hx, Hb, Hq, He. apply Hchg. intros E. apply (f_equal broken) in E. cbn in E. congruence.
    + assert (exists n, ps !! waited x = Some n) as [n Hn].
      { apply lookup_lt_is_Some. rewrite <- (inv_pres_len _ _ _ _ I). by eapply lookup_lt_Some. }
      pose proof (inv_how _ _ _ _ I _ _ _ Hn Hq) as Hh.
      assert (exists j a l, todo_pre q !! j = Some (Some (a :: l)) /\ started s (waited x) j (how q) = true) as (j & a & l & Hj & Hst).
      { assert (forall k, how q = Coalesced \/ how q = RoundRobin k -> exists j a l, todo_pre q !! j = Some (Some (a :: l))) as Hsome.
        { intros k Hk. assert (forallb is_done (todo_pre q) = false /\ existsb is_failed (todo_pre q) = false) as [F1 F2].
          { unfold ended in He. destruct Hk as [Hk|Hk]; rewrite Hk in He; destruct (existsb _ _), (forallb _ _); done. }
          clear -F1 F2. revert F1 F2. generalize (todo_pre q) as l. induction l as [|o l IH]; [done|]. cbn [forallb existsb].
          destruct o as [[|a w]|]; cbn; intros F1 F2; [|by exists 0, a, w|done]. destruct (IH F1 F2) as (j & b & w & Hj). by exists (S j), b, w. }
        destruct (enforce_cases (length plan) (length n)) as [(E1 & E2 & E)|[(E1 & E2 & E)|(E1 & E)]]; rewrite E in Hh.
        - unfold ended in He. rewrite Hh in He. destruct (todo_pre q !! p) as [[[|a l]|]|] eqn:Ep; try done.
          exists p, a, l. split; [done|]. rewrite Hh. cbn. rewrite Hx. by apply Nat.leb_le.
        - destruct (Hsome 0) as (j & a & l & Hj); [by left|]. exists j, a, l. split; [done|]. by rewrite Hh.
        - destruct (Hsome (length plan)) as (j & a & l & Hj); [by right|]. exists j, a, l. split; [done|]. rewrite Hh. cbn.
          apply existsb_exists. exists x. split; [apply elem_of_list_In; by eapply elem_of_list_lookup_2|by apply Nat.leb_le]. }
      exists (RunPre (waited x) j). cbn [step]. rewrite Hq, Hj, Hst. assert (waited x < length (pres s)) as Hwlt by (by eapply lookup_lt_Some).
      assert (j < length (todo_pre q)) as Hjlt by (by eapply lookup_lt_Some).
      destruct (perform a (files s)); intros E; apply (f_equal pres) in E; cbn in E; apply (f_equal (.!! waited x)) in E;
        rewrite list_lookup_insert in E by done; rewrite Hq in E; injection E as E; apply (f_equal todo_pre) in E; cbn in E;
        apply (f_equal (.!! j)) in E; rewrite list_lookup_insert in E by done; rewrite Hj in E; injection E; [|done].
      intros E'. apply (f_equal length) in E'. cbn in E'. lia.
  - assert (todo x <> []) as Hne.
    { destruct Hmore as [Hlt|]; [|done]. exfalso. apply lookup_ge_None in Hq. rewrite (inv_pres_len _ _ _ _ I) in Hq. lia. }
    exists (Poll p). cbn [step]. rewrite Hx, Hb, Hq. destruct (todo x) as [|a l] eqn:Ht; [done|]. destruct (perform a (files s)).
    + intros E. apply (f_equal trace) in E. cbn in E. apply (f_equal length) in E. rewrite app_length in E. cbn in E. lia.
    + apply Hchg. intros E. apply (f_equal broken) in E. cbn in E. congruence.
Qed.
Print Assumptions C86_progress.

(** Without the rule that matches partitions, a plan can start before its preconditions are complete. *)
Theorem C86_unmatched_refuted : exists ps plan ops t1 p a t2,
  trace (run (start_unmatched ∅ ps plan) ops) = t1 ++ OfPlan p a :: t2 /\ ~ complete ps 0 t1.
Proof.
  exists [[[Command 1]; [Command 2]]], [[Command 3]; [Command 4]], [RunPre 0 0; Poll 0; Poll 0; RunPre 0 1],
    [OfPre 0 0 (Command 1)], 0, (Command 3), [OfPre 0 1 (Command 2)]. split; [vm_compute; reflexivity|].
  intros H. specialize (H _ 1 [Command 2] eq_refl eq_refl). vm_compute in H. discriminate H.
Qed.
Print Assumptions C86_unmatched_refuted.

(** *** Overwriting *)
Lemma overwrite_trace s old sink ops :
  let st := run (start_overwrite s old sink) ops in
  finished st = true -> sink <> [] -> replay s (map Delete old ++ sink) = Some (files st).
Proof.
  intros st Hf Hne. pose proof (inv_run s [[map Delete old]] [sink] ops) as I. fold (start_overwrite s old sink) in I. fold st in I. clearbody st.
  assert (exists x, parts st = [x]) as [x Hx].
  { pose proof (inv_parts_len _ _ _ _ I) as L. destruct (parts st) as [|x [|]]; try done. by exists x. }
  unfold finished in Hf. rewrite Hx in Hf. cbn in Hf. rewrite (inv_pres_len _ _ _ _ I) in Hf. cbn in Hf.
  destruct (todo x) as [|] eqn:Ht; [|by rewrite !andb_false_r in Hf].
  pose proof (inv_part _ _ _ _ I 0 x sink ltac:(by rewrite Hx) eq_refl) as Hs. rewrite Ht, app_nil_r in Hs.
  destruct (inv_split _ _ _ _ I) as (t1 & t2 & E & Ht1 & Ht2 & Hall).
  assert (map action_of t2 = sink) as E2.
  { rewrite <- Hs, E. unfold done_by_plan. rewrite omap_app.
    replace (omap _ t1) with (@nil action).
    - clear -Ht2 I E. cbn. assert (forall p a, OfPlan p a ∈ t2 -> p = 0) as H0.
      { intros p a Hin. pose proof (inv_plan_bounds _ _ _ _ I p a) as B. rewrite E in B. specialize (B ltac:(apply elem_of_app; by right)). cbn in B. lia. }
      clear E. induction Ht2 as [|e t2 He _ IH]; [done|]. destruct e as [|p a]; [done|]. cbn. rewrite decide_True by (eapply H0; by left).
      f_equal. apply IH. intros p' a' Hin. eapply H0. by right.
    - clear -Ht1. induction Ht1 as [|e t1 He _ IH]; [done|]. destruct e as [|p a]; [done|]. by exfalso; apply He. }
  assert (t2 <> []) as Hne2. { intros ->. by rewrite <- E2 in Hne. }
  pose proof (all_done_complete _ _ _ _ 0 I (Hall Hne2 0)) as Hc. rewrite E in Hc. apply complete_app in Hc; [|by apply list.Forall_forall].
  specialize (Hc _ 0 (map Delete old) eq_refl eq_refl).
  assert (map action_of t1 = map Delete old) as E1.
  { rewrite <- Hc. clear -Ht1 I E. assert (forall i j a, OfPre i j a ∈ t1 -> i = 0 /\ j = 0) as H0.
    { intros i j a Hin. pose proof (inv_bounds _ _ _ _ I i j a) as B. rewrite E in B. specialize (B ltac:(apply elem_of_app; by left)) as (n & Hn & Hj).
      destruct i as [|i]; [|done]. cbn in Hn. injection Hn as <-. cbn in Hj. lia. }
    clear E. induction Ht1 as [|e t1 He _ IH]; [done|]. destruct e as [i j a|]; [|by exfalso; apply He]. cbn.
    rewrite decide_True by (eapply H0; by left). f_equal. apply IH. intros i' j' a' Hin. eapply H0. by right. }
  rewrite <- E1, <- E2, <- map_app, <- E. apply I.
Qed.
Lemma replay_delete s old : exists s', replay s (map Delete old) = Some s' /\ forall f, s' !! f = if decide (f ∈ old) then None else s !! f.
Proof.
  revert s. induction old as [|o old IH]; intros s.
  - exists s. split; [done|]. intros f. by rewrite decide_False by (intros H; by apply elem_of_nil in H).
  - destruct (IH (delete o s)) as (s' & E & H). exists s'. split; [exact E|]. intros f. rewrite H. destruct (decide (f ∈ old)).
    + by rewrite decide_True by (by right).
    + destruct (decide (f = o)) as [->|]; [rewrite lookup_delete; by rewrite decide_True by left|].
      rewrite lookup_delete_ne by done. rewrite decide_False; [done|]. by intros [?|?]%elem_of_cons.
Qed.
Definition written (sink : list action) : list nat := omap (fun a => match a with Write f _ => Some f | _ => None end) sink.
Definition only_writes (sink : list action) : Prop :=
  Forall (fun a => match a with Delete _ => False | _ => True end) sink /\ NoDup (written sink).
Lemma written_Write f rows sink : Write f rows ∈ sink -> f ∈ written sink.
Proof. intros H. apply elem_of_list_omap. by exists (Write f rows). Qed.
Lemma replay_sink s sink s' : only_writes sink -> replay s sink = Some s' ->
  (forall f rows, Write f rows ∈ sink -> s' !! f = Some rows) /\ (forall f, f ∉ written sink -> s' !! f = s !! f).
Proof.
  revert s. induction sink as [|a sink IH]; intros s [Hd Hn] Hr.
  - injection Hr as <-. split; [|done]. intros f rows H. by apply elem_of_nil in H.
  - apply Forall_cons_1 in Hd as [Ha Hd]. unfold replay in Hr. cbn in Hr. destruct (perform a s) as [s1|] eqn:Hp.
    2:{ by rewrite foldl_None in Hr. }
    assert (NoDup (written sink)) as Hn'. { destruct a; cbn in Hn; try done. by apply NoDup_cons in Hn as [_ ?]. }
    destruct (IH s1 (conj Hd Hn') Hr) as [H1 H2]. destruct a as [f|f rows|f|n|]; cbn in Hp; try done.
    + injection Hp as <-. cbn in Hn. apply NoDup_cons in Hn as [Hnf _]. split.
      * intros f' rows' [E|Hin]%elem_of_cons; [|by apply H1]. injection E as -> ->. rewrite H2 by done. by rewrite lookup_insert.
      * intros f' Hf'. cbn in Hf'. apply not_elem_of_cons in Hf' as [Hne Hf']. rewrite H2 by done. by rewrite lookup_insert_ne.
    + destruct (s !! f) eqn:Ef; [|done]. injection Hp as <-. split; [|exact H2]. intros f' rows' [E|Hin]%elem_of_cons; [done|by apply H1].
    + injection Hp as <-. split; [|exact H2]. intros f' rows' [E|Hin]%elem_of_cons; [done|by apply H1].
Qed.
(** After an overwriting write the table has exactly the new files, and other files are as before. *)
Theorem C86_overwrite s old sink ops f :
  let st := run (start_overwrite s old sink) ops in
  finished st = true -> sink <> [] -> only_writes sink ->
  (forall rows, Write f rows ∈ sink -> files st !! f = Some rows) /\
  (f ∉ written sink -> files st !! f = if decide (f ∈ old) then None else s !! f).
Proof.
  intros st Hf Hne Ho. pose proof (overwrite_trace s old sink ops Hf Hne) as Hr. fold st in Hr. rewrite replay_app in Hr.
  destruct (replay_delete s old) as (s' & E & H). rewrite E in Hr. cbn in Hr. destruct (replay_sink _ _ _ Ho Hr) as [H1 H2].
  split; [apply H1|]. intros Hw. by rewrite H2, H.
Qed.
Print Assumptions C86_overwrite.
Example C86_overwrite_example :
  let s : store := {[1 := [10]; 2 := [20]; 7 := [70]]} in
  let st := run (start_overwrite s [1; 2] [Read 7; Write 3 [70]]) [Poll 0; RunPre 0 0; RunPre 0 0; Poll 0; Poll 0; Poll 0] in
  finished st = true /\ files st = {[3 := [70]; 7 := [70]]}.
Proof. split; [vm_compute; reflexivity|]. apply (bool_decide_unpack _). vm_compute. exact I. Qed.

(** A query that reads the table it overwrites never finishes. *)
Theorem C86_overwrite_itself s old sink ops f :
  f ∈ old -> Read f ∈ sink -> f ∉ written sink -> only_writes sink -> finished (run (start_overwrite s old sink) ops) = false.
Proof.
  intros Hold Hread Hfresh [Hd _]. destruct (finished _) eqn:Hf; [|done]. exfalso.
  assert (sink <> []) as Hne. { intros ->. by apply elem_of_nil in Hread. }
  pose proof (overwrite_trace s old sink ops Hf Hne) as Hr. rewrite replay_app in Hr.
  destruct (replay_delete s old) as (s' & E & H). rewrite E in Hr. cbn in Hr. specialize (H f). rewrite decide_True in H by done.
  revert H Hr Hread Hfresh Hd. generalize (files (run (start_overwrite s old sink) ops)) as r. intros r. clear. revert s'. induction sink as [|a sink IH]; intros s' H Hr Hread Hfresh Hd.
  { by apply elem_of_nil in Hread. }
  apply Forall_cons_1 in Hd as [Ha Hd]. unfold replay in Hr. cbn in Hr. destruct (perform a s') as [s1|] eqn:Hp.
  2:{ by rewrite foldl_None in Hr. }
  apply elem_of_cons in Hread as [<-|Hread].
  - cbn in Hp. by rewrite H in Hp.
  - eapply (IH s1); [|exact Hr|done| |done].
    + destruct a as [g|g rows|g|n|]; cbn in Hp; try done.
      * injection Hp as <-. cbn in Hfresh. apply not_elem_of_cons in Hfresh as [Hne _]. by rewrite lookup_insert_ne.
      * destruct (s' !! g); [|done]. by injection Hp as <-.
      * by injection Hp as <-.
    + destruct a; cbn in Hfresh; try done. by apply not_elem_of_cons in Hfresh as [_ ?].
Qed.
Print Assumptions C86_overwrite_itself.
(** And the old rows are lost, as they are when the query fails for another reason. *)
Theorem C86_overwrite_keeps_rows_refuted : exists s old sink ops f rows,
  let st := run (start_overwrite s old sink) ops in
  f ∈ old /\ s !! f = Some rows /\ (exists x, parts st = [x] /\ broken x = true) /\ files st = ∅ /\ only_writes sink /\ Read f ∈ sink.
Proof.
  exists {[1 := [10]]}, [1], [Read 1; Write 2 [10]], [RunPre 0 0; Poll 0; Poll 0], 1, [10]. cbv zeta.
  split; [left|]. split; [vm_compute; reflexivity|]. split; [eexists; split; vm_compute; reflexivity|]. split; [apply (bool_decide_unpack _); vm_compute; exact I|].
  split; [|left]. split; [repeat constructor|]. cbn. apply NoDup_singleton.
Qed.
Print Assumptions C86_overwrite_keeps_rows_refuted.
Theorem C86_failure_keeps_rows_refuted : exists s old sink ops f rows,
  let st := run (start_overwrite s old sink) ops in
  f ∈ old /\ s !! f = Some rows /\ (exists x, parts st = [x] /\ broken x = true) /\ files st = ∅ /\ (forall g, Read g ∉ sink).
Proof.
  exists {[1 := [10]]}, [1], [Fail; Write 2 [10]], [RunPre 0 0; Poll 0; Poll 0], 1, [10]. cbv zeta.
  split; [left|]. split; [vm_compute; reflexivity|]. split; [eexists; split; vm_compute; reflexivity|]. split; [apply (bool_decide_unpack _); vm_compute; exact I|].
  intros g [H|[H|H%elem_of_nil]%elem_of_cons]%elem_of_cons; done.
Qed.
Print Assumptions C86_failure_keeps_rows_refuted.
