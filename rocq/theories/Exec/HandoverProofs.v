From stdpp Require Import prelude list.
From Verif.Lib Require Import ListFacts.
From Verif.Exec Require Import TaskStateModel GraphModel GraphSpec JobModel JobSpec.
From Verif.Exec Require Import JobProofs JobInvariants JobTheorems.

(** * What [extend_job_output] hands over *)

Definition due (j : job) (t : nat * nat) : bool :=
  match last (attempts j t) with
  | None => false
  | Some a => (bool_decide (at_state a = TRunning) || bool_decide (at_state a = TSucceeded))
              && negb (at_fetched a)
  end.
Definition due_keys (j : job) (tc : (nat * nat) * nat) : list stream_key :=
  if due j tc.1 then
    map (fun c => StreamKey (TaskKey tc.1.1 tc.1.2 (length (attempts j tc.1) - 1)) c) (seq 0 tc.2)
  else [].

Lemma due_ext j j' t : attempts j' t = attempts j t -> due j' t = due j t.
Proof. intros H. unfold due. by rewrite H. Qed.
Lemma due_keys_ext j j' tc : attempts j' tc.1 = attempts j tc.1 -> due_keys j' tc = due_keys j tc.
Proof. intros H. unfold due_keys. by rewrite (due_ext j j'), H. Qed.

Lemma extend_one_eq j acts tc :
  extend_one (j, acts) tc =
  (if due j tc.1 then alter_task set_last_fetched j tc.1 else j, acts ++ map ExtendJobOutput (due_keys j tc)).
Proof.
  destruct tc as [t n]. unfold extend_one, due_keys, due. cbn [fst snd].
  destruct (last (attempts j t)) as [a|]; [|by rewrite app_nil_r].
  destruct (_ && _); [|by rewrite app_nil_r]. by rewrite map_map.
Qed.

Lemma attempts_set_last j t t' :
  attempts (alter_task set_last_fetched j t) t' = if decide (t' = t) then set_last_fetched (attempts j t) else attempts j t'.
Proof. rewrite attempts_alter_task_nil by done. case_decide; case_decide; subst; congruence. Qed.

Lemma extend_fold l j acts :
  NoDup (map fst l) ->
  let res := foldl extend_one (j, acts) l in
  (forall t, attempts res.1 t = if decide (t ∈ map fst l /\ due j t = true) then set_last_fetched (attempts j t) else attempts j t) /\
  res.2 = acts ++ map ExtendJobOutput (flat_map (due_keys j) l).
Proof.
  revert j acts. induction l as [|tc l IH]; intros j acts Hnd; cbn [foldl map flat_map].
  - cbn. split; [|by rewrite app_nil_r]. intros t. rewrite decide_False; [done|]. by intros [?%elem_of_nil _].
  - cbn [map] in Hnd. apply NoDup_cons in Hnd as [Hni Hnd]. rewrite extend_one_eq.
    specialize (IH (if due j tc.1 then alter_task set_last_fetched j tc.1 else j)
      (acts ++ map ExtendJobOutput (due_keys j tc)) Hnd) as [IH1 IH2].
    assert (Hatt : forall t, t <> tc.1 ->
      attempts (if due j tc.1 then alter_task set_last_fetched j tc.1 else j) t = attempts j t).
    { intros t Ht. destruct (due j tc.1); [|done]. rewrite attempts_set_last. by rewrite decide_False. }
    split.
    + intros t. rewrite IH1. destruct (decide (t = tc.1)) as [->|Hne].
      * rewrite decide_False by tauto. destruct (due j tc.1) eqn:Ed.
        -- rewrite attempts_set_last, decide_True by done. rewrite decide_True; [done|].
           split; [apply elem_of_cons; by left|done].
        -- rewrite decide_False; [done|]. intros [_ H]. congruence.
      * rewrite (due_ext j) by auto. rewrite Hatt by done.
        destruct (decide (t ∈ map fst l /\ due j t = true)) as [H|H].
        -- rewrite decide_True; [done|]. rewrite elem_of_cons. tauto.
        -- rewrite decide_False; [done|]. rewrite elem_of_cons. tauto.
    + rewrite IH2, <- app_assoc, <- map_app. do 3 f_equal.
      apply flat_map_ext_elem. intros tc' Htc'. apply due_keys_ext, Hatt. intros E. apply Hni.
      rewrite <- E. apply elem_of_map_iff. eauto.
Qed.

Lemma elem_of_final g t n : (t, n) ∈ final_tasks g <-> is_final g t n.
Proof.
  unfold final_tasks, is_final. rewrite elem_of_flat_map. split.
  - intros (s & Hs & H). destruct (g !! s) as [st|] eqn:E; [|by apply elem_of_nil in H].
    destruct (consumers g s) as [|c cs] eqn:Ec; [|by apply elem_of_nil in H].
    apply elem_of_map_iff in H as (p & [= -> ->] & Hp). apply elem_of_seq_iff in Hp. cbn [fst snd].
    exists st. split_and!; [done|done|lia|]. intros c m Hf.
    assert (c ∈ consumers g s) as Hc by (apply elem_of_consumers; eauto). rewrite Ec in Hc. by apply elem_of_nil in Hc.
  - intros (st & Hst & <- & Hp & Hno). exists t.1. split.
    + apply elem_of_seq_iff. apply lookup_lt_Some in Hst. lia.
    + rewrite Hst. destruct (consumers g t.1) as [|c cs] eqn:Ec.
      * apply elem_of_map_iff. exists t.2. split; [by destruct t|]. apply elem_of_seq_iff. lia.
      * exfalso. assert (c ∈ consumers g t.1) as Hc by (rewrite Ec; apply elem_of_cons; by left).
        apply elem_of_consumers in Hc as [m Hm]. by eapply Hno.
Qed.

Lemma final_NoDup g : NoDup (map fst (final_tasks g)).
Proof.
  unfold final_tasks. match goal with |- NoDup (map fst (flat_map ?f (seq 0 (length g)))) =>
    enough (H : forall n k, NoDup (map fst (flat_map f (seq k n)))) by apply H end.
  induction n as [|n IH]; intros k; cbn [seq flat_map map]; [constructor|].
  rewrite map_app. apply NoDup_app. split_and!.
  - destruct (g !! k) as [st|]; [|constructor]. destruct (consumers g k); [|constructor].
    rewrite map_map. cbn [fst]. apply NoDup_map_inj; [|apply NoDup_seq]. intros. congruence.
  - intros t Ht Ht'.
    assert (t.1 = k) as Hk.
    { destruct (g !! k) as [st|]; [|by apply elem_of_nil in Ht]. destruct (consumers g k); [|by apply elem_of_nil in Ht].
      rewrite map_map in Ht. apply elem_of_map_iff in Ht as (p & -> & _). done. }
    apply elem_of_map_iff in Ht' as (tc & -> & Htc). apply elem_of_flat_map in Htc as (s & Hs & Htc).
    apply elem_of_seq_iff in Hs. destruct (g !! s) as [st|]; [|by apply elem_of_nil in Htc].
    destruct (consumers g s); [|by apply elem_of_nil in Htc]. apply elem_of_map_iff in Htc as (p & -> & _). cbn in Hk. lia.
  - apply IH.
Qed.

Lemma final_dec_iff g t : t ∈ map fst (final_tasks g) <-> exists n, is_final g t n.
Proof.
  rewrite elem_of_map_iff. split.
  - intros ([t' n] & -> & H). exists n. by apply elem_of_final.
  - intros [n H]. exists (t, n). split; [done|]. by apply elem_of_final.
Qed.
Global Instance final_dec g t : Decision (exists n, is_final g t n).
Proof. destruct (decide (t ∈ map fst (final_tasks g))) as [H|H]; [left|right]; by rewrite <- final_dec_iff. Qed.

(** * The hand-overs of a refresh *)

Lemma handed_app l l' : handed (l ++ l') = handed l ++ handed l'.
Proof. apply omap_app. Qed.
Lemma elem_of_handed acts k : k ∈ handed acts <-> ExtendJobOutput k ∈ acts.
Proof.
  unfold handed. rewrite elem_of_list_omap. split.
  - intros (a & Ha & H). destruct a; simplify_eq. done.
  - intros H. by exists (ExtendJobOutput k).
Qed.
Lemma handed_map ks : handed (map ExtendJobOutput ks) = ks.
Proof. induction ks as [|k ks IH]; [done|]. cbn. by f_equal. Qed.
Lemma handed_none acts : (forall k, ExtendJobOutput k ∉ acts) -> handed acts = [].
Proof.
  intros H. destruct (handed acts) as [|k l] eqn:E; [done|]. exfalso. apply (H k).
  apply elem_of_handed. rewrite E. apply elem_of_cons. by left.
Qed.
Lemma no_handover_cancel j ts k : ExtendJobOutput k ∉ cancel_actions j ts.
Proof.
  intros Hc. apply elem_of_flat_map in Hc as (t' & Ht' & Hc). apply elem_of_flat_map in Hc as ([i a] & Hi & Hc).
  cbn [fst snd] in Hc. destruct (is_terminal (at_state a)); [by apply elem_of_nil in Hc|].
  by apply elem_of_list_singleton in Hc.
Qed.
Lemma no_handover_cleanup l acc k : ExtendJobOutput k ∈ (foldl clean_up_stage acc l).2 -> ExtendJobOutput k ∈ acc.2.
Proof.
  revert acc. induction l as [|s l IH]; intros [j acts]; cbn [foldl]; [done|]. intros H. apply IH in H.
  destruct (clean_up_stage_eq j acts s) as [(_ & _ & E)|(_ & E)]; rewrite E in H; [|done].
  cbn [snd] in H. apply elem_of_app in H as [H|H]; [done|]. by apply elem_of_list_singleton in H.
Qed.

Lemma handed_refresh max g j :
  wf_job g j -> jb_state j = JRunning ->
  handed (refresh_job max j).2 = flat_map (due_keys (cascade_cancel j).1) (final_tasks g).
Proof.
  intros Hwf Hst. destruct (cascade_spec g j Hwf) as (Hf & _ & _ & Hacts).
  pose proof (wf_frame _ _ _ Hf Hwf) as Hwf1.
  assert (Hp : handed (prepare_actions j) = flat_map (due_keys (cascade_cancel j).1) (final_tasks g)).
  { unfold prepare_actions. rewrite !handed_app.
    rewrite (handed_none (cascade_cancel j).2), (handed_none (clean_up_by_stage _).2).
    - rewrite app_nil_l, app_nil_r. unfold extend_job_output. rewrite (sf_state _ _ Hf), Hst.
      rewrite (wf_graph _ _ Hwf1).
      destruct (extend_fold (final_tasks g) (cascade_cancel j).1 [] (final_NoDup g)) as [_ ->].
      by rewrite app_nil_l, handed_map.
    - intros k Hk. unfold clean_up_by_stage in Hk. apply no_handover_cleanup in Hk. by apply elem_of_nil in Hk.
    - intros k Hk. apply Hacts in Hk as (r & rt & _ & _ & Hk). by apply no_handover_cancel in Hk. }
  destruct (refresh_cases max g j Hwf Hst) as [(_ & _ & _ & Hac)|[(_ & _ & _ & Hac)|(Hrun & _ & _ & Hres)]].
  - rewrite Hac, handed_app, Hp. apply app_nil_r.
  - by rewrite Hac.
  - rewrite Hres. cbn [snd]. rewrite handed_app, Hp.
    rewrite (handed_none (schedule_task_regions _).2); [by rewrite app_nil_r|].
    pose proof (in_place_wf _ _ _ (prepare_in_place g j Hwf) Hwf) as Hwf3.
    assert (Hwf4 : wf_job g (update_task_regions max (refresh_prepare j))) by by destruct Hwf3.
    destruct (schedule_spec g _ Hwf4) as (_ & _ & _ & Hs). intros s Hin. apply Hs in Hin as (? & ? & ? & ? & ?). done.
Qed.

(** * The fetched marks *)

Definition marks (j : job) (t : nat * nat) : list bool := map at_fetched (attempts j t).

Lemma map_alter_same {A C} (h : A -> C) (f : A -> A) i (l : list A) :
  (forall a, h (f a) = h a) -> map h (alter f i l) = map h l.
Proof. intros H. revert i. induction l as [|a l IH]; intros [|i]; cbn; [done|done|by rewrite H|]. f_equal. apply IH. Qed.
Lemma fetched_cancel a : at_fetched (cancel_attempt a) = at_fetched a.
Proof. unfold cancel_attempt. by destruct (is_terminal _). Qed.

Lemma marks_update j k st c t : marks (update_task j k st c) t = marks j t.
Proof.
  unfold marks, update_task. rewrite attempts_alter_task_nil by done. case_decide as H; [|done]. subst t.
  by apply map_alter_same.
Qed.
Lemma marks_clean_up j t : marks (clean_up_job j).1 t = marks j t.
Proof.
  unfold marks, attempts. cbn [fst clean_up_job jb_stages].
  change (map (fun sd => StageDesc (sd_tasks sd) false)) with (fmap (M:=list) (fun sd => StageDesc (sd_tasks sd) false)).
  rewrite list_lookup_fmap. by destruct (jb_stages j !! t.1).
Qed.
Lemma marks_stop j t : marks (stop_job j) t = marks j t.
Proof.
  unfold marks, attempts, stop_job. cbn [jb_stages].
  change (map (fun sd => StageDesc (map (map cancel_attempt) (sd_tasks sd)) false))
    with (fmap (M:=list) (fun sd => StageDesc (map (map cancel_attempt) (sd_tasks sd)) false)).
  rewrite list_lookup_fmap. destruct (jb_stages j !! t.1) as [sd|]; [|done]. cbn.
  change (map (map cancel_attempt)) with (fmap (M:=list) (map cancel_attempt)).
  rewrite list_lookup_fmap. destruct (sd_tasks sd !! t.2) as [l|]; [|done]. cbn.
  rewrite map_map. apply map_ext. intros. apply fetched_cancel.
Qed.
Lemma marks_cascade g j t : wf_job g j -> marks (cascade_cancel j).1 t = marks j t.
Proof.
  intros Hwf. destruct (cascade_spec g j Hwf) as (Hf & _ & H & _). unfold marks.
  destruct (decide (is_task g t)) as [Ht|Hn].
  - destruct (wf_task_region g j t Hwf Ht) as (r & rt & Hr & Hin). rewrite (H r rt t Hr Hin).
    destruct (region_has_failure j r rt); [|done]. rewrite map_map. apply map_ext. intros. apply fetched_cancel.
  - rewrite !(attempts_not_task g); [done|done|done|by eapply wf_frame|done].
Qed.

Lemma marks_refresh max g j t :
  wf_job g j -> jb_state j = JRunning ->
  exists new, marks (refresh_job max j).1 t =
    (if decide (due (cascade_cancel j).1 t = true /\ exists n, is_final g t n)
     then take (length (attempts j t) - 1) (marks j t) ++ [true] else marks j t) ++ new /\
    (new = [] \/ new = [false]).
Proof.
  intros Hwf Hst. destruct (cascade_spec g j Hwf) as (Hf & _ & _ & _).
  pose proof (wf_frame _ _ _ Hf Hwf) as Hwf1.
  assert (Hprep : marks (refresh_prepare j) t =
    if decide (due (cascade_cancel j).1 t = true /\ exists n, is_final g t n)
    then take (length (attempts j t) - 1) (marks j t) ++ [true] else marks j t).
  { assert (Hcl : forall j' l acts, marks (foldl clean_up_stage (j', acts) l).1 t = marks j' t).
    { intros j' l. revert j'. induction l as [|s l IH]; intros j' acts; cbn [foldl]; [done|].
      destruct (clean_up_stage_eq j' acts s) as [(_ & _ & E)|(_ & E)]; rewrite E, IH; [|done].
      unfold marks. by rewrite attempts_deactivate. }
    unfold refresh_prepare, clean_up_by_stage. rewrite Hcl.
    unfold extend_job_output. rewrite (sf_state _ _ Hf), Hst, (wf_graph _ _ Hwf1). unfold marks at 1.
    destruct (extend_fold (final_tasks g) (cascade_cancel j).1 [] (final_NoDup g)) as [-> _].
    pose proof (final_dec_iff g t) as Hiff.
    destruct (decide (due (cascade_cancel j).1 t = true /\ exists n, is_final g t n)) as [[Hd Hfin]|Hno].
    - rewrite decide_True by tauto. rewrite <- (marks_cascade g j t Hwf).
      assert (length (attempts j t) = length (attempts (cascade_cancel j).1 t)) as ->.
      { symmetry. apply in_place_length. by eapply cascade_in_place. }
      unfold marks. unfold due in Hd. generalize dependent (attempts (cascade_cancel j).1 t). intros l Hd.
      destruct l as [|x l _] using rev_ind; [done|]. unfold set_last_fetched.
      rewrite app_length. cbn [length]. replace (length l + 1 - 1) with (length l + 0) by lia.
      rewrite alter_app_r. cbn. rewrite !map_app. cbn [map]. f_equal.
      rewrite Nat.add_0_r. replace (length l) with (length (map at_fetched l)) by apply map_length. by rewrite take_app.
    - rewrite decide_False by tauto. apply (marks_cascade g j t Hwf). }
  destruct (refresh_cases max g j Hwf Hst) as [(_ & _ & Hatt & _)|[(_ & _ & Hatt & _)|(Hrun & _ & _ & Hres)]].
  - exists []. rewrite app_nil_r. unfold marks at 1. rewrite Hatt. auto.
  - exists []. rewrite app_nil_r. unfold marks at 1. rewrite Hatt. auto.
  - rewrite Hres. cbn [fst].
    pose proof (in_place_wf _ _ _ (prepare_in_place g j Hwf) Hwf) as Hwf3.
    assert (Hwf4 : wf_job g (update_task_regions max (refresh_prepare j))) by by destruct Hwf3.
    destruct (schedule_spec g _ Hwf4) as (Hf4 & _ & H & _).
    destruct (decide (is_task g t)) as [Ht|Hn].
    + destruct (wf_task_region g _ t Hwf4 Ht) as (r & rt & Hr & Hin). unfold marks at 1. rewrite (H r rt t Hr Hin).
      rewrite attempts_update_regions. destruct (region_ready _ r rt).
      * exists [false]. split; [|auto]. unfold push_created. rewrite map_app. cbn [map at_fetched].
        f_equal. exact Hprep.
      * exists []. rewrite app_nil_r. split; [exact Hprep|auto].
    + exists []. rewrite app_nil_r. split; [|auto]. rewrite <- Hprep. unfold marks.
      rewrite !(attempts_not_task g); [done|done|done|by eapply wf_frame|done].
Qed.

(** * Along a run *)

Record handed_inv (g : graph) (j : job) (acts : list action) : Prop := {
  hi_nodup : NoDup (handed acts);
  hi_mark : forall s p i c, StreamKey (TaskKey s p i) c ∈ handed acts ->
    (exists n, is_final g (s, p) n /\ c < n) /\ marks j (s, p) !! i = Some true;
  hi_all : forall s p i n c, marks j (s, p) !! i = Some true -> is_final g (s, p) n -> c < n ->
    StreamKey (TaskKey s p i) c ∈ handed acts;
}.

Lemma handed_inv_same g j j' acts new :
  (forall t, marks j' t = marks j t) -> handed new = [] -> handed_inv g j acts -> handed_inv g j' (acts ++ new).
Proof.
  intros Hm Hn [H1 H2 H3]. split; rewrite handed_app, Hn, app_nil_r; [done| |].
  - intros s p i c H. rewrite Hm. by apply H2.
  - intros s p i n c. rewrite Hm. apply H3.
Qed.

Lemma is_final_fun g t n n' : is_final g t n -> is_final g t n' -> n = n'.
Proof. intros (st & H1 & <- & _) (st' & H2 & <- & _). congruence. Qed.

Lemma elem_of_due_keys j tc s p i c :
  StreamKey (TaskKey s p i) c ∈ due_keys j tc <->
  due j tc.1 = true /\ tc.1 = (s, p) /\ i = length (attempts j (s, p)) - 1 /\ c < tc.2.
Proof.
  unfold due_keys. destruct (due j tc.1).
  - rewrite elem_of_map_iff. split.
    + intros (c' & [= -> -> -> ->] & H). apply elem_of_seq_iff in H. split_and!; [done|by destruct tc as [[] ?]|by destruct tc as [[] ?]|lia].
    + intros (_ & Ht & -> & Hc). exists c. rewrite Ht. split; [done|]. apply elem_of_seq_iff. lia.
  - split; [intros H; by apply elem_of_nil in H|by intros [? _]].
Qed.

Lemma due_keys_NoDup j l : NoDup (map fst l) -> NoDup (flat_map (due_keys j) l).
Proof.
  induction l as [|tc l IH]; cbn [map flat_map]; intros H; [constructor|].
  apply NoDup_cons in H as [Hni Hnd]. apply NoDup_app. split_and!; [| |by apply IH].
  - unfold due_keys. destruct (due _ _); [|constructor]. apply NoDup_map_inj; [|apply NoDup_seq]. intros. congruence.
  - intros [[s p i] c] H1 H2. apply elem_of_due_keys in H1 as (_ & H1 & _).
    apply elem_of_flat_map in H2 as (tc' & Htc' & H2). apply elem_of_due_keys in H2 as (_ & H2 & _).
    apply Hni. apply elem_of_map_iff. exists tc'. split; [congruence|done].
Qed.

Lemma due_mark g j t :
  wf_job g j -> due (cascade_cancel j).1 t = true ->
  marks j t !! (length (attempts j t) - 1) = Some false /\ 0 < length (attempts j t).
Proof.
  intros Hwf Hd. rewrite <- (marks_cascade g j t Hwf).
  assert (length (attempts j t) = length (attempts (cascade_cancel j).1 t)) as ->.
  { symmetry. apply in_place_length. by eapply cascade_in_place. }
  unfold due in Hd. unfold marks. generalize dependent (attempts (cascade_cancel j).1 t). intros l Hd.
  destruct l as [|x l _] using rev_ind; [done|]. rewrite last_snoc in Hd.
  apply andb_true_iff in Hd as [_ Hd]. apply negb_true_iff in Hd.
  rewrite app_length. cbn [length]. split; [|lia]. rewrite map_app. cbn [map].
  rewrite lookup_app_r by (rewrite map_length; lia). rewrite map_length. replace (length l + 1 - 1 - length l) with 0 by lia.
  cbn. by rewrite Hd.
Qed.

Lemma handed_inv_refresh max g j acts :
  job_inv max g j -> handed_inv g j acts ->
  handed_inv g (refresh_job max j).1 (acts ++ (refresh_job max j).2).
Proof.
  intros Hinv Hh. pose proof (ji_wf _ _ _ Hinv) as Hwf.
  destruct (decide (jb_state j = JRunning)) as [Hst|Hst].
  2:{ assert (refresh_job max j = (j, [])) as -> by (unfold refresh_job; by destruct (jb_state j)).
      by apply handed_inv_same with j. }
  destruct Hh as [H1 H2 H3].
  assert (Hnew : forall s p i c, StreamKey (TaskKey s p i) c ∈ handed (refresh_job max j).2 <->
    due (cascade_cancel j).1 (s, p) = true /\ i = length (attempts j (s, p)) - 1 /\
    exists n, is_final g (s, p) n /\ c < n).
  { intros s p i c. rewrite (handed_refresh max g j Hwf Hst), elem_of_flat_map.
    assert (length (attempts j (s, p)) = length (attempts (cascade_cancel j).1 (s, p))) as Hlen.
    { symmetry. apply in_place_length. by eapply cascade_in_place. }
    split.
    - intros ([t n] & Htc & H). apply elem_of_due_keys in H as (Hd & Ht & -> & Hc). cbn [fst snd] in *. subst t.
      split_and!; [done|congruence|]. exists n. split; [by apply elem_of_final|done].
    - intros (Hd & -> & n & Hfin & Hc). exists ((s, p), n). split; [by apply elem_of_final|].
      apply elem_of_due_keys. cbn [fst snd]. split_and!; [done|done|congruence|done]. }
  split; rewrite handed_app.
  - apply NoDup_app. split_and!; [done| |].
    + intros [[s p i] c] Hold Hn. apply Hnew in Hn as (Hd & -> & _). apply H2 in Hold as (_ & Hm).
      destruct (due_mark g j (s, p) Hwf Hd) as [Hm' _]. congruence.
    + rewrite (handed_refresh max g j Hwf Hst). apply due_keys_NoDup, final_NoDup.
  - intros s p i c H. destruct (marks_refresh max g j (s, p) Hwf Hst) as (new & Hm & Hnew').
    rewrite Hm. apply elem_of_app in H as [H|H].
    + destruct (H2 _ _ _ _ H) as [Hf Hi]. split; [done|].
      case_decide as Hd; [|by apply lookup_app_l_Some].
      destruct Hd as [Hd _]. destruct (due_mark g j (s, p) Hwf Hd) as [Hm' Hlen].
      apply lookup_app_l_Some.
      assert (i < length (attempts j (s, p)) - 1).
      { pose proof (lookup_lt_Some _ _ _ Hi) as Hl. unfold marks in Hl. rewrite map_length in Hl.
        destruct (decide (i = length (attempts j (s, p)) - 1)); [congruence|lia]. }
      rewrite lookup_app_l.
      * rewrite lookup_take by done. done.
      * rewrite take_length. unfold marks. rewrite map_length. lia.
    + apply Hnew in H as (Hd & -> & n & Hfin & Hc). split; [eauto|].
      rewrite decide_True by eauto. destruct (due_mark g j (s, p) Hwf Hd) as [_ Hlen].
      apply lookup_app_l_Some. rewrite lookup_app_r; [|rewrite take_length; lia].
      rewrite take_length. unfold marks. rewrite map_length.
      replace (_ - 1 - _ `min` _) with 0 by lia. done.
  - intros s p i n c Hi Hfin Hc. destruct (marks_refresh max g j (s, p) Hwf Hst) as (new & Hm & Hnew').
    rewrite Hm in Hi. apply elem_of_app. apply lookup_app_Some in Hi as [Hi|[_ Hi]].
    2:{ exfalso. destruct Hnew' as [->| ->]; [done|]. destruct (i - _); [|done]. cbn in Hi. congruence. }
    case_decide as Hd; [|left; by eapply H3].
    destruct Hd as [Hd _]. destruct (due_mark g j (s, p) Hwf Hd) as [_ Hlen].
    apply lookup_app_Some in Hi as [Hi|[Hge Hi]].
    + left. apply lookup_take_Some in Hi as [Hi _]. by eapply H3.
    + right. apply Hnew. split_and!; [done| |eauto].
      rewrite take_length in Hge, Hi. unfold marks in Hge, Hi. rewrite map_length in Hge, Hi.
      destruct (i - _) eqn:E; [|done]. lia.
Qed.

Lemma handed_inv_step max g j op acts :
  job_inv max g j -> handed_inv g j acts ->
  handed_inv g (job_step max j op).1 (acts ++ (job_step max j op).2).
Proof.
  intros Hinv Hh. destruct op; cbn [job_step fst snd].
  - apply handed_inv_same with j; [|done|done]. intros t. apply marks_update.
  - by apply handed_inv_refresh.
  - apply handed_inv_same with j; [|..|done]; [intros t; apply marks_clean_up|].
    apply handed_none. intros k H. apply elem_of_app in H as [H|H]; [by apply no_handover_cancel in H|].
    by apply elem_of_list_singleton in H.
  - apply handed_inv_same with j; [|done|done]. intros t. apply marks_stop.
Qed.

Lemma handed_inv_run max g ops j acts :
  job_inv max g j -> handed_inv g j acts -> handed_inv g (run_job max j ops) (acts ++ run_actions max j ops).
Proof.
  unfold run_job. revert j acts. induction ops as [|op ops IH]; intros j acts Hinv Hh; cbn [run_actions foldl].
  - by rewrite app_nil_r.
  - rewrite app_assoc. apply IH; [by apply inv_step|by apply handed_inv_step].
Qed.

Lemma handed_inv_reach max g j0 ops :
  new_job g = Some j0 -> handed_inv g (run_job max j0 ops) (run_actions max j0 ops).
Proof.
  intros Hj. apply (handed_inv_run max g ops j0 []); [by apply inv_new|].
  split; cbn; [constructor|intros; set_solver|].
  intros s p i n c H. unfold marks in H. by rewrite (attempts_new_job g j0) in H.
Qed.

(** * Statements *)

Lemma handed_final max g j0 ops s p a c :
  new_job g = Some j0 -> ExtendJobOutput (StreamKey (TaskKey s p a) c) ∈ run_actions max j0 ops ->
  exists n, is_final g (s, p) n /\ c < n.
Proof.
  intros Hj H. apply elem_of_handed in H. by apply (hi_mark _ _ _ (handed_inv_reach max g j0 ops Hj)) in H as [H _].
Qed.

Lemma handed_once max g j0 ops : new_job g = Some j0 -> NoDup (handed (run_actions max j0 ops)).
Proof. intros Hj. exact (hi_nodup _ _ _ (handed_inv_reach max g j0 ops Hj)). Qed.

Lemma run_actions_app max j ops ops' :
  run_actions max j (ops ++ ops') = run_actions max j ops ++ run_actions max (run_job max j ops) ops'.
Proof.
  revert j. induction ops as [|op ops IH]; intros j; cbn [app run_actions]; [done|].
  by rewrite IH, app_assoc.
Qed.
Lemma run_job_app max j ops ops' : run_job max j (ops ++ ops') = run_job max (run_job max j ops) ops'.
Proof. unfold run_job. by rewrite foldl_app. Qed.

Lemma attempt_after_prepare max g j t i a :
  wf_job g j -> jb_state j = JRunning -> i < length (attempts j t) ->
  attempts (refresh_job max j).1 t !! i = Some a ->
  exists a', attempts (cascade_cancel j).1 t !! i = Some a' /\ at_state a' = at_state a.
Proof.
  intros Hwf Hst Hi Ha.
  pose proof (prepare_in_place g j Hwf) as Hip.
  assert (Hp : attempts (refresh_prepare j) t !! i = Some a).
  { destruct (refresh_cases max g j Hwf Hst) as [(_ & _ & Hatt & _)|[(_ & _ & Hatt & _)|(Hrun & _ & _ & Hres)]].
    - by rewrite <- Hatt.
    - by rewrite <- Hatt.
    - rewrite Hres in Ha. cbn [fst] in Ha.
      pose proof (in_place_wf _ _ _ Hip Hwf) as Hwf3.
      assert (Hwf4 : wf_job g (update_task_regions max (refresh_prepare j))) by by destruct Hwf3.
      destruct (schedule_spec g _ Hwf4) as (Hf4 & _ & H & _).
      destruct (decide (is_task g t)) as [Ht|Hn].
      + destruct (wf_task_region g _ t Hwf4 Ht) as (r & rt & Hr & Hin). rewrite (H r rt t Hr Hin) in Ha.
        rewrite attempts_update_regions in Ha. destruct (region_ready _ r rt); [|done].
        unfold push_created in Ha. rewrite lookup_app_l in Ha; [done|].
        by rewrite (in_place_length _ _ _ Hip).
      + rewrite (attempts_not_task g) in Ha; [done|by eapply wf_frame|done]. }
  assert (same_states (cascade_cancel j).1 (refresh_prepare j)) as Hs.
  { intros t'. unfold refresh_prepare. by rewrite (clean_up_states _ t'), (extend_states _ t'). }
  specialize (Hs t). change (map at_state) with (fmap (M:=list) at_state) in Hs.
  apply (f_equal (fun l => l !! i)) in Hs. rewrite !list_lookup_fmap, Hp in Hs. cbn in Hs.
  symmetry in Hs. apply fmap_Some in Hs as (a' & Ha' & Hs). eauto.
Qed.

Lemma cascade_length g j t : wf_job g j -> length (attempts (cascade_cancel j).1 t) = length (attempts j t).
Proof. intros H. apply in_place_length. by eapply cascade_in_place. Qed.

(** A hand-over in one refresh. *)
Lemma handed_newest max g j s p a c :
  reachable max g j -> ExtendJobOutput (StreamKey (TaskKey s p a) c) ∈ (refresh_job max j).2 ->
  S a = length (attempts j (s, p)) /\
  exists x, attempts (refresh_job max j).1 (s, p) !! a = Some x /\ (at_state x = TRunning \/ at_state x = TSucceeded).
Proof.
  intros Hr H. pose proof (ji_wf _ _ _ (reachable_inv _ _ _ Hr)) as Hwf.
  destruct (decide (jb_state j = JRunning)) as [Hst|Hst].
  2:{ assert (refresh_job max j = (j, [])) as E by (unfold refresh_job; by destruct (jb_state j)).
      rewrite E in H. by apply elem_of_nil in H. }
  apply elem_of_handed in H. rewrite (handed_refresh max g j Hwf Hst) in H.
  apply elem_of_flat_map in H as ([t n] & _ & H). apply elem_of_due_keys in H as (Hd & Ht & Ha & _).
  cbn [fst] in *. subst t. rewrite (cascade_length g) in Ha by done.
  destruct (due_mark g j (s, p) Hwf Hd) as [_ Hlen]. split; [lia|].
  assert (Hlt : a < length (attempts (refresh_job max j).1 (s, p))).
  { destruct (marks_refresh max g j (s, p) Hwf Hst) as (new & Hm & _). apply (f_equal length) in Hm.
    unfold marks in Hm. rewrite app_length, map_length in Hm. case_decide.
    - rewrite app_length, take_length, map_length in Hm. cbn [length] in Hm. lia.
    - rewrite map_length in Hm. lia. }
  apply lookup_lt_is_Some in Hlt as [x Hx]. exists x. split; [done|].
  destruct (attempt_after_prepare max g j (s, p) a x Hwf Hst ltac:(lia) Hx) as (a' & Ha' & <-).
  unfold due in Hd. rewrite last_lookup, (cascade_length g) in Hd by done.
  replace (pred (length (attempts j (s, p)))) with a in Hd by lia. rewrite Ha' in Hd.
  apply andb_true_iff in Hd as [Hd _]. apply orb_true_iff in Hd as [Hd|Hd]; apply bool_decide_eq_true in Hd; auto.
Qed.

(** Nothing is forgotten. *)
Lemma handed_all max g j0 ops s p st a x c :
  new_job g = Some j0 -> jb_state (run_job max j0 ops) = JRunning ->
  g !! s = Some st -> (forall c m, ~ feeds g s m c) -> c < st_channels st ->
  S a = length (attempts (run_job max j0 ops) (s, p)) ->
  attempts (run_job max j0 (ops ++ [OpRefresh])) (s, p) !! a = Some x ->
  at_state x = TRunning \/ at_state x = TSucceeded ->
  ExtendJobOutput (StreamKey (TaskKey s p a) c) ∈ run_actions max j0 (ops ++ [OpRefresh]).
Proof.
  intros Hj Hst Hs Hno Hc Ha Hx Hstate.
  assert (Hinv : job_inv max g (run_job max j0 ops)) by (apply inv_run; by apply inv_new).
  pose proof (ji_wf _ _ _ Hinv) as Hwf.
  rewrite run_job_app in Hx. cbn in Hx. set (j := run_job max j0 ops) in *.
  assert (Hfin : is_final g (s, p) (st_channels st)).
  { exists st. cbn [fst snd]. split_and!; [done|done| |done].
    assert (is_task g (s, p)) as (st' & H1 & H2).
    { destruct (decide (is_task g (s, p))) as [|Hn]; [done|]. rewrite (attempts_not_task g j (s, p) Hwf Hn) in Ha. done. }
    cbn in H1, H2. congruence. }
  apply elem_of_handed.
  apply (hi_all _ _ _ (handed_inv_reach max g j0 (ops ++ [OpRefresh]) Hj) s p a (st_channels st) c); [|done|done].
  rewrite run_job_app. cbn. fold j.
  destruct (attempt_after_prepare max g j (s, p) a x Hwf Hst ltac:(lia) Hx) as (a' & Ha' & Hs').
  destruct (marks_refresh max g j (s, p) Hwf Hst) as (new & Hm & _). rewrite Hm.
  apply lookup_app_l_Some. case_decide as Hd.
  - rewrite lookup_app_r; rewrite take_length; unfold marks; rewrite map_length; [|lia].
    replace (a - _) with 0 by lia. done.
  - assert (at_fetched a' = true) as Hf.
    { destruct (at_fetched a') eqn:E; [done|]. exfalso. apply Hd. split; [|eauto].
      unfold due. rewrite last_lookup, (cascade_length g) by done. fold j.
      replace (pred (length (attempts j (s, p)))) with a by lia. rewrite Ha', E. cbn [negb].
      rewrite andb_true_r, Hs'. apply orb_true_iff. rewrite !bool_decide_eq_true. tauto. }
    rewrite <- (marks_cascade g j (s, p) Hwf). unfold marks.
    change (map at_fetched) with (fmap (M:=list) at_fetched). rewrite list_lookup_fmap, Ha'. cbn. by rewrite Hf.
Qed.

(** * The reported cause *)

Lemma more_failures_fold l best :
  let res := foldl more_failures best l in
  (res = best \/ exists l1 l2, l = l1 ++ res :: l2 /\ length best < length res /\ forall x, x ∈ l1 -> length x < length res) /\
  length best <= length res /\ forall x, x ∈ l -> length x <= length res.
Proof.
  revert best. induction l as [|x l IH]; intros best res; unfold res; clear res; cbn [foldl].
  - split_and!; [by left|done|]. intros x H. by apply elem_of_nil in H.
  - destruct (IH (more_failures best x)) as (H1 & H2 & H3).
    revert H1 H2 H3. generalize (foldl more_failures (more_failures best x) l). intros res H1 H2 H3.
    unfold more_failures in H1, H2. destruct (decide (length best < length x)) as [Hlt|Hge].
    + split_and!; [|lia|].
      * right. destruct H1 as [H1|(l1 & l2 & E & Hl & Hall)].
        -- exists [], l. rewrite H1. split_and!; [done|done|]. intros y H. by apply elem_of_nil in H.
        -- exists (x :: l1), l2. split_and!; [by rewrite E|lia|]. intros y [->|Hy]%elem_of_cons; auto.
      * intros y [->|Hy]%elem_of_cons; [lia|auto].
    + split_and!; [|lia|].
      * destruct H1 as [H1|(l1 & l2 & E & Hl & Hall)]; [by left|]. right.
        exists (x :: l1), l2. split_and!; [by rewrite E|lia|]. intros y [->|Hy]%elem_of_cons; [lia|auto].
      * intros y [->|Hy]%elem_of_cons; [lia|auto].
Qed.

Lemma elem_of_all_tasks g j t : wf_job g j -> t ∈ all_tasks j <-> is_task g t.
Proof.
  intros Hwf. unfold all_tasks. rewrite elem_of_flat_map. split.
  - intros ([s sd] & Hs & H). apply elem_of_imap_pair in Hs. apply elem_of_map_iff in H as (p & -> & Hp).
    apply elem_of_seq_iff in Hp.
    assert (valid j (s, p)) as Hv by (apply valid_shape; exists (length (sd_tasks sd)); cbn; rewrite shape_lookup, Hs; split; [done|lia]).
    apply valid_shape in Hv as (n & Hn & Hlt). rewrite (wf_shape _ _ Hwf), partitions_lookup in Hn. cbn in Hn, Hlt.
    apply fmap_Some in Hn as (st & Hst & ->). exists st. done.
  - intros (st & Hst & Hlt). pose proof (f_equal (fun l => l !! t.1) (wf_shape _ _ Hwf)) as H. cbn in H.
    rewrite shape_lookup, partitions_lookup, Hst in H. cbn in H. apply fmap_Some in H as (sd & Hsd & Hn).
    exists (t.1, sd). split; [by apply elem_of_imap_pair|]. apply elem_of_map_iff. exists t.2.
    split; [by destruct t|]. apply elem_of_seq_iff. unfold stage_shape in Hn. lia.
Qed.

Lemma infer_cause_spec g j c :
  wf_job g j -> infer_cause j = Some c ->
  exists t, is_task g t /\ last (failures j t) = Some c /\
    forall t', is_task g t' -> length (failures j t') <= length (failures j t).
Proof.
  intros Hwf H. unfold infer_cause in H.
  destruct (more_failures_fold (map (fun t => failure_causes (attempts j t)) (all_tasks j)) []) as (H1 & _ & H3).
  set (res := foldl _ _ _) in *.
  destruct H1 as [->|(l1 & l2 & El & _ & _)]; [done|].
  assert (res ∈ map (fun t => failure_causes (attempts j t)) (all_tasks j)) as Hin.
  { rewrite El. apply elem_of_app. right. apply elem_of_cons. by left. }
  apply elem_of_map_iff in Hin as (t & Et & Ht). exists t. apply (elem_of_all_tasks g) in Ht; [|done].
  unfold failures. fold (failure_causes (attempts j t)). rewrite <- Et. split_and!; [done|done|].
  intros t' Ht'. apply H3. apply elem_of_map_iff. exists t'. split; [done|]. by apply (elem_of_all_tasks g).
Qed.
Lemma infer_cause_none g j :
  wf_job g j -> infer_cause j = None -> forall t, is_task g t -> failures j t = [].
Proof.
  intros Hwf H t Ht. unfold infer_cause in H.
  destruct (more_failures_fold (map (fun t => failure_causes (attempts j t)) (all_tasks j)) []) as (_ & _ & H3).
  set (res := foldl _ _ _) in *. apply last_None in H. rewrite H in H3. cbn in H3.
  apply nil_length_inv. apply Nat.le_0_r. apply H3. apply elem_of_map_iff. exists t. split; [done|]. by apply (elem_of_all_tasks g).
Qed.

Lemma fail_output_cause max g j c :
  reachable max g j -> FailJobOutput c ∈ (refresh_job max j).2 ->
  let j' := (refresh_job max j).1 in
  jb_state j' = JFailed /\
  match c with
  | Some x => exists t, is_task g t /\ last (failures j' t) = Some x /\
      forall t', is_task g t' -> length (failures j' t') <= length (failures j' t)
  | None => forall t, is_task g t -> failures j' t = []
  end.
Proof.
  intros Hr H. pose proof (ji_wf _ _ _ (reachable_inv _ _ _ Hr)) as Hwf.
  destruct (decide (jb_state j = JRunning)) as [Hst|Hst].
  2:{ assert (refresh_job max j = (j, [])) as E by (unfold refresh_job; by destruct (jb_state j)).
      rewrite E in H. by apply elem_of_nil in H. }
  assert (Hprep : FailJobOutput c ∉ prepare_actions j).
  { unfold prepare_actions. intros Hp. apply elem_of_app in Hp as [Hp|Hp]; [|apply elem_of_app in Hp as [Hp|Hp]].
    - destruct (cascade_spec g j Hwf) as (_ & _ & _ & Hacts). apply Hacts in Hp as (r & rt & _ & _ & Hc).
      apply elem_of_flat_map in Hc as (t' & Ht' & Hc). apply elem_of_flat_map in Hc as ([i a] & Hi & Hc).
      cbn [fst snd] in Hc. destruct (is_terminal (at_state a)); [by apply elem_of_nil in Hc|].
      by apply elem_of_list_singleton in Hc.
    - unfold extend_job_output in Hp. destruct (jb_state (cascade_cancel j).1); try (by apply elem_of_nil in Hp).
      destruct (extend_fold (final_tasks (jb_graph (cascade_cancel j).1)) (cascade_cancel j).1 [] (final_NoDup _)) as [_ E].
      rewrite E, app_nil_l in Hp. apply elem_of_map_iff in Hp as (? & ? & _). done.
    - unfold clean_up_by_stage in Hp. revert Hp. generalize (extend_job_output (cascade_cancel j).1).1. intros j2.
      assert (Hcl : forall l acc, FailJobOutput c ∈ (foldl clean_up_stage acc l).2 -> FailJobOutput c ∈ acc.2).
      { induction l as [|s l IH]; intros [j' acts]; cbn [foldl]; [done|]. intros H'. apply IH in H'.
        destruct (clean_up_stage_eq j' acts s) as [(_ & _ & E)|(_ & E)]; rewrite E in H'; [|done].
        cbn [snd] in H'. apply elem_of_app in H' as [H'|H']; [done|]. by apply elem_of_list_singleton in H'. }
      intros Hp. apply Hcl in Hp. by apply elem_of_nil in Hp. }
  pose proof (in_place_wf _ _ _ (prepare_in_place g j Hwf) Hwf) as Hwf3.
  destruct (refresh_cases max g j Hwf Hst) as [(Hfl & _ & Hatt & Hac)|[(_ & _ & _ & Hac)|(Hrun & _ & _ & Hres)]].
  - rewrite Hac in H. apply elem_of_app in H as [H|H]; [done|]. apply elem_of_list_singleton in H as [= ->].
    cbn zeta. split; [done|].
    assert (Hfs : forall t, failures (refresh_job max j).1 t = failures (refresh_prepare j) t)
      by (intros t; unfold failures; by rewrite Hatt).
    destruct (infer_cause (refresh_prepare j)) as [x|] eqn:E.
    + destruct (infer_cause_spec g _ x Hwf3 E) as (t & Ht & Hl & Hmax). exists t. split_and!; [done|by rewrite Hfs|].
      intros t' Ht'. rewrite !Hfs. auto.
    + intros t Ht. rewrite Hfs. by apply (infer_cause_none g).
  - exfalso. by rewrite Hac in H.
  - exfalso. rewrite Hres in H. cbn [snd] in H. apply elem_of_app in H as [H|H]; [done|].
    assert (Hwf4 : wf_job g (update_task_regions max (refresh_prepare j))) by by destruct Hwf3.
    destruct (schedule_spec g _ Hwf4) as (_ & _ & _ & Hs). apply Hs in H as (? & ? & ? & ? & ?). done.
Qed.
