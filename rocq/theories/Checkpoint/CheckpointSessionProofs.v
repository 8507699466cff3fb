From Coq Require Import NArith ZifyN Ascii String Lia.
From stdpp Require Import prelude list gmap.
From Verif Require Import Lib.Text Checkpoint.CheckpointModel Checkpoint.CheckpointSpec
  Checkpoint.CheckpointProofs Checkpoint.CheckpointRunProofs.
Local Open Scope N_scope.

Section session.
Context {Row K : Type} (psize : list Row -> N) (uuid_ok : text -> bool).
Context (root : path) (session : text).
Local Notation rp := (relation_prefix root session).
Local Notation step := (step psize uuid_ok root session).
Local Notation run := (run psize uuid_ok root session).
Local Notation state := (state Row K).
Local Notation op := (op Row K).
Implicit Types (s : state) (o : op) (os : list op).

Lemma run_app s a b : run s (a ++ b) = run (run s a) b.
Proof. revert s. induction a as [|o a IH]; intros s; [done|]. cbn. apply IH. Qed.

(** ** Directories *)
Lemma rp_inj id id' (x y : path) : rp id ++ x = rp id' ++ y -> id = id' /\ x = y.
Proof.
  unfold relation_prefix. rewrite <- !(assoc_L app). intros H. apply app_inv_head in H.
  cbn [app] in H. apply (inj2 cons) in H as [_ H]. by apply (inj2 cons) in H.
Qed.
Lemma under_one id id' loc : under (rp id) loc = true -> under (rp id') loc = true -> id = id'.
Proof.
  intros [x ->]%under_iff [y H]%under_iff. by apply rp_inj in H as [-> _].
Qed.
Lemma under_session id loc : under (rp id) loc = true -> under (root ++ [session]) loc = true.
Proof.
  intros [x ->]%under_iff. apply under_iff. exists ([id] ++ x).
  unfold relation_prefix. by rewrite <- !(assoc_L app).
Qed.
Lemma listing_elem (store : gmap path (list Row)) pre loc :
  loc ∈ listing store pre <-> under pre loc = true /\ is_Some (store !! loc).
Proof.
  unfold listing. rewrite elem_of_list_filter. apply and_iff_compat_l.
  rewrite elem_of_list_In, in_map_iff. split.
  - intros ([l v] & <- & H%elem_of_list_In). apply elem_of_map_to_list in H. by exists v.
  - intros [v Hv]. exists (loc, v). split; [done|]. apply elem_of_list_In. by apply elem_of_map_to_list.
Qed.

(** A written file lies in the directory of its relation. *)
Lemma write_place id nc p u bs loc rows m :
  write_partition psize nc (rp id) p u bs = Some (Some (loc, rows), m) ->
  loc = rp id ++ [part_name p u].
Proof. intros H. by apply write_gives in H. Qed.

(** ** A published checkpoint stays *)
Lemma step_relation s o id d :
  st_relations s !! id = Some d -> st_closed s = false \/ o <> OClear ->
  st_relations (step s o).1 !! id = Some d.
Proof.
  intros Hd Hc. destruct o as [id' nc p u bs|id' nc t ms|id'|loc| | |]; cbn [CheckpointModel.step].
  - destruct (write_partition psize nc (rp id') p u bs) as [[[[loc rows]|] m]|]; done.
  - cbv zeta. destruct (collect uuid_ok nc (rp id') ms) as [parts|]; [|done].
    destruct (st_closed s); [done|].
    destruct (st_relations s !! id') as [d'|] eqn:E; [done|]. cbn [fst st_relations].
    rewrite lookup_insert_ne; [done|]. intros ->. congruence.
  - case_bool_decide; done.
  - case_bool_decide; done.
  - done.
  - by destruct (st_closed s).
  - destruct (st_closed s); [|done]. destruct Hc; done.
Qed.
Lemma step_closed s o : st_closed s = false -> o <> OClose -> st_closed (step s o).1 = false.
Proof.
  intros Hd Hc. destruct o as [id' nc p u bs|id' nc t ms|id'|loc| | |]; cbn [CheckpointModel.step].
  - destruct (write_partition psize nc (rp id') p u bs) as [[[[loc rows]|] m]|]; done.
  - cbv zeta. destruct (collect uuid_ok nc (rp id') ms) as [parts|]; [|done].
    destruct (st_closed s) eqn:E; [done|].
    destruct (st_relations s !! id') as [d'|]; done.
  - case_bool_decide; done.
  - case_bool_decide; done.
  - done.
  - by destruct (st_closed s) eqn:E.
  - by destruct (st_closed s) eqn:E.
Qed.
Lemma run_closed s os : st_closed s = false -> OClose ∉ os -> st_closed (run s os) = false.
Proof.
  revert s. induction os as [|o os IH]; intros s Hs Ho; [done|]. cbn [CheckpointModel.run].
  apply not_elem_of_cons in Ho as [H1 H2]. apply IH; [|done]. apply step_closed; done.
Qed.
Lemma run_relation s os id d :
  st_relations s !! id = Some d -> OClear ∉ os -> st_relations (run s os) !! id = Some d.
Proof.
  revert s. induction os as [|o os IH]; intros s Hs Ho; [done|]. cbn [CheckpointModel.run].
  apply not_elem_of_cons in Ho as [H1 H2]. apply IH; [|done]. apply step_relation; [done|].
  right. done.
Qed.
Lemma run_relation_open s os id d :
  st_relations s !! id = Some d -> st_closed s = false -> OClose ∉ os ->
  st_relations (run s os) !! id = Some d.
Proof.
  revert s. induction os as [|o os IH]; intros s Hs Hc Ho; [done|]. cbn [CheckpointModel.run].
  apply not_elem_of_cons in Ho as [H1 H2]. apply IH; [|by apply step_closed|done].
  apply step_relation; [done|]. by left.
Qed.
Lemma run_no_relation s os id :
  st_relations s !! id = None -> Forall (fun o => ~ commits id o) os ->
  st_relations (run s os) !! id = None.
Proof.
  revert s. induction os as [|o os IH]; intros s Hs Ho; [done|]. cbn [CheckpointModel.run].
  apply Forall_cons_1 in Ho as [H1 H2]. apply IH; [|done].
  destruct o as [id' nc p u bs|id' nc t ms|id'|loc| | |]; cbn [CheckpointModel.step].
  - destruct (write_partition psize nc (rp id') p u bs) as [[[[loc rows]|] m]|]; done.
  - cbv zeta. destruct (collect uuid_ok nc (rp id') ms) as [parts|]; [|done].
    destruct (st_closed s) eqn:E; [done|].
    destruct (st_relations s !! id') as [d'|]; [done|]. cbn [fst st_relations].
    rewrite lookup_insert_ne; [done|]. intros ->. by apply H1.
  - case_bool_decide; done.
  - case_bool_decide; done.
  - done.
  - by destruct (st_closed s) eqn:E.
  - destruct (st_closed s) eqn:E; [|done]. cbn [fst st_relations]. apply lookup_empty.
Qed.

(** ** The files of a relation whose commit has not failed *)
Definition safe (id : text) s : Prop :=
  st_closed s = false /\ id ∉ st_cleaning s /\ Forall (fun l => under (rp id) l = false) (st_doomed s).

Lemma safe_step id s o :
  safe id s -> o <> OClose -> (commits id o -> (step s o).2 = true) -> safe id (step s o).1.
Proof.
  intros (Hc & Hn & Hd) Ho Hcm.
  destruct o as [id' nc p u bs|id' nc t ms|id'|loc| | |].
  - cbn [CheckpointModel.step].
    destruct (write_partition psize nc (rp id') p u bs) as [[[[loc rows]|] m]|]; done.
  - revert Hcm. cbn [CheckpointModel.step commits]. cbv zeta.
    assert (Hf : (id' = id -> false = true) ->
      safe id (State (st_store s) (st_relations s) (st_closed s) (id' :: st_cleaning s) (st_doomed s))).
    { intros H. split; [done|]. split; [|done]. cbn [st_cleaning]. apply not_elem_of_cons.
      split; [|done]. intros ->. by specialize (H eq_refl). }
    destruct (collect uuid_ok nc (rp id') ms) as [parts|]; cbn [fst snd]; [|done].
    destruct (st_closed s) eqn:E; cbn [fst snd]; [done|].
    destruct (st_relations s !! id') as [d'|]; cbn [fst snd]; done.
  - cbn [CheckpointModel.step]. case_bool_decide as Hin; [|done]. cbn [fst].
    split; [done|]. split; [done|]. cbn [st_doomed]. apply Forall_app. split; [|done].
    apply list.Forall_forall. intros l [Hu _]%listing_elem.
    destruct (under (rp id) l) eqn:E; [|done]. pose proof (under_one _ _ _ E Hu) as ->. done.
  - cbn [CheckpointModel.step]. case_bool_decide as Hin; [|done]. cbn [fst].
    split; [done|]. split; [done|]. cbn [st_doomed]. apply list.Forall_forall.
    intros l Hl. apply elem_of_list_filter in Hl as [_ Hl]. rewrite list.Forall_forall in Hd. by apply Hd.
  - done.
  - cbn [CheckpointModel.step]. rewrite Hc. done.
  - cbn [CheckpointModel.step]. rewrite Hc. done.
Qed.

Lemma keep_step id p u s o rows :
  safe id s -> st_store s !! (rp id ++ [part_name p u]) = Some rows -> u ∉ uuids [o] ->
  st_store (step s o).1 !! (rp id ++ [part_name p u]) = Some rows.
Proof.
  intros (Hc & Hn & Hd) Hf Hu.
  destruct o as [id' nc p' u' bs|id' nc t ms|id'|loc| | |]; cbn [CheckpointModel.step].
  - destruct (write_partition psize nc (rp id') p' u' bs) as [[[[loc rows']|] m]|] eqn:E; [|done..].
    cbn [fst st_store]. apply write_place in E as ->.
    rewrite lookup_insert_ne; [done|]. intros H. apply rp_inj in H as [-> H].
    apply (inj2 cons) in H as [H _]. apply part_name_inj in H as [-> ->].
    apply Hu. cbn. left.
  - cbv zeta. destruct (collect uuid_ok nc (rp id') ms) as [parts|]; [|done].
    destruct (st_closed s); [done|]. by destruct (st_relations s !! id').
  - case_bool_decide; done.
  - case_bool_decide as Hin; [|done]. cbn [fst st_store]. rewrite lookup_delete_ne; [done|].
    intros ->. rewrite list.Forall_forall in Hd. specialize (Hd _ Hin). by rewrite under_app in Hd.
  - done.
  - by destruct (st_closed s).
  - by destruct (st_closed s).
Qed.

Lemma uuids_cons o os : uuids (o :: os) = uuids [o] ++ uuids os.
Proof. unfold uuids. cbn [flat_map]. by rewrite app_nil_r. Qed.
Lemma uuids_app (a b : list op) : uuids (a ++ b) = uuids a ++ uuids b.
Proof. unfold uuids. apply flat_map_app. Qed.

Lemma safe_run id s os :
  safe id s -> OClose ∉ os -> Forall (fun o => ~ commits id o) os -> safe id (run s os).
Proof.
  revert s. induction os as [|o os IH]; intros s Hs Hc Ho; [done|]. cbn [CheckpointModel.run].
  apply not_elem_of_cons in Hc as [Hc1 Hc2]. apply Forall_cons_1 in Ho as [H1 H2].
  apply IH; [|done..]. apply safe_step; done.
Qed.
Lemma keep_run id p u s os rows :
  safe id s -> OClose ∉ os -> Forall (fun o => ~ commits id o) os -> u ∉ uuids os ->
  st_store s !! (rp id ++ [part_name p u]) = Some rows ->
  st_store (run s os) !! (rp id ++ [part_name p u]) = Some rows.
Proof.
  revert s. induction os as [|o os IH]; intros s Hs Hc Ho Hu Hf; [done|]. cbn [CheckpointModel.run].
  apply not_elem_of_cons in Hc as [Hc1 Hc2]. apply Forall_cons_1 in Ho as [H1 H2].
  rewrite uuids_cons in Hu. apply not_elem_of_app in Hu as [Hu1 Hu2].
  apply IH; [|done..|]; [apply safe_step; done|]. apply keep_step; done.
Qed.

(** What was written is still there after the rest of the history. *)
Lemma written_stays id nc p u bs s os loc rows m :
  safe id s -> OClose ∉ os -> Forall (fun o => ~ commits id o) os -> NoDup (uuids os) ->
  OWrite id nc p u bs ∈ os ->
  write_partition psize nc (rp id) p u bs = Some (Some (loc, rows), m) ->
  st_store (run s os) !! loc = Some rows.
Proof.
  intros Hs Hc Ho Hn Hin Hw. pose proof (write_place _ _ _ _ _ _ _ _ Hw) as ->.
  apply elem_of_list_split in Hin as (a & b & ->).
  rewrite run_app. cbn [CheckpointModel.run].
  apply Forall_app in Ho as [Ha Hb]. apply Forall_cons_1 in Hb as [_ Hb].
  apply not_elem_of_app in Hc as [Hca Hcb]. apply not_elem_of_cons in Hcb as [_ Hcb].
  rewrite uuids_app, uuids_cons in Hn. apply NoDup_app in Hn as (_ & _ & Hn).
  apply NoDup_app in Hn as (_ & Hn & _).
  assert (Hsa : safe id (run s a)) by (apply safe_run; done).
  apply keep_run; [|done|done| |].
  - apply safe_step; [done|done|]. intros [].
  - apply Hn. cbn. left.
  - cbn [CheckpointModel.step]. rewrite Hw. cbn [fst st_store]. apply lookup_insert.
Qed.

Lemma readable (psize_pos : forall rows, psize rows <> 0) (blank : Row) (h1 h2 : list op) id nc t
    (l : attempts Row) ms :
  l <> [] -> sound_attempts uuid_ok l -> blank_rows nc blank l ->
  (forall i a, l !! i = Some a -> OWrite id nc (N.of_nat i) a.1 (map Some a.2) ∈ h1) ->
  ms ≡ₚ metadata psize nc (rp id) l ->
  Forall (fun o => ~ commits id o) (h1 ++ h2) -> OClose ∉ h1 ++ h2 -> NoDup (uuids (h1 ++ h2)) ->
  let s1 := run init h1 in
  let s := run s1 (OCommit id nc t ms :: h2) in
  (step s1 (OCommit id nc t ms)).2 = true /\
  exists d, st_relations s !! id = Some d /\
    read psize blank (st_store s) d = map (fun a => Some (concat a.2)) l /\
    d_partitioning d = with_count t (N.of_nat (length l)).
Proof.
  intros Hne Hs Hb Hw Hms Hcm Hcl Hnd. cbv zeta.
  apply Forall_app in Hcm as [Hcm1 Hcm2]. apply not_elem_of_app in Hcl as [Hcl1 Hcl2].
  rewrite uuids_app in Hnd. apply NoDup_app in Hnd as (Hn1 & Hn12 & Hn2).
  set (s1 := run init h1).
  assert (Hsafe0 : safe id (init : state)).
  { split; [done|]. split; [apply not_elem_of_nil|constructor]. }
  assert (Hsafe : safe id s1) by (apply safe_run; done).
  assert (Hrel : st_relations s1 !! id = None).
  { apply run_no_relation; [apply lookup_empty|done]. }
  assert (Hst : forall i a loc rows m, l !! i = Some a ->
     write_partition psize nc (rp id) (N.of_nat i) a.1 (map Some a.2) = Some (Some (loc, rows), m) ->
     st_store s1 !! loc = Some rows).
  { intros i a loc rows m Ha Hwr. eapply written_stays; [done..| |exact Hwr]. by apply Hw. }
  destruct (round_trip psize uuid_ok psize_pos nc (rp id) l blank (st_store s1) ms Hne Hs Hb Hst Hms)
    as (parts & Hc & Hlen & _).
  assert (Hclosed : st_closed s1 = false) by apply Hsafe.
  assert (Hstep : step s1 (OCommit id nc t ms) =
    (State (st_store s1)
       (<[id := Descriptor (rp id) nc (with_count t (N.of_nat (length parts))) parts]> (st_relations s1))
       (st_closed s1) (st_cleaning s1) (st_doomed s1), true)).
  { cbn [CheckpointModel.step]. cbv zeta. by rewrite Hc, Hclosed, Hrel. }
  split; [by rewrite Hstep|].
  cbn [CheckpointModel.run]. rewrite Hstep. cbn [fst].
  set (s2 := State _ _ _ _ _).
  set (d := Descriptor _ _ _ _) in s2.
  assert (Hsafe2 : safe id s2) by apply Hsafe.
  exists d. split; [|split].
  - apply run_relation_open; [|apply Hsafe2|done]. unfold s2. cbn [st_relations]. apply lookup_insert.
  - assert (Hst2 : forall i a loc rows m, l !! i = Some a ->
      write_partition psize nc (rp id) (N.of_nat i) a.1 (map Some a.2) = Some (Some (loc, rows), m) ->
      st_store (run s2 h2) !! loc = Some rows).
    { intros i a loc rows m Ha Hwr. specialize (Hst i a loc rows m Ha Hwr).
      pose proof (write_place _ _ _ _ _ _ _ _ Hwr) as ->. apply keep_run; [done..| |exact Hst].
      apply Hn12. specialize (Hw i a Ha). unfold uuids. apply elem_of_list_In, in_flat_map.
      eexists. split; [by apply elem_of_list_In|]. by left. }
    destruct (round_trip psize uuid_ok psize_pos nc (rp id) l blank (st_store (run s2 h2)) ms Hne Hs Hb Hst2 Hms)
      as (parts' & Hc' & _ & Hr). rewrite Hc in Hc'. apply (inj Some) in Hc' as <-.
    unfold read, d. cbn [d_no_columns d_parts]. exact Hr.
  - unfold d. cbn [d_partitioning]. by rewrite Hlen.
Qed.

(** ** Clean-ups *)
Lemma cleaning_step s o id : id ∈ st_cleaning s -> id ∈ st_cleaning (step s o).1.
Proof.
  intros H. destruct o as [id' nc p' u' bs|id' nc t ms|id'|loc| | |]; cbn [CheckpointModel.step].
  - by destruct (write_partition psize nc (rp id') p' u' bs) as [[[[loc rows']|] m]|] eqn:E.
  - cbv zeta. destruct (collect uuid_ok nc (rp id') ms) as [parts|]; [|by right].
    destruct (st_closed s); [by right|]. destruct (st_relations s !! id'); [by right|done].
  - case_bool_decide; done.
  - case_bool_decide; done.
  - done.
  - by destruct (st_closed s).
  - by destruct (st_closed s).
Qed.
Lemma cleaning_run s os id : id ∈ st_cleaning s -> id ∈ st_cleaning (run s os).
Proof.
  revert s. induction os as [|o os IH]; intros s H; [done|]. cbn [CheckpointModel.run].
  apply IH. by apply cleaning_step.
Qed.
Lemma closed_step_true s o : st_closed s = true -> st_closed (step s o).1 = true.
Proof.
  intros H. destruct o as [id' nc p' u' bs|id' nc t ms|id'|loc| | |]; cbn [CheckpointModel.step].
  - by destruct (write_partition psize nc (rp id') p' u' bs) as [[[[loc rows']|] m]|] eqn:E.
  - cbv zeta. destruct (collect uuid_ok nc (rp id') ms) as [parts|]; [|done].
    destruct (st_closed s) eqn:E; done.
  - case_bool_decide; done.
  - case_bool_decide; done.
  - done.
  - by destruct (st_closed s) eqn:E.
  - by destruct (st_closed s) eqn:E.
Qed.
Lemma closed_run_true s os : st_closed s = true -> st_closed (run s os) = true.
Proof.
  revert s. induction os as [|o os IH]; intros s H; [done|]. cbn [CheckpointModel.run].
  apply IH. by apply closed_step_true.
Qed.

(** All files below [pre] are about to be deleted. *)
Definition condemned (pre : path) s : Prop :=
  forall loc, under pre loc = true -> is_Some (st_store s !! loc) -> loc ∈ st_doomed s.

Lemma condemned_step pre s o :
  condemned pre s ->
  (forall id nc p u bs, o = OWrite id nc p u bs -> under pre (rp id ++ [part_name p u]) = false) ->
  condemned pre (step s o).1.
Proof.
  intros H Ho. destruct o as [id' nc p' u' bs|id' nc t ms|id'|loc| | |]; cbn [CheckpointModel.step].
  - destruct (write_partition psize nc (rp id') p' u' bs) as [[[[loc rows']|] m]|] eqn:E; [|done..].
    intros l Hu Hl. cbn [fst st_store st_doomed] in *. apply write_place in E as ->.
    rewrite lookup_insert_ne in Hl; [by apply H|]. intros <-.
    rewrite (Ho _ _ _ _ _ eq_refl) in Hu. done.
  - cbv zeta. destruct (collect uuid_ok nc (rp id') ms) as [parts|]; [|done].
    destruct (st_closed s); [done|]. by destruct (st_relations s !! id').
  - case_bool_decide; [|done]. intros l Hu Hl. cbn [fst st_store st_doomed] in *.
    apply elem_of_app. right. by apply H.
  - case_bool_decide as Hin; [|done]. intros l Hu Hl. cbn [fst st_store st_doomed] in *.
    destruct (decide (l = loc)) as [->|Hne].
    + rewrite lookup_delete in Hl. by destruct Hl.
    + rewrite lookup_delete_ne in Hl by done. apply elem_of_list_filter. split; [done|]. by apply H.
  - done.
  - destruct (st_closed s); [|done]. intros l Hu Hl. cbn [fst st_store st_doomed] in *.
    apply elem_of_app. right. by apply H.
  - by destruct (st_closed s).
Qed.
Lemma condemned_run pre s os :
  condemned pre s ->
  (forall id nc p u bs, OWrite id nc p u bs ∈ os -> under pre (rp id ++ [part_name p u]) = false) ->
  condemned pre (run s os).
Proof.
  revert s. induction os as [|o os IH]; intros s H Ho; [done|]. cbn [CheckpointModel.run].
  apply IH.
  - apply condemned_step; [done|]. intros id nc p u bs ->. apply (Ho id nc p u bs). left.
  - intros id nc p u bs Hin. apply (Ho id nc p u bs). by right.
Qed.

Lemma failed_leaves_nothing s id nc t ms os :
  (step s (OCommit id nc t ms)).2 = false ->
  OList id ∈ os -> Forall (fun o => ~ writes id o) os ->
  let s' := run (step s (OCommit id nc t ms)).1 os in
  Forall (fun l => under (rp id) l = false) (st_doomed s') ->
  forall loc, under (rp id) loc = true -> st_store s' !! loc = None.
Proof.
  intros Hf Hl Ho. cbv zeta.
  assert (Hc : id ∈ st_cleaning (step s (OCommit id nc t ms)).1).
  { revert Hf. cbn [CheckpointModel.step]. cbv zeta.
    destruct (collect uuid_ok nc (rp id) ms) as [parts|]; cbn [fst snd]; [|intros _; left].
    destruct (st_closed s) eqn:E; cbn [fst snd]; [intros _; left|].
    destruct (st_relations s !! id) as [d'|]; cbn [fst snd]; [intros _; left|done]. }
  revert Hc. generalize (step s (OCommit id nc t ms)).1. clear s Hf. intros s Hc Hd loc Hu.
  apply elem_of_list_split in Hl as (a & b & ->).
  apply Forall_app in Ho as [_ Hb]. apply Forall_cons_1 in Hb as [_ Hb].
  rewrite run_app in *. cbn [CheckpointModel.run] in *.
  assert (Hcd : condemned (rp id) (run (step (run s a) (OList id)).1 b)).
  { apply condemned_run.
    - cbn [CheckpointModel.step].
      rewrite bool_decide_true by (by apply cleaning_run). intros l Hul Hll. cbn [fst st_store st_doomed] in *.
      apply elem_of_app. left. by apply listing_elem.
    - intros id' nc' p u bs Hin. destruct (under (rp id) (rp id' ++ [part_name p u])) eqn:E; [|done].
      pose proof (under_one _ _ _ E (under_app (rp id') [part_name p u])) as <-.
      rewrite list.Forall_forall in Hb. by specialize (Hb _ Hin eq_refl). }
  destruct (st_store _ !! loc) as [rows|] eqn:E; [|done]. exfalso.
  specialize (Hcd loc Hu ltac:(by exists rows)). rewrite list.Forall_forall in Hd.
  specialize (Hd _ Hcd). congruence.
Qed.

Lemma closed_no_relations s os :
  st_closed s = true -> st_relations s = ∅ -> st_relations (run s os) = ∅.
Proof.
  revert s. induction os as [|o os IH]; intros s H Hr; [done|]. cbn [CheckpointModel.run].
  apply IH; [by apply closed_step_true|].
  destruct o as [id' nc p' u' bs|id' nc t ms|id'|loc| | |]; cbn [CheckpointModel.step].
  - by destruct (write_partition psize nc (rp id') p' u' bs) as [[[[loc rows']|] m]|] eqn:E.
  - cbv zeta. destruct (collect uuid_ok nc (rp id') ms) as [parts|]; [|done].
    by rewrite H.
  - case_bool_decide; done.
  - case_bool_decide; done.
  - done.
  - by rewrite H.
  - by rewrite H.
Qed.

Lemma closed_leaves_nothing s a b c :
  let s' := run s (OClose :: a ++ OListAll :: b ++ OClear :: c) in
  Forall (fun o => ~ writes_any o) (b ++ c) ->
  Forall (fun l => under (root ++ [session]) l = false) (st_doomed s') ->
  st_relations s' = ∅ /\
  forall loc, under (root ++ [session]) loc = true -> st_store s' !! loc = None.
Proof.
  cbv zeta. intros Ho Hd. cbn [CheckpointModel.run] in *.
  assert (H0 : st_closed (step s OClose).1 = true) by done.
  revert H0 Hd. generalize (step s OClose).1. clear s. intros s H0 Hd.
  rewrite run_app in *. cbn [CheckpointModel.run] in *.
  assert (H1 : st_closed (run s a) = true) by (by apply closed_run_true).
  revert H1 Hd. generalize (run s a). clear s H0 a. intros s H1 Hd.
  assert (Hc0 : condemned (root ++ [session]) (step s OListAll).1).
  { cbn [CheckpointModel.step]. rewrite H1. intros l Hu Hl. cbn [fst st_store st_doomed] in *.
    apply elem_of_app. left. by apply listing_elem. }
  assert (H2 : st_closed (step s OListAll).1 = true) by (by apply closed_step_true).
  revert Hc0 H2 Hd. generalize (step s OListAll).1. clear s H1. intros s Hc0 H2 Hd.
  rewrite run_app in *. cbn [CheckpointModel.run] in *.
  assert (H3 : st_closed (run s b) = true) by (by apply closed_run_true).
  split.
  - apply closed_no_relations; [by apply closed_step_true|]. cbn [CheckpointModel.step]. by rewrite H3.
  - intros loc Hu. apply Forall_app in Ho as [Hb Hc].
    assert (Hcd : condemned (root ++ [session]) (run (step (run s b) OClear).1 c)).
    { apply condemned_run; [apply condemned_step; [apply condemned_run; [done|]|]|].
      - intros id nc p u bs Hin. rewrite list.Forall_forall in Hb. by destruct (Hb _ Hin).
      - intros; done.
      - intros id nc p u bs Hin. rewrite list.Forall_forall in Hc. by destruct (Hc _ Hin). }
    destruct (st_store _ !! loc) as [rows|] eqn:E; [|done]. exfalso.
    specialize (Hcd loc Hu ltac:(by exists rows)). rewrite list.Forall_forall in Hd.
    specialize (Hd _ Hcd). congruence.
Qed.

(** ** Other sessions *)
Lemma outside_step s o loc :
  Forall (fun l => under (root ++ [session]) l = true) (st_doomed s) ->
  under (root ++ [session]) loc = false ->
  st_store (step s o).1 !! loc = st_store s !! loc /\
  Forall (fun l => under (root ++ [session]) l = true) (st_doomed (step s o).1).
Proof.
  intros Hd Hu. destruct o as [id' nc p' u' bs|id' nc t ms|id'|l| | |]; cbn [CheckpointModel.step].
  - destruct (write_partition psize nc (rp id') p' u' bs) as [[[[l rows']|] m]|] eqn:E; [|done..].
    cbn [fst st_store st_doomed]. split; [|done]. apply lookup_insert_ne. intros <-.
    apply write_place in E as ->.
    pose proof (under_session id' (rp id' ++ [part_name p' u']) (under_app _ _)). congruence.
  - cbv zeta. destruct (collect uuid_ok nc (rp id') ms) as [parts|]; [|done].
    destruct (st_closed s); [done|]. by destruct (st_relations s !! id').
  - case_bool_decide; [|done]. cbn [fst st_store st_doomed]. split; [done|].
    apply Forall_app. split; [|done]. apply list.Forall_forall. intros l [Hl _]%listing_elem.
    by apply under_session in Hl.
  - case_bool_decide as Hin; [|done]. cbn [fst st_store st_doomed]. split.
    + apply lookup_delete_ne. intros ->. rewrite list.Forall_forall in Hd. specialize (Hd _ Hin).
      congruence.
    + apply list.Forall_forall. intros x [_ Hx]%elem_of_list_filter.
      rewrite list.Forall_forall in Hd. by apply Hd.
  - done.
  - destruct (st_closed s); [|done]. cbn [fst st_store st_doomed]. split; [done|].
    apply Forall_app. split; [|done]. apply list.Forall_forall. by intros l [Hl _]%listing_elem.
  - by destruct (st_closed s).
Qed.
Lemma outside_run s os loc :
  Forall (fun l => under (root ++ [session]) l = true) (st_doomed s) ->
  under (root ++ [session]) loc = false ->
  st_store (run s os) !! loc = st_store s !! loc.
Proof.
  revert s. induction os as [|o os IH]; intros s Hd Hu; [done|]. cbn [CheckpointModel.run].
  destruct (outside_step s o loc Hd Hu) as [H1 H2]. by rewrite IH, H1.
Qed.
End session.
