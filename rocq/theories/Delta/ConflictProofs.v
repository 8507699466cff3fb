(** The conflict checker accepts exactly the harmless commits. *)
From Coq Require Import NArith ZArith ZifyN Lia.
From stdpp Require Import prelude list gmap.
From Verif.Lib Require Import Text.
From Verif.Delta Require Import ActionModel LogModel CommitModel CommitSpec.
Local Open Scope Z_scope.

Lemma nonempty_false {A} (l : list A) : nonempty l = false <-> l = [].
Proof. by destruct l. Qed.
Lemma nonempty_true {A} (l : list A) : nonempty l = true <-> exists x, x ∈ l.
Proof. destruct l as [|x l]; cbn; split; try done. - intros (x & H). by apply elem_of_nil in H. - intros _. exists x. left. Qed.
Lemma overlap_false {A} `{EqDecision A} (l k : list A) : overlap l k = false <-> forall x, x ∈ l -> x ∉ k.
Proof.
  unfold overlap. rewrite <- not_true_iff_false, existsb_exists. split.
  - intros H x Hx Hk. apply H. exists x. split; [by apply elem_of_list_In|by apply bool_decide_eq_true].
  - intros H (x & Hx%elem_of_list_In & Hk%bool_decide_eq_true). by eapply H.
Qed.
Lemma elem_protocols acts p : p ∈ protocols acts <-> AProtocol p ∈ acts.
Proof.
  unfold protocols. rewrite elem_of_list_omap. split.
  - intros (a & Ha & Hp). destruct a; simplify_eq. done.
  - intros H. by exists (AProtocol p).
Qed.
Lemma elem_metadatas acts p : p ∈ metadatas acts <-> AMetadata p ∈ acts.
Proof.
  unfold metadatas. rewrite elem_of_list_omap. split.
  - intros (a & Ha & Hp). destruct a; simplify_eq. done.
  - intros H. by exists (AMetadata p).
Qed.
Lemma elem_domains acts n : n ∈ domains acts <-> sets_domain acts n.
Proof.
  unfold domains, sets_domain. rewrite elem_of_list_omap. split.
  - intros (a & Ha & Hp). destruct a; simplify_eq. eauto.
  - intros (d & H & <-). by exists (ADomain d).
Qed.
Lemma elem_app_ids acts n : n ∈ app_ids acts <-> uses_app acts n.
Proof.
  unfold app_ids, uses_app. rewrite elem_of_list_omap. split.
  - intros (a & Ha & Hp). destruct a; simplify_eq. eauto.
  - intros (d & H & <-). by exists (ATxn d).
Qed.
Lemma elem_removed acts k : k ∈ removed_keys acts <-> removes_file acts k.
Proof.
  unfold removed_keys, removes_file. rewrite elem_of_list_omap. split.
  - intros (a & Ha & Hp). destruct a; simplify_eq. eauto.
  - intros (d & H & <-). by exists (ARemove d).
Qed.
Lemma elem_added acts k : k ∈ added_keys acts <-> adds_file acts k.
Proof.
  unfold added_keys, adds_file. rewrite elem_of_list_omap. split.
  - intros (a & Ha & Hp). destruct a; simplify_eq. eauto.
  - intros (d & H & <-). by exists (AAdd d).
Qed.
Lemma forallb_elem' {A} (f : A -> bool) l : forallb f l = true <-> forall x, x ∈ l -> f x = true.
Proof. rewrite forallb_forall. setoid_rewrite elem_of_list_In. done. Qed.

Lemma protocol_ok_iff st acts win :
  protocol_ok st acts win = true <->
  (changes_protocol win ->
    exists own, head (protocols acts) = Some own /\ (forall p, AProtocol p ∈ win -> p = own) /\
      forall cur, rs_protocol st = Some cur -> pr_reader own <= pr_reader cur /\ pr_writer cur <= pr_writer own).
Proof.
  unfold protocol_ok, changes_protocol. rewrite andb_true_iff, orb_true_iff, negb_true_iff, nonempty_false, forallb_elem'.
  split.
  - intros [Hf Ho] (p & Hp). apply elem_protocols in Hp. destruct Ho as [Ho|Ho]; [rewrite Ho in Hp; by apply elem_of_nil in Hp|].
    destruct (head (protocols acts)) as [own|]; [|done]. rewrite forallb_elem' in Ho. exists own. split; [done|]. split.
    + intros q Hq%elem_protocols. specialize (Ho q Hq). by apply bool_decide_eq_true in Ho.
    + intros cur Hc. specialize (Ho p Hp). apply bool_decide_eq_true in Ho as ->. specialize (Hf own Hp). rewrite Hc in Hf.
      rewrite negb_true_iff, orb_false_iff in Hf. lia.
  - intros H. destruct (protocols win) as [|p l] eqn:E; [split; [intros x Hx; by apply elem_of_nil in Hx|by left]|].
    assert (exists q, AProtocol q ∈ win) as Hex by (exists p; apply elem_protocols; rewrite E; left).
    destruct (H Hex) as (own & Ho & Hall & Hcur). rewrite Ho. rewrite <- E. split.
    + intros x Hx%elem_protocols. apply Hall in Hx as ->. destruct (rs_protocol st) as [cur|]; [|done].
      specialize (Hcur _ eq_refl). rewrite negb_true_iff, orb_false_iff. lia.
    + right. apply forallb_elem'. intros x Hx%elem_protocols. apply bool_decide_eq_true. by apply Hall.
Qed.
Lemma metadata_ok_iff acts win :
  metadata_ok acts win = true <->
  (changes_metadata win -> exists own, head (metadatas acts) = Some own /\ forall m, AMetadata m ∈ win -> m = own).
Proof.
  unfold metadata_ok, changes_metadata. rewrite orb_true_iff, negb_true_iff, nonempty_false. split.
  - intros Ho (p & Hp). apply elem_metadatas in Hp. destruct Ho as [Ho|Ho]; [rewrite Ho in Hp; by apply elem_of_nil in Hp|].
    destruct (head (metadatas acts)) as [own|]; [|done]. rewrite forallb_elem' in Ho. exists own. split; [done|].
    intros q Hq%elem_metadatas. specialize (Ho q Hq). by apply bool_decide_eq_true in Ho.
  - intros H. destruct (metadatas win) as [|p l] eqn:E; [by left|].
    assert (exists q, AMetadata q ∈ win) as Hex by (exists p; apply elem_metadatas; rewrite E; left).
    destruct (H Hex) as (own & Ho & Hall). rewrite Ho. rewrite <- E. right. apply forallb_elem'.
    intros x Hx%elem_metadatas. apply bool_decide_eq_true. by apply Hall.
Qed.

Lemma is_blind_spec acts : is_blind acts = true <-> declared_blind acts.
Proof.
  unfold is_blind. split.
  - induction acts as [|a acts IH]; [done|].
    assert (Hcons : (forall c', a <> ACommitInfo c') -> declared_blind acts -> declared_blind (a :: acts)).
    { intros Ha (l & c & l' & -> & Hl & Hc). exists (a :: l), c, l'. split; [done|]. split; [|done].
      intros c' [H|H]%elem_of_cons; [by apply (Ha c')|by apply (Hl c')]. }
    destruct a as [x|r|m|p|t|d|c|n] eqn:Ea; cbn [omap list_omap head];
      try (intros H; apply Hcons; [done|]; by apply IH).
    intros H. destruct (ci_blind c) as [[]|] eqn:Hc; try done.
    exists [], c, acts. split; [done|]. split; [|done]. intros c' Hc'. by apply elem_of_nil in Hc'.
  - intros (l & c & l' & -> & Hl & Hc).
    assert (E : omap (fun a => match a with ACommitInfo c => Some c | _ => None end) l = []).
    { clear -Hl. induction l as [|a l IH]; [done|]. cbn.
      assert (Hl' : forall c', ACommitInfo c' ∉ l) by (intros c' H; apply (Hl c'); by right).
      destruct a; try (by apply IH). exfalso. eapply Hl. left. }
    rewrite omap_app, E. cbn. by rewrite Hc.
Qed.
Lemma can_downgrade_empty win changes iso : can_downgrade win changes iso = true -> win = [].
Proof.
  unfold can_downgrade. destruct (existsb _ win) eqn:En; [done|]. intros H.
  destruct win as [|a l]; [done|]. exfalso. cbn [existsb] in *. apply orb_false_iff in En as [Ha _].
  revert H. destruct a; cbn in Ha; try discriminate;
    apply negb_false_iff in Ha; rewrite Ha; by destruct iso.
Qed.
Lemma added_ok_iff st req acts win :
  t_whole req && nonempty (added_to_check (txn_isolation st req win) acts win) = false <->
  (t_whole req = true ->
    appends_allowed (match rs_metadata st with Some m => md_isolation m | None => Serializable end) acts win \/
    forall k, ~ adds_file win k).
Proof.
  unfold txn_isolation. set (iso := match rs_metadata st with Some m => md_isolation m | None => Serializable end).
  destruct (t_whole req); [|split; done]. cbn [andb]. rewrite nonempty_false.
  destruct (can_downgrade win (t_changes req) iso) eqn:Ec.
  { apply can_downgrade_empty in Ec as ->. cbn. split; [|done]. intros _ _. right. intros k (a & Ha & _). by apply elem_of_nil in Ha. }
  assert (added_keys win = [] <-> forall k, ~ adds_file win k) as Hadd.
  { split.
    - intros H k Hk%elem_added. rewrite H in Hk. by apply elem_of_nil in Hk.
    - intros H. destruct (added_keys win) as [|k l] eqn:E; [done|]. exfalso. apply (H k). apply elem_added. rewrite E. left. }
  assert (nonempty (metadatas acts) = false <-> ~ changes_metadata acts) as Hmd.
  { rewrite nonempty_false. unfold changes_metadata. setoid_rewrite <- elem_metadatas. split.
    - intros ->. intros (m & Hm). by apply elem_of_nil in Hm.
    - intros H. destruct (metadatas acts) as [|m l]; [done|]. exfalso. apply H. exists m. left. }
  unfold appends_allowed. destruct iso; cbn [added_to_check].
  - rewrite Hadd. split; [intros H _; by right|]. intros H. destruct (H eq_refl) as [[?|(? & _)]|?]; done.
  - destruct (negb (nonempty (metadatas acts)) && is_blind win) eqn:E.
    + apply andb_true_iff in E as [E1 E2]. apply negb_true_iff in E1. split; [|done]. intros _ _. left. right.
      rewrite <- Hmd, <- is_blind_spec. done.
    + rewrite Hadd. split; [intros H _; by right|]. intros H. destruct (H eq_refl) as [[?|(_ & H1 & H2)]|?]; [done| |done].
      apply Hmd in H1. apply is_blind_spec in H2. by rewrite H1, H2 in E.
  - split; [|done]. intros _ _. left. by left.
Qed.

Theorem check_conflicts_iff st req acts win :
  check_conflicts st req acts win = None <-> harmless st req acts win.
Proof.
  unfold check_conflicts.
  destruct (protocol_ok st acts win) eqn:E1; cbn [negb].
  2: { split; [done|]. intros [h_protocol0 h_metadata0 h_domains0 h_appends0 h_deletes0 h_apps0]. apply protocol_ok_iff in h_protocol0. by rewrite h_protocol0 in E1. }
  destruct (metadata_ok acts win) eqn:E2; cbn [negb].
  2: { split; [done|]. intros [h_protocol0 h_metadata0 h_domains0 h_appends0 h_deletes0 h_apps0]. apply metadata_ok_iff in h_metadata0. by rewrite h_metadata0 in E2. }
  pose proof (proj1 (protocol_ok_iff _ _ _) E1) as E1'. pose proof (proj1 (metadata_ok_iff _ _) E2) as E2'. clear E1 E2.
  destruct (overlap (domains acts) (domains win)) eqn:E3.
  { split; [done|]. intros [h_protocol0 h_metadata0 h_domains0 h_appends0 h_deletes0 h_apps0]. apply not_false_iff_true in E3. exfalso. apply E3, (proj2 (overlap_false (domains acts) (domains win))).
    setoid_rewrite elem_domains. done. }
  destruct (t_whole req && _) eqn:E4.
  { split; [done|]. intros [h_protocol0 h_metadata0 h_domains0 h_appends0 h_deletes0 h_apps0]. apply added_ok_iff in h_appends0. by rewrite h_appends0 in E4. }
  pose proof (proj1 (overlap_false (domains acts) (domains win)) E3) as E3'; clear E3; rename E3' into E3. setoid_rewrite elem_domains in E3. pose proof (proj1 (added_ok_iff _ _ _ _) E4) as E4'. clear E4.
  destruct (existsb _ _ || _) eqn:E5.
  { split; [done|]. intros [h_protocol0 h_metadata0 h_domains0 h_appends0 h_deletes0 h_apps0]. apply orb_true_iff in E5 as [E5|E5].
    - apply existsb_exists in E5 as (k & Hk%elem_of_list_In & Hs%bool_decide_eq_true). apply elem_removed in Hk.
      apply h_deletes0 in Hk as (Hn & _). rewrite Hn in Hs. by destruct Hs.
    - apply andb_true_iff in E5 as [E5 E6]. apply nonempty_true in E5 as (k & Hk%elem_removed).
      apply h_deletes0 in Hk as (_ & Hn & _). congruence. }
  apply orb_false_iff in E5 as [E5 E6].
  assert (forall k, removes_file win k -> rs_adds st !! k = None /\ t_whole req = false) as Hdel.
  { intros k Hk. apply elem_removed in Hk. split.
    - destruct (rs_adds st !! k) eqn:Ea; [|done]. exfalso. rewrite <- not_true_iff_false, existsb_exists in E5. apply E5.
      exists k. split; [by apply elem_of_list_In|]. apply bool_decide_eq_true. by eexists.
    - destruct (t_whole req); [|done]. rewrite andb_true_r in E6. apply nonempty_false in E6. rewrite E6 in Hk. by apply elem_of_nil in Hk. }
  destruct (overlap (removed_keys acts) _) eqn:E7.
  { split; [done|]. intros [h_protocol0 h_metadata0 h_domains0 h_appends0 h_deletes0 h_apps0]. apply not_false_iff_true in E7. exfalso. apply E7, (proj2 (overlap_false (removed_keys acts) (removed_keys win))).
    intros k Hk%elem_removed Hk2%elem_removed. by apply h_deletes0 in Hk2 as (_ & _ & ?). }
  pose proof (proj1 (overlap_false (removed_keys acts) (removed_keys win)) E7) as E7'; clear E7; rename E7' into E7.
  destruct (overlap (app_ids win) _) eqn:E8.
  { split; [done|]. intros [h_protocol0 h_metadata0 h_domains0 h_appends0 h_deletes0 h_apps0]. apply not_false_iff_true in E8. exfalso. apply E8, (proj2 (overlap_false (app_ids win) (app_ids acts))).
    intros k Hk%elem_app_ids Hk2%elem_app_ids. by eapply h_apps0. }
  pose proof (proj1 (overlap_false (app_ids win) (app_ids acts)) E8) as E8'; clear E8; rename E8' into E8.
  split; [|done]. intros _. split; try done.
  - intros k Hk. destruct (Hdel _ Hk) as [H1 H2]. split; [done|]. split; [done|]. intros Ha.
    apply elem_removed in Ha. apply (E7 _ Ha). by apply elem_removed.
  - intros a Ha Hw. apply elem_app_ids in Ha, Hw. by eapply E8.
Qed.
