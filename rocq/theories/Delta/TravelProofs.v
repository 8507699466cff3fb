From Coq Require Import NArith ZArith ZifyN Lia.
From stdpp Require Import prelude list gmap.
From Verif.Lib Require Import Text.
From Verif.Delta Require Import ActionModel LogModel CommitModel CommitSpec CommitProofs CommitTheorems CommitTimes TravelModel TravelSpec.
Local Open Scope Z_scope.

Lemma search_spec fuel time (t : Z -> Z) ts lo hi best a b :
  (forall v, a <= v <= b -> time v = Some (t v)) -> increasing_between t a b ->
  a <= lo -> hi <= b -> (Z.to_nat (hi - lo + 1) < fuel)%nat -> lo <= hi + 1 ->
  (forall v, hi < v <= b -> ts < t v) ->
  (best = -1 /\ lo = a \/ best = lo - 1 /\ a <= best /\ t best <= ts) ->
  exists r, search fuel time ts lo hi best = Some r /\
    ((r = -1 /\ forall v, a <= v <= b -> ts < t v) \/
     (a <= r <= b /\ t r <= ts /\ forall v, r < v <= b -> ts < t v)).
Proof.
  revert lo hi best. induction fuel as [|fuel IH]; intros lo hi best Htime Hinc Hlo Hhi Hf Hle Hgt Hb; [lia|].
  cbn [search]. destruct (lo <=? hi) eqn:E.
  - set (pivot := lo + (hi - lo) ÷ 2). assert (lo <= pivot <= hi).
    { subst pivot. pose proof (Z.quot_pos (hi - lo) 2). pose proof (Z.quot_le_mono (hi - lo) (hi - lo)).
      assert ((hi - lo) ÷ 2 <= hi - lo) by (rewrite Z.quot_div_nonneg by lia; apply Z.div_le_upper_bound; lia). lia. }
    rewrite Htime by lia. destruct (t pivot <=? ts) eqn:Et.
    + apply IH; try done; lia.
    + apply IH; try done; try lia. intros v Hv. assert (t pivot <= t v) by (apply Hinc; lia). lia.
  - exists best. split; [done|]. destruct Hb as [[-> ->]|(-> & Ha & Ht)].
    + left. split; [done|]. intros v Hv. apply Hgt. lia.
    + right. split_and!; [lia|lia|done|]. intros v Hv. apply Hgt. lia.
Qed.

Theorem find_version_spec enablement time (t : Z -> Z) latest ts :
  0 <= latest -> (forall v, 0 <= v <= latest -> time v = Some (t v)) ->
  match enablement with
  | None => increasing_between t 0 latest
  | Some (ev, et) => 0 <= ev <= latest /\ t ev = et /\ increasing_between t ev latest /\ increasing_between t 0 (ev - 1)
  end ->
  right_answer t latest ts (find_version enablement time latest ts).
Proof.
  intros Hl Htime Hen. unfold find_version.
  assert (Hsearch : forall lo hi, 0 <= lo <= hi + 1 -> hi <= latest -> increasing_between t lo hi -> lo = 0 \/ t lo <= ts ->
     lo <= hi -> (forall v, hi < v <= latest -> ts < t v) ->
     right_answer t latest ts
       match search (S (Z.to_nat (hi - lo + 1))) time ts lo hi (-1) with
       | None => FError | Some v => if v =? -1 then FMissing else FVersion v end).
  { intros lo hi H1 H2 Hinc H3 H4 H5.
    destruct (search_spec (S (Z.to_nat (hi - lo + 1))) time t ts lo hi (-1) lo hi) as (r & -> & Hr);
      try done; try lia; [intros; apply Htime; lia|].
    destruct Hr as [[-> Hr]|(Hr1 & Hr2 & Hr3)]; cbn.
    - intros v Hv. destruct (decide (v <= hi)); [|apply H5; lia]. destruct H3 as [->|H3]; [apply Hr; lia|].
      exfalso. specialize (Hr lo). lia.
    - replace (r =? -1) with false by lia. cbn. split_and!; [lia|lia|done|]. intros v Hv. destruct (decide (v <= hi)); [apply Hr3; lia|apply H5; lia]. }
  destruct enablement as [[ev et]|].
  - destruct Hen as (H1 & <- & H2 & H3). destruct (t ev <=? ts) eqn:E.
    + apply Hsearch; try done; try lia.
    + assert (Hge : forall v, ev <= v <= latest -> ts < t v).
      { intros v Hv. assert (t ev <= t v) by (apply H2; lia). lia. }
      destruct (ev =? 0) eqn:E0.
      * cbn. intros v Hv. apply Hge. lia.
      * apply Hsearch; try done; try lia; intros v Hv; apply Hge; lia.
  - apply Hsearch; try done; try lia.
Qed.

(** On the tables made by any run of the commit loop that had in-commit timestamps from the
    start. *)
Theorem travel_on_runs ops latest p m cached crcs ts (t : Z -> Z) :
  never_cleaned ops -> no_compacted_times ops -> commit_info_first ops ->
  latest = Z.of_nat (length (hist ops)) - 1 -> 0 <= latest ->
  (forall v, 0 <= v <= latest -> ict_on (hist ops) v) ->
  (forall v m', 0 <= v <= latest -> rs_metadata (table_at (hist ops) v) = Some m' -> md_ict_version m' = None) ->
  rs_protocol (table_at (hist ops) latest) = Some p -> rs_metadata (table_at (hist ops) latest) = Some m ->
  (forall v f, commit_at (hist ops) v = Some f -> ict_of (cf_acts f) = Some (t v)) ->
  (forall v x, cached !! v = Some x -> x = t v) -> (forall v x, crcs !! v = Some (Some x) -> x = t v) ->
  right_answer t latest ts (travel p m cached crcs (st_files (store_of ops)) latest ts).
Proof.
  intros Hn Hc Hf Hlatest Hl Hon Hnov Hp Hm Ht Hca Hcr.
  assert (md_ict_version m = None) as Hv by (apply (Hnov latest); [lia|done]).
  unfold travel, enablement_of. rewrite Hv. apply find_version_spec; [done| |].
  - intros v Hr. unfold resolve_version_time. destruct (cached !! v) as [x|] eqn:Ec; [by rewrite (Hca _ _ Ec)|].
    destruct (Hon latest) as (p' & m' & Hp' & Hm' & Hpi & Hmi); [lia|]. simplify_eq.
    unfold uses_ict, ict_enabled. rewrite Hpi, Hmi, Hv. cbn.
    assert ((st_files (store_of ops) !! v ≫= fun f => ict_of (cf_acts f)) = Some (t v)) as Hfile.
    { rewrite all_versions_kept by done. destruct (commit_at_is_Some (hist ops) v) as (f & Hcf); [lia|]. rewrite Hcf. cbn. by apply Ht. }
    destruct (crcs !! v) as [[x|]|] eqn:Ecr; [by rewrite (Hcr _ _ Ecr)|done|done].
  - intros u v Hu Hvl. destruct (decide (u = v)) as [->|Hne]; [done|].
    destruct (commit_at_is_Some (hist ops) u) as (fu & Hfu); [lia|]. destruct (commit_at_is_Some (hist ops) v) as (fv & Hfv); [lia|].
    apply Z.lt_le_incl. eapply (ict_monotone ops u v); try done; [by apply never_cleaned_timely| |lia| | |].
    + intros w mw e Hw Hmw He. rewrite (Hnov w mw) in He; [done|lia|done].
    + intros w Hw. apply Hon. lia.
    + by apply Ht.
    + by apply Ht.
Qed.

(** On tables where in-commit timestamps were switched on at version [e]. *)
Theorem travel_switched_on ops latest e p m cached crcs ts (t : Z -> Z) f me :
  never_cleaned ops -> no_compacted_times ops -> commit_info_first ops ->
  latest = Z.of_nat (length (hist ops)) - 1 -> 0 < e <= latest ->
  (forall v, 0 <= v < e -> ~ ict_on (hist ops) v) -> (forall v, e <= v <= latest -> ict_on (hist ops) v) ->
  commit_at (hist ops) e = Some f -> one_metadata (cf_acts f) me ->
  (forall v, e <= v <= latest -> rs_metadata (table_at (hist ops) v) = rs_metadata (table_at (hist ops) e)) ->
  rs_protocol (table_at (hist ops) latest) = Some p -> rs_metadata (table_at (hist ops) latest) = Some m ->
  (forall v, 0 <= v <= latest -> version_time (hist ops) v = Some (t v)) ->
  increasing_between t 0 (e - 1) ->
  (forall v x, cached !! v = Some x -> x = t v) -> (forall v x, crcs !! v = Some (Some x) -> x = t v) ->
  right_answer t latest ts (travel p m cached crcs (st_files (store_of ops)) latest ts).
Proof.
  intros Hn Hc Hf Hlatest He Hoff Hon Hfe Hme Hsame Hp Hm Ht Hinc Hca Hcr.
  pose proof (never_cleaned_timely _ Hn) as Htim.
  destruct (enablement_recorded ops Htim Hc Hf e f me) as (Hmt & Hev & Het); [lia|apply Hon; lia|apply Hoff; lia|done|done|].
  assert (m = me) as ->. { rewrite (Hsame latest) in Hm by lia. congruence. }
  destruct (Hon latest) as (p' & m' & Hp' & Hm' & Hpi & Hmi); [lia|].
  rewrite Hp in Hp'. rewrite Hm in Hm'. injection Hp' as <-. injection Hm' as <-.
  (* what a version's timestamp is *)
  assert (Hsince : forall v fv, e <= v <= latest -> commit_at (hist ops) v = Some fv -> ict_of (cf_acts fv) = Some (t v)).
  { intros v fv Hv Hfv. specialize (Ht v ltac:(lia)). unfold version_time in Ht. rewrite Hfv in Ht. cbn [mbind option_bind] in Ht.
    destruct (Hon v) as (pv & mv & Hpv & Hmv & Hpvi & Hmvi); [lia|]. rewrite Hpv, Hmv in Ht.
    assert (mv = me) as ->. { rewrite Hsame, Hmt in Hmv by lia. congruence. }
    unfold uses_ict, ict_enabled in Ht. rewrite Hpvi, Hmi, Hev in Ht. cbn [andb] in Ht.
    destruct (e <=? v) eqn:E; [done|lia]. }
  assert (Hbefore : forall v fv, 0 <= v < e -> commit_at (hist ops) v = Some fv -> cf_mtime fv = t v).
  { intros v fv Hv Hfv. specialize (Ht v ltac:(lia)). unfold version_time in Ht. rewrite Hfv in Ht. cbn [mbind option_bind] in Ht.
    destruct (rs_protocol (table_at (hist ops) v)) as [pv|] eqn:Hpv; [|done].
    destruct (rs_metadata (table_at (hist ops) v)) as [mv|] eqn:Hmv; [|done].
    destruct (uses_ict v pv mv) eqn:Eu; [|by injection Ht]. destruct (Hoff v Hv).
    unfold uses_ict, ict_enabled in Eu. apply andb_true_iff in Eu as [[E1 E2]%andb_true_iff _]. by exists pv, mv. }
  assert (Hete : md_ict_time me = Some (t e)). { rewrite Het. apply Hsince; [lia|done]. }
  unfold travel, enablement_of. rewrite Hev, Hete. apply find_version_spec; [lia| |].
  - intros v Hr. unfold resolve_version_time. destruct (cached !! v) as [x|] eqn:Ec; [by rewrite (Hca _ _ Ec)|].
    destruct (commit_at_is_Some (hist ops) v) as (fv & Hfv); [lia|].
    unfold uses_ict, ict_enabled. rewrite Hpi, Hmi, Hev. cbn [andb].
    rewrite !(all_versions_kept ops v Hn), Hfv. destruct (e <=? v) eqn:E; cbn [mbind option_bind].
    + rewrite (Hsince v fv) by (lia || done). destruct (crcs !! v) as [[x|]|] eqn:Ecr; [by rewrite (Hcr _ _ Ecr)|done|done].
    + by rewrite (Hbefore v fv) by (lia || done).
  - split_and!; [lia|lia|done| |done].
    intros u v Hu Hvl. remember (Z.to_nat (v - u)) as n eqn:En. revert v Hu Hvl En.
    induction n as [|n IH]; intros v Hu Hvl En; [by replace v with u by lia|].
    etransitivity; [apply (IH (v - 1)); lia|].
    destruct (ict_increases ops Htim Hc Hf v) as (fv & tv & Hfv & Hiv & Hprev); [lia|apply Hon; lia|].
    destruct Hprev as (t0 & Ht0 & Hlt); [lia|]. rewrite Ht in Ht0 by lia. injection Ht0 as <-.
    rewrite (Hsince v fv) in Hiv by (lia || done). injection Hiv as <-. lia.
Qed.
