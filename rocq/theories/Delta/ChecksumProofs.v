From Coq Require Import NArith ZArith ZifyN Lia.
From stdpp Require Import prelude list gmap.
From Verif.Lib Require Import Text.
From Verif.Delta Require Import ActionModel LogModel CommitModel CommitSpec CommitProofs CommitTimes ChecksumModel ChecksumSpec.
Local Open Scope Z_scope.

Lemma total_size_perm l k : l ≡ₚ k -> total_size l = total_size k.
Proof. unfold total_size. induction 1; cbn [foldr] in *; lia. Qed.
Lemma live_insert st k a : rs_adds st !! k = None ->
  (map_to_list (<[k := a]> (rs_adds st))).*2 ≡ₚ a :: live_files st.
Proof. intros H. rewrite map_to_list_insert by done. done. Qed.
Lemma live_delete st k a : rs_adds st !! k = Some a ->
  live_files st ≡ₚ a :: (map_to_list (delete k (rs_adds st))).*2.
Proof. intros H. unfold live_files. rewrite <- (map_to_list_delete _ _ _ H). done. Qed.
Lemma checked_eq z r : checked z = Some r -> r = z.
Proof. unfold checked. destruct (_ && _); [|done]. by intros [= <-]. Qed.

(** What a commit changes. *)
Lemma commit_change_spec acts : forall st f b df db,
  exact_commit st acts -> commit_change f b acts = CKnown df db ->
  df - f = Z.of_nat (length (live_files (replay st acts))) - Z.of_nat (length (live_files st)) /\
  db - b = total_size (live_files (replay st acts)) - total_size (live_files st).
Proof.
  induction acts as [|a acts IH]; intros st f b df db He Hc.
  { injection Hc as <- <-. cbn. lia. }
  cbn [exact_commit] in He. destruct He as [Ha He]. cbn [replay foldl].
  change (foldl apply_action (apply_action st a) acts) with (replay (apply_action st a) acts).
  destruct a as [a|r|m|p|t|d|ci|n]; cbn [commit_change] in Hc.
  - destruct (checked (f + 1)) as [f'|] eqn:Ef; [|done]. destruct (checked (b + add_size a)) as [b'|] eqn:Eb; [|done].
    apply checked_eq in Ef as ->. apply checked_eq in Eb as ->. destruct (IH _ _ _ _ _ He Hc) as [H1 H2].
    assert (live_files (apply_action st (AAdd a)) ≡ₚ a :: live_files st) as Hp.
    { destruct st. by apply (live_insert (RState _ _ _ _ _ _)). }
    rewrite (Permutation_length Hp) in H1. rewrite (total_size_perm _ _ Hp) in H2. cbn [length] in H1. unfold total_size in H2 |- *. cbn [foldr] in H2. lia.
  - destruct (checked (f - 1)) as [f'|] eqn:Ef; [|done]. destruct (rm_size r) as [s|] eqn:Es; [|done].
    destruct (checked (b - s)) as [b'|] eqn:Eb; [|done]. apply checked_eq in Ef as ->. apply checked_eq in Eb as ->.
    destruct (IH _ _ _ _ _ He Hc) as [H1 H2]. destruct Ha as (y & Hy & Hs). specialize (Hs s eq_refl).
    pose proof (live_delete _ _ _ Hy) as Hp. rewrite (Permutation_length Hp), (total_size_perm _ _ Hp). cbn [length]. unfold total_size in *. cbn [foldr].
    assert (live_files (apply_action st (ARemove r)) = (map_to_list (delete (rm_key r) (rs_adds st))).*2) as Heq by by destruct st.
    rewrite Heq in H1, H2. lia.
  - destruct (IH _ _ _ _ _ He Hc) as [H1 H2]. destruct st. done.
  - destruct (IH _ _ _ _ _ He Hc) as [H1 H2]. destruct st. done.
  - destruct (IH _ _ _ _ _ He Hc) as [H1 H2]. destruct st. done.
  - destruct (IH _ _ _ _ _ He Hc) as [H1 H2]. destruct st. done.
  - destruct (IH _ _ _ _ _ He Hc) as [H1 H2]. destruct st. done.
  - destruct (IH _ _ _ _ _ He Hc) as [H1 H2]. destruct st. done.
Qed.

Lemma sizes_spec l f b : sizes l = Some (f, b) -> f = Z.of_nat (length l) /\ b = total_size l.
Proof.
  unfold sizes. assert (forall f0 b0 f b,
    foldl (fun fb a => '(f, b) ← fb; f' ← checked (f + 1); b' ← checked (b + add_size a); Some (f', b')) (Some (f0, b0)) l = Some (f, b) ->
    f = f0 + Z.of_nat (length l) /\ b = b0 + total_size l) as Hgen; [|intros H; apply Hgen in H; lia].
  clear. induction l as [|a l IH]; intros f0 b0 f b H.
  - injection H as <- <-. cbn. lia.
  - cbn [foldl] in H. cbn [mbind option_bind] in H.
    assert (forall l, foldl (fun fb a => '(f, b) ← fb; f' ← checked (f + 1); b' ← checked (b + add_size a); Some (f', b')) None l = @None (Z * Z)) as Hnone.
    { clear. intros l. induction l as [|a l IH]; [done|exact IH]. }
    destruct (checked (f0 + 1)) as [f1|] eqn:Ef; [|cbn in H; by rewrite Hnone in H].
    destruct (checked (b0 + add_size a)) as [b1|] eqn:Eb; [|cbn in H; by rewrite Hnone in H].
    cbn in H. apply checked_eq in Ef as ->. apply checked_eq in Eb as ->. apply IH in H as [-> ->]. cbn [length]. unfold total_size. cbn [foldr]. lia.
Qed.
Lemma full_checksum_spec known kr kt st c : full_checksum known (seen_state kr kt st) = Some c -> describes st c.
Proof.
  unfold full_checksum. cbn [seen_state rs_protocol rs_metadata rs_adds rs_removes].
  destruct (rs_protocol st) as [p|] eqn:Ep; [|done]. cbn. destruct (rs_metadata st) as [m|] eqn:Em; [|done]. cbn.
  destruct (negb (known p)); [done|]. destruct (_ || _); [done|].
  destruct (sizes _) as [[f b]|] eqn:Es; [|done]. cbn. intros [= <-]. apply sizes_spec in Es as [-> ->].
  split; cbn; try done. apply map_filter_subseteq.
Qed.
Lemma replay_txns st acts : rs_txns (replay st acts) = merge_txns (rs_txns st) acts.
Proof.
  revert st. induction acts as [|a acts IH]; intros st; [done|]. cbn. unfold replay in IH. rewrite IH. unfold merge_txns. f_equal. by destruct st, a.
Qed.
Lemma replay_domains st acts : rs_domains (replay st acts) = merge_domains (rs_domains st) acts.
Proof.
  revert st. induction acts as [|a acts IH]; intros st; [done|]. cbn. unfold replay in IH. rewrite IH. unfold merge_domains. f_equal. by destruct st, a.
Qed.
Lemma merge_txns_mono acts : forall t t', t ⊆ t' -> merge_txns t acts ⊆ merge_txns t' acts.
Proof.
  induction acts as [|a acts IH]; intros t t' H; [done|]. cbn. apply IH. destruct a; try done. by apply insert_mono.
Qed.
Lemma effective_spec st acts p m : effective (rs_protocol st) (rs_metadata st) acts = Some (p, m) ->
  rs_protocol (replay st acts) = Some p /\ rs_metadata (replay st acts) = Some m.
Proof.
  unfold effective. rewrite replay_protocol_last, replay_metadata_last.
  destruct (or_else (last_protocol acts) _); [|done]. cbn. destruct (or_else (last_metadata acts) _); [|done]. cbn. by intros [= -> ->].
Qed.

Lemma incremental_checksum_spec known v acts base prev kr kt c :
  exact_commit base acts -> (v = 0 -> base = rs_empty) -> (forall c', prev = Some c' -> describes base c') ->
  incremental_checksum known v acts base prev (seen_state kr kt (replay base acts)) = Some c -> describes (replay base acts) c.
Proof.
  intros He H0 Hprev. unfold incremental_checksum.
  destruct (effective _ _ _) as [[p m]|] eqn:Ee; [|done]. apply effective_spec in Ee as [Hp Hm].
  destruct (negb (known p)); [done|]. destruct (has_dv acts); [done|].
  destruct (commit_change 0 0 acts) as [df db| |] eqn:Ec; [|by apply full_checksum_spec|done].
  destruct (commit_change_spec _ _ _ _ _ _ He Ec) as [Hf Hb].
  destruct (v =? 0) eqn:Ev.
  - rewrite (H0 ltac:(lia)) in *. intros [= <-]. change (length (live_files rs_empty)) with 0%nat in Hf. change (total_size (live_files rs_empty)) with 0 in Hb.
    split; cbn [cs_files cs_bytes cs_domains cs_protocol cs_metadata cs_txns]; [lia|lia| |done|done|].
    + by rewrite replay_domains.
    + by rewrite replay_txns.
  - destruct prev as [c'|]; [|by apply full_checksum_spec]. destruct (Hprev _ eq_refl) as [d1 d2 d3 d4 d5 d6].
    destruct (checked (cs_files c' + df)) as [f|] eqn:Ef; [|intros Hx; inversion Hx]. cbn [mbind option_bind].
    destruct (checked (cs_bytes c' + db)) as [b|] eqn:Eb; [|intros Hx; inversion Hx]. cbn [mbind option_bind].
    intros [= <-]. apply checked_eq in Ef as ->. apply checked_eq in Eb as ->.
    split; cbn [cs_files cs_bytes cs_domains cs_protocol cs_metadata cs_txns]; [lia|lia| |done|done|].
    + by rewrite replay_domains, d3.
    + rewrite replay_txns. by apply merge_txns_mono.
Qed.

Theorem checksums_describe known ops v c :
  exact_history (cl_hist (clog_run known ops)) -> cl_crcs (clog_run known ops) !! v = Some c ->
  exists f, commit_at (cl_hist (clog_run known ops)) v = Some f /\ describes (table_at (cl_hist (clog_run known ops)) v) c.
Proof.
  revert v c. induction ops as [|op ops IH] using rev_ind; intros v c He Hc; [done|].
  unfold clog_run in *. rewrite foldl_app in *. cbn [foldl] in *.
  destruct (foldl (clog_step known) clog_empty ops) as [h crcs] eqn:El. cbn [cl_hist cl_crcs] in IH.
  destruct op as [f|w kr kt|w]; cbn [clog_step] in *.
  - cbn [cl_hist cl_crcs] in *. destruct (IH v c) as (g & Hg & Hd); [|done|].
    + intros u g Hg. pose proof (commit_at_Some _ _ _ Hg). specialize (He u g (commit_at_mono _ _ _ _ Hg)). by rewrite table_at_app in He by lia.
    + exists g. split; [by apply commit_at_mono|]. rewrite table_at_app; [done|]. apply commit_at_Some in Hg. lia.
  - destruct (commit_at h w) as [f|] eqn:Ef; [|by apply IH]. destruct (crcs !! w) as [c0|] eqn:Ec0; [by apply IH|].
    destruct (incremental_checksum _ _ _ _ _ _) as [c1|] eqn:Ei; [|by apply IH]. cbn [cl_hist cl_crcs] in *.
    destruct (decide (w = v)) as [->|Hne].
    + rewrite lookup_insert in Hc. injection Hc as ->. exists f. split; [done|].
      rewrite (table_at_next _ _ _ Ef) in Ei |- *. eapply incremental_checksum_spec; [by apply He| | |exact Ei].
      * intros ->. done.
      * intros c' Hc'. destruct (IH _ _ He Hc') as (_ & _ & Hd). done.
    + rewrite lookup_insert_ne in Hc by done. by apply IH.
  - cbn [cl_hist cl_crcs] in *. apply lookup_delete_Some in Hc as [_ Hc]. by apply IH.
Qed.
