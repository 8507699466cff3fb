(** Compacted files against the commits they replace. *)
From Coq Require Import NArith ZArith ZifyN Lia.
From stdpp Require Import prelude list gmap.
From Verif.Lib Require Import Text.
From Verif.Delta Require Import ActionModel ReplaySpec ReplayProofs CompactSpec.
Local Open Scope Z_scope.

(** The compacted rows of [acts], replayed over any base. *)
Lemma compacted_replay base acts min_ts :
  let st := replay rs_empty acts in
  let s := replay base (compacted_rows min_ts st) in
  rs_protocol s = rs_protocol (replay base acts) /\
  rs_metadata s = rs_metadata (replay base acts) /\
  (forall a, rs_txns s !! a = rs_txns (replay base acts) !! a) /\
  (forall n, rs_domains s !! n = match live_domain acts n with Some d => Some d | None => rs_domains base !! n end) /\
  (forall k, rs_adds s !! k =
     match live_file acts k with
     | Some x => Some x
     | None => match tombstone acts k with
               | Some r => if keep_compacted min_ts r then None else rs_adds base !! k
               | None => rs_adds base !! k
               end
     end).
Proof.
  intros st s.
  assert (rs_ok st) as Hok by (apply rs_ok_replay, rs_ok_empty).
  destruct (rows_match_replay _ _ base (compacted_state_ok min_ts st Hok) (compacted_rows_match min_ts st Hok))
    as (H1 & H2 & H3 & H4 & H5 & _).
  destruct (replay_is_table acts) as (T1 & T2 & T3 & T4 & T5 & T6). fold st in T1, T2, T3, T4, T5, T6.
  split_and!.
  - unfold s. rewrite H1, replay_protocol. cbn. by rewrite T1.
  - unfold s. rewrite H2, replay_metadata. cbn. by rewrite T2.
  - intros a. unfold s. rewrite H3, replay_txns. cbn [rs_txns compacted_state]. by rewrite T6.
  - intros n. unfold s. rewrite H4. cbn [rs_domains compacted_state]. by rewrite T5.
  - intros k. unfold s. rewrite H5. unfold file_state. cbn [rs_adds rs_removes compacted_state]. rewrite T3.
    destruct (live_file acts k) as [x|]; [done|].
    destruct (tombstone acts k) as [r|] eqn:Et.
    + destruct (keep_compacted min_ts r) eqn:Ek.
      * assert (filter (fun kr : fkey * remove => keep_compacted min_ts kr.2 = true) (rs_removes st) !! k = Some r) as ->;
          [|done]. apply map_filter_lookup_Some. split; [by rewrite T4|done].
      * assert (filter (fun kr : fkey * remove => keep_compacted min_ts kr.2 = true) (rs_removes st) !! k = None) as ->;
          [|done]. apply map_filter_lookup_None. right. intros r' Hr'. rewrite T4, Et in Hr'.
        injection Hr' as <-. cbn. congruence.
    + assert (filter (fun kr : fkey * remove => keep_compacted min_ts kr.2 = true) (rs_removes st) !! k = None) as ->;
        [|done]. apply map_filter_lookup_None. left. by rewrite T4.
Qed.

Lemma live_file_split acts k :
  last (omap (file_event k) acts) =
    match live_file acts k with Some x => Some (inl x) | None => inr <$> tombstone acts k end.
Proof. unfold live_file, tombstone. by destruct (last _) as [[]|]. Qed.

Lemma live_no_tombstone acts k a : live_file acts k = Some a -> tombstone acts k = None.
Proof. unfold live_file, tombstone. by destruct (last _) as [[]|]. Qed.

(** The precise condition. *)
Lemma compacted_iff before acts min_ts :
  same_table (replay (replay rs_empty before) (compacted_rows min_ts (replay rs_empty acts)))
             (replay rs_empty (before ++ acts)) <->
  (forall k, ~ drops_removal before acts min_ts k) /\ (forall n, ~ drops_domain before acts n).
Proof.
  rewrite replay_app. set (base := replay rs_empty before).
  destruct (compacted_replay base acts min_ts) as (H1 & H2 & H3 & H4 & H5).
  destruct (replay_is_table before) as (T1 & T2 & T3 & T4 & T5 & T6). fold base in T1, T2, T3, T4, T5, T6.
  set (s := replay base (compacted_rows min_ts (replay rs_empty acts))) in *.
  split.
  - intros (_ & _ & Ea & Ed & _). split.
    + intros k (a & r & ts & Ha & Hr & Hts & Hlt).
      assert (rs_adds s !! k = rs_adds (replay base acts) !! k) as E by by rewrite Ea.
      rewrite H5, replay_adds, live_file_split, Hr, T3, Ha in E.
      destruct (live_file acts k) eqn:El; [by rewrite (live_no_tombstone _ _ _ El) in Hr|].
      unfold keep_compacted in E. rewrite Hts in E. destruct (min_ts <=? ts) eqn:E'; [lia|done].
    + intros n (d & d' & Hd & Hl & Hrm).
      assert (rs_domains s !! n = rs_domains (replay base acts) !! n) as E by by rewrite Ed.
      rewrite H4, replay_domains, Hl, Hrm, T5, Hd in E. unfold live_domain in E. by rewrite Hl, Hrm in E.
  - intros [Ha Hd]. split_and!; [done|done|..|apply map_eq; auto]; apply map_eq.
    + intros k. rewrite H5, replay_adds, live_file_split, T3.
      destruct (live_file acts k) as [x|]; [done|].
      destruct (tombstone acts k) as [r|] eqn:Et; [|done]. cbn. unfold keep_compacted.
      destruct (rm_ts r) as [ts|] eqn:Ets; [|done]. destruct (min_ts <=? ts) eqn:E; [done|].
      destruct (live_file before k) as [a|] eqn:El; [|done].
      exfalso. apply (Ha k). exists a, r, ts. split_and!; [done..|lia].
    + intros n. rewrite H4, replay_domains, T5. unfold live_domain at 1.
      destruct (last (omap (domain_event n) acts)) as [d|] eqn:El; [|done].
      destruct (dom_removed d) eqn:Er; [|done].
      destruct (live_domain before n) as [d0|] eqn:Eb; [|done]. exfalso. apply (Hd n). exists d0, d. done.
Qed.

(** Always: protocol, metadata and transactions; no live file or domain is lost; those
    that appear are exactly the dropped removals. *)
Lemma compacted_always before acts min_ts :
  let s := replay (replay rs_empty before) (compacted_rows min_ts (replay rs_empty acts)) in
  rs_protocol s = table_protocol (before ++ acts) /\ rs_metadata s = table_metadata (before ++ acts) /\
  (forall a, rs_txns s !! a = live_txn (before ++ acts) a) /\
  (forall k a, live_file (before ++ acts) k = Some a -> rs_adds s !! k = Some a) /\
  (forall k a, rs_adds s !! k = Some a -> live_file (before ++ acts) k = Some a \/ drops_removal before acts min_ts k) /\
  (forall n d, live_domain (before ++ acts) n = Some d -> rs_domains s !! n = Some d) /\
  (forall n d, rs_domains s !! n = Some d -> live_domain (before ++ acts) n = Some d \/ drops_domain before acts n).
Proof.
  intros s. set (base := replay rs_empty before).
  destruct (compacted_replay base acts min_ts) as (H1 & H2 & H3 & H4 & H5). fold base in s. fold s in H1, H2, H3, H4, H5.
  destruct (replay_is_table before) as (T1 & T2 & T3 & T4 & T5 & T6). fold base in T1, T2, T3, T4, T5, T6.
  destruct (replay_is_table (before ++ acts)) as (U1 & U2 & U3 & U4 & U5 & U6).
  rewrite replay_app in U1, U2, U3, U4, U5, U6. fold base in U1, U2, U3, U4, U5, U6.
  assert (forall k, rs_adds s !! k = live_file (before ++ acts) k \/
            rs_adds s !! k = live_file before k /\ live_file (before ++ acts) k = None /\
            forall a, live_file before k = Some a -> drops_removal before acts min_ts k) as HA.
  { intros k. rewrite H5, <- U3, replay_adds, live_file_split, T3.
    destruct (live_file acts k) as [x|]; [by left|].
    destruct (tombstone acts k) as [r|] eqn:Et; [|by left]. cbn. unfold keep_compacted.
    destruct (rm_ts r) as [ts|] eqn:Ets; [|by left]. destruct (min_ts <=? ts) eqn:E; [by left|].
    right. split_and!; [done..|]. intros a Ha. exists a, r, ts. split_and!; [done..|lia]. }
  assert (forall n, rs_domains s !! n = live_domain (before ++ acts) n \/
            rs_domains s !! n = live_domain before n /\ live_domain (before ++ acts) n = None /\
            forall d, live_domain before n = Some d -> drops_domain before acts n) as HD.
  { intros n. rewrite H4, <- U5, replay_domains, T5. unfold live_domain at 1 4.
    destruct (last (omap (domain_event n) acts)) as [d|] eqn:El; [|by left].
    destruct (dom_removed d) eqn:Er; [|by left]. right. split_and!; [done..|]. intros d0 Hd0. by exists d0, d. }
  split_and!.
  - by rewrite H1.
  - by rewrite H2.
  - intros a. by rewrite H3.
  - intros k a Ha. destruct (HA k) as [->|(_ & He & _)]; [done|congruence].
  - intros k a Ha. destruct (HA k) as [He|(He & _ & Hd)]; rewrite He in Ha; eauto.
  - intros n d Hd. destruct (HD n) as [->|(_ & He & _)]; [done|congruence].
  - intros n d Hd. destruct (HD n) as [He|(He & _ & Hdd)]; rewrite He in Hd; eauto.
Qed.

(** What the file written by compaction holds: the commits of the range, read back. *)
