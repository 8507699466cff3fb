(** * C24: reading as of a timestamp *)
From Coq Require Import NArith ZArith ZifyN Lia String.
From stdpp Require Import prelude list gmap strings.
From Verif.Lib Require Import Text.
From Verif.Delta Require Import ActionModel LogModel CommitModel CommitSpec CommitProofs CommitTheorems CommitTimes CommitProps
  TravelModel TravelSpec TravelProofs.
Local Open Scope Z_scope.

(** If every version's timestamp can be read, the newest version at or before the timestamp
    is found, and none exactly when all are later.  Timestamps must increase; where
    in-commit timestamps were switched on at version [ev], those before and those since may
    be unrelated (file times before, in-commit timestamps since). *)
Theorem C24_newest_version_at_timestamp :
  forall enablement time (t : Z -> Z) latest ts,
    0 <= latest -> (forall v, 0 <= v <= latest -> time v = Some (t v)) ->
    match enablement with
    | None => increasing_between t 0 latest
    | Some (ev, et) => 0 <= ev <= latest /\ t ev = et /\ increasing_between t ev latest /\ increasing_between t 0 (ev - 1)
    end ->
    right_answer t latest ts (find_version enablement time latest ts).
Proof. exact find_version_spec. Qed.
Print Assumptions C24_newest_version_at_timestamp.
Example C24_switched_on :
  let t v := nth (Z.to_nat v) [100; 200; 900; 300; 301; 305] 0 in
  let find := find_version (Some (3, 300)) (fun v => if (0 <=? v) && (v <=? 5) then Some (t v) else None) 5 in
  (find 99, find 100, find 250, find 299, find 300, find 304, find 1000)
  = (FMissing, FVersion 0, FVersion 1, FVersion 1, FVersion 3, FVersion 4, FVersion 5).
Proof. by vm_compute. Qed.

(** Together with C23: on every table made by any interleaving of writers with arbitrary
    clocks, if in-commit timestamps were on from the start, no log was cleaned or read from
    compacted files, reading as of a timestamp gives the right version. *)
Theorem C24_on_tables_with_in_commit_timestamps :
  forall ops latest p m cached crcs ts (t : Z -> Z),
    never_cleaned ops -> no_compacted_times ops -> commit_info_first ops ->
    latest = Z.of_nat (length (hist ops)) - 1 -> 0 <= latest ->
    (forall v, 0 <= v <= latest -> ict_on (hist ops) v) ->
    (forall v m', 0 <= v <= latest -> rs_metadata (table_at (hist ops) v) = Some m' -> md_ict_version m' = None) ->
    rs_protocol (table_at (hist ops) latest) = Some p -> rs_metadata (table_at (hist ops) latest) = Some m ->
    (forall v f, commit_at (hist ops) v = Some f -> ict_of (cf_acts f) = Some (t v)) ->
    (forall v x, cached !! v = Some x -> x = t v) -> (forall v x, crcs !! v = Some (Some x) -> x = t v) ->
    right_answer t latest ts (travel p m cached crcs (st_files (store_of ops)) latest ts).
Proof. exact travel_on_runs. Qed.
Print Assumptions C24_on_tables_with_in_commit_timestamps.
Definition xtravel : list sop :=
  SCreate 0 (xcreate true) :: xsteps 0 1000 3 ++ SStart 1 (xappend "a") 0 TReplayed :: xsteps 1 10 3
    ++ SStart 2 (xappend "b") 1 TReplayed :: xsteps 2 2000 3.
Example C24_on_run :
  (fun f => ict_of (cf_acts f)) <$> hist xtravel = [Some 1000; Some 1001; Some 2000] /\
  travel (xproto true) (xmeta true) ∅ ∅ (st_files (store_of xtravel)) 2 1999 = FVersion 1 /\
  travel (xproto true) (xmeta true) ∅ ∅ (st_files (store_of xtravel)) 2 999 = FMissing.
Proof. by vm_compute. Qed.

(** The commit that switches in-commit timestamps on records its own version and timestamp in the
    metadata it writes: what the search above starts from. *)
Theorem C24_switching_on_is_recorded : forall ops,
  timely_cleanup ops -> no_compacted_times ops -> commit_info_first ops ->
  forall v f m, 0 < v < Z.of_nat (length (hist ops)) ->
    ict_on (hist ops) v -> ~ ict_on (hist ops) (v - 1) ->
    commit_at (hist ops) v = Some f -> one_metadata (cf_acts f) m ->
    rs_metadata (table_at (hist ops) v) = Some m /\ md_ict_version m = Some v /\ md_ict_time m = ict_of (cf_acts f).
Proof. exact enablement_recorded. Qed.
Print Assumptions C24_switching_on_is_recorded.
(** So on every table where in-commit timestamps were switched on at version [e], reading as of a
    timestamp gives the right version, as long as the times of the files before [e] increase and the
    metadata is not replaced since. *)
Theorem C24_on_tables_switched_on : forall ops latest e p m cached crcs ts (t : Z -> Z) f me,
  never_cleaned ops -> no_compacted_times ops -> commit_info_first ops ->
  latest = Z.of_nat (length (hist ops)) - 1 -> 0 < e <= latest ->
  (forall v, 0 <= v < e -> ~ ict_on (hist ops) v) -> (forall v, e <= v <= latest -> ict_on (hist ops) v) ->
  commit_at (hist ops) e = Some f -> one_metadata (cf_acts f) me ->
  (forall v, e <= v <= latest -> rs_metadata (table_at (hist ops) v) = rs_metadata (table_at (hist ops) e)) ->
  rs_protocol (table_at (hist ops) latest) = Some p -> rs_metadata (table_at (hist ops) latest) = Some m ->
  (forall v, 0 <= v <= latest -> version_time (hist ops) v = Some (t v)) ->
  increasing_between t 0 (e - 1) ->
  (forall v x, cached !! v = Some x -> x = t v) -> (forall v x, crcs !! v = Some (Some x) -> x = t v) ->
  right_answer t latest ts (travel p m cached crcs (st_files (store_of ops)) latest ts).
Proof. exact travel_switched_on. Qed.
Print Assumptions C24_on_tables_switched_on.
(** Created without, an append, switched on at version 2 by a writer whose clock is behind, an
    append. *)
Definition xswitch : txn_req :=
  TReq (commit_data true [AProtocol (xproto true); AMetadata (xmeta true)] [] 4) false true 3.
Definition xswitched : list sop :=
  SCreate 0 (xcreate false) :: xsteps 0 1000 3 ++ SStart 1 (xappend "a") 0 TReplayed :: xsteps 1 1100 3
    ++ SStart 2 xswitch 1 TReplayed :: xsteps 2 500 3 ++ SStart 3 (xappend "b") 2 TReplayed :: xsteps 3 600 3.
Example C24_switched_on_run :
  (fun v => version_time (hist xswitched) v) <$> [0; 1; 2; 3] = [Some 1001; Some 1101; Some 1102; Some 1103] /\
  (rs_metadata (table_at (hist xswitched) 3) ≫= enablement_of) = Some (2, 1102) /\
  ict_on (hist xswitched) 2 /\
  (fun ts => travel (xproto true) (default (xmeta true) (rs_metadata (table_at (hist xswitched) 3))) ∅ ∅
     (st_files (store_of xswitched)) 3 ts) <$> [1000; 1001; 1101; 1102; 5000]
  = [FMissing; FVersion 0; FVersion 1; FVersion 2; FVersion 3].
Proof. split; [by vm_compute|]. split; [by vm_compute|]. split; [eexists _, _; by vm_compute|by vm_compute]. Qed.

(** After log clean-up the search may look at a version that is gone; reading then fails,
    although the version that was asked for (here the newest one, which is not after the
    timestamp) is there. *)
Definition xcleaned : list sop :=
  SCreate 0 (xcreate false) :: xsteps 0 1000 3 ++ SStart 1 (xappend "a") 0 TReplayed :: xsteps 1 1010 3
    ++ SStart 2 (xappend "b") 1 TReplayed :: xsteps 2 1020 3 ++ SStart 3 (xappend "c") 2 TReplayed :: xsteps 3 1030 3
    ++ [SCheckpoint 2; SClean 2].
Theorem C24_fails_after_cleanup_refuted :
  exists ops p m latest ts, timely_cleanup ops /\
    latest = Z.of_nat (length (hist ops)) - 1 /\
    rs_protocol (table_at (hist ops) latest) = Some p /\ rs_metadata (table_at (hist ops) latest) = Some m /\
    (exists sn f, load (store_of ops) latest TReplayed = Some sn /\ commit_at (hist ops) latest = Some f /\ cf_mtime f < ts) /\
    travel p m {[latest := cf_mtime (default (CFile [] 0) (commit_at (hist ops) latest))]} ∅ (st_files (store_of ops)) latest ts = FError.
Proof.
  exists xcleaned, (xproto false), (xmeta false), 3, 5000. split; [apply timely_b_sound; by vm_compute|].
  split; [by vm_compute|]. split; [by vm_compute|]. split; [by vm_compute|]. split; [|by vm_compute].
  eexists _, _. split; [by vm_compute|]. split; [by vm_compute|]. by vm_compute.
Qed.
Print Assumptions C24_fails_after_cleanup_refuted.
