(** * C22: log clean-up never deletes what a reader inside the retention window needs *)
From Coq Require Import NArith ZArith ZifyN Lia String.
From stdpp Require Import prelude list gmap strings.
From Verif.Lib Require Import Text.
From Verif.Delta Require Import ActionModel LogModel ReplaySpec SegmentSpec SegmentProofs LogStepModel LogStepSpec
  CleanupSpec CleanupProofs ReplayProps.
Local Open Scope Z_scope.

(** Clean-up keeps, for each retained version that was readable, a checkpoint at or
    below it and all commits after that; the recorded checkpoint stays usable.
    (Full statement: for every assignment of timestamps; false without
    [monotone_times], see below.) *)
Theorem C22_retained_versions_kept_partial :
  forall time latest cutoff files h c v,
    monotone_times time latest -> retained time latest cutoff v ->
    readable_from files c v -> hint_upto files h c ->
    exists c', c <= c' /\ readable_from (cleanup time latest cutoff files) c' v /\
               hint_upto (cleanup time latest cutoff files) h c'.
Proof. exact cleanup_keeps. Qed.
Print Assumptions C22_retained_versions_kept_partial.

(** Such a version still loads, as the right table, after any part of the clean-up has
    been done. *)
Theorem C22_retained_versions_load_partial :
  forall ops gone time latest cutoff c v,
    let lg := log_run ops in
    (forall f, gone f = true -> f ∉ cleanup time latest cutoff (lg_files lg)) ->
    monotone_times time latest -> retained time latest cutoff v -> 0 <= v ->
    readable_from (lg_files lg) c v -> hint_upto (lg_files lg) (lg_hint lg) c ->
    no_compacted_file (lg_files lg) -> times_recorded ops ->
    table_protocol (acts_between (history ops) 0 v) <> None ->
    table_metadata (acts_between (history ops) 0 v) <> None ->
    exists st ts, load_state (lg_hint lg) [] (filter (fun f => gone f = false) (lg_files lg)) v = Some (st, ts) /\
      is_table_upto (cuts_used ops) (acts_between (history ops) 0 v) st.
Proof. exact cleanup_then_load. Qed.
Print Assumptions C22_retained_versions_load_partial.

(** What is deleted lies wholly before a checkpoint that is kept and that is not younger than a
    commit which has passed the cut-off; in particular a compacted file that reaches a kept
    version is kept. *)
Theorem C22_only_older_files_deleted :
  forall time latest cutoff files f,
    f ∈ files -> f ∉ cleanup time latest cutoff files ->
    exists b g, g ∈ cleanup time latest cutoff files /\ lf_kind g = KCheckpoint b /\ b <= latest /\
      last_version f < b /\
      exists c h, b <= c <= latest /\ h ∈ files /\ lf_kind h = KCommit c /\ time c <= cutoff.
Proof. exact cleanup_deletes_older. Qed.
Print Assumptions C22_only_older_files_deleted.

(** When file times do not follow version order (clocks of writers differ, a directory
    was copied), a version inside the retention window loses its commit. *)
Definition cp_file (v : Z) : lfile := LFile (KCheckpoint v) (str "c") 0 [].
Definition cm_file (v : Z) : lfile := LFile (KCommit v) [] 0 [].
Definition skew_files : list lfile := [cm_file 0; cm_file 1; cm_file 2; cp_file 2].
Definition skew_time (v : Z) : Z := if v =? 1 then 100 else 10.
Theorem C22_skewed_times_refuted :
  exists time latest cutoff files v,
    retained time latest cutoff v /\ readable_from files (-1) v /\
    forall c, ~ readable_from (cleanup time latest cutoff files) c v.
Proof.
  exists skew_time, 2, 50, skew_files, 1. split; [split; [lia|left; vm_compute; done]|]. split.
  - split_and!; [lia|lia|by left|]. intros w Hw. exists (cm_file w).
    assert (w = 0 \/ w = 1) as [->| ->] by lia; (split; [unfold skew_files; set_solver|done]).
  - intros c (Hr & Hc & Hk).
    assert (forall f, f ∈ cleanup skew_time 2 50 skew_files -> f = cm_file 2 \/ f = cp_file 2) as Hf.
    { intros f Hf. vm_compute in Hf. set_solver. }
    destruct (decide (c = 1)) as [->|].
    + destruct Hc as [?|(_ & f & Hin & Hkd)]; [lia|]. apply Hf in Hin as [->| ->]; vm_compute in Hkd; discriminate.
    + destruct (Hk 1) as (f & Hin & Hkd); [lia|]. apply Hf in Hin as [->| ->]; vm_compute in Hkd; discriminate.
Qed.
Print Assumptions C22_skewed_times_refuted.

Example C22_example :
  let files := [cm_file 0; cp_file 0; cm_file 1; cm_file 2; cp_file 2; cm_file 3; cm_file 4] in
  let time v := v * 10 in
  monotone_times time 4 /\ retained time 4 25 3 /\ readable_from files 0 3 /\
  cleanup time 4 25 files = [cm_file 2; cp_file 2; cm_file 3; cm_file 4].
Proof.
  cbn zeta. split; [intros v w ?; lia|]. split; [split; [lia|left; lia]|]. split; [|vm_compute; reflexivity].
  split_and!; [lia|lia|right; split; [lia|exists (cp_file 0); split; [set_solver|done]]|].
  intros w Hw. exists (cm_file w). assert (w = 1 \/ w = 2 \/ w = 3) as [->|[->| ->]] by lia; (split; [set_solver|done]).
Qed.
