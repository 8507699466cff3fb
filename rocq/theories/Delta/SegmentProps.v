(** * C21: log segment resolution covers each version exactly once *)
From Coq Require Import NArith ZArith ZifyN Lia String.
From stdpp Require Import prelude list gmap strings.
From Verif.Lib Require Import Text.
From Verif.Delta Require Import ActionModel LogModel ReplaySpec ReplayProofs CompactSpec
  SegmentSpec SegmentProofs LoadProofs LogStepModel LogStepSpec LogStepProofs LoadTheorems ReplayProps.
Local Open Scope Z_scope.

(** Whatever the files of the directory and the commits of the catalog are: a choice
    of files that is accepted consists of files that are there and stands for every
    version after the checkpoint exactly once. *)
Lemma resolve_covers h catalog files target sg :
  good_compactions files -> resolve_full h catalog files target = Some sg ->
  sg_target sg = target /\ from_log catalog files sg /\
  covers_once (versions_of sg) (segment_start (sg_checkpoint sg)) target.
Proof.
  intros Hg H. destruct (resolve_full_sound _ _ _ _ _ Hg H) as (Ht & _ & Hf & Hp & _).
  split; [done|]. split; [done|]. by apply covers_once_perm.
Qed.
Theorem C21_choice_covers_each_version_once :
  forall h catalog files target sg,
    good_compactions files -> resolve_full h catalog files target = Some sg ->
    sg_target sg = target /\ from_log catalog files sg /\
    covers_once (versions_of sg) (segment_start (sg_checkpoint sg)) target.
Proof. exact resolve_covers. Qed.
Print Assumptions C21_choice_covers_each_version_once.

(** It is accepted whenever the files needed are there, whatever else is: extra
    commits, checkpoints, overlapping compacted files. *)
Theorem C21_complete_log_is_accepted :
  forall h catalog files c target,
    good_compactions files -> readable_from files c target -> hint_upto files h c ->
    exists sg, resolve_full h catalog files target = Some sg /\ c < segment_start (sg_checkpoint sg).
Proof. exact resolve_full_readable. Qed.
Print Assumptions C21_complete_log_is_accepted.

(** What is then read are the rows of exactly these files, in the order of the versions
    they stand for.  Full statement: without [starts_after_checkpoint]; false, see
    below. *)
Lemma load_reads h catalog files v sg st ts :
  good_compactions files -> 0 <= v -> resolve_full h catalog files v = Some sg ->
  sg_compactions sg = [] \/ starts_after_checkpoint sg ->
  load_segment sg = Some (st, ts) ->
  exists acts, reads_in_order sg acts /\ st = replay rs_empty acts.
Proof.
  intros Hg Hv Hr Hs Hl. eapply load_segment_reads; [|exact Hs|exact Hl].
  eapply resolve_full_complete_segment; [exact Hg| |exact Hr]. lia.
Qed.
Theorem C21_load_reads_each_version_once_partial :
  forall h catalog files v sg st ts,
    good_compactions files -> 0 <= v -> resolve_full h catalog files v = Some sg ->
    sg_compactions sg = [] \/ starts_after_checkpoint sg ->
    load_segment sg = Some (st, ts) ->
    exists acts, reads_in_order sg acts /\ st = replay rs_empty acts.
Proof. exact load_reads. Qed.
Print Assumptions C21_load_reads_each_version_once_partial.

(** With a checkpoint every 5 commits and a compaction every 3: reading version 9 uses
    the checkpoint 5, the compacted file of versions 6 to 8 and the commit 9, but the
    compacted file is skipped. *)
Definition skip_ops : list lop :=
  [ LCommit [AProtocol ex_proto; AMetadata ex_meta; AAdd (ex_file 0)] 0;
    LCommit [AAdd (ex_file 1)] 1; LCommit [AAdd (ex_file 2)] 2; LCompact 0 2 (-100) (str "a") 2;
    LCommit [AAdd (ex_file 3)] 3; LCommit [AAdd (ex_file 4)] 4; LCommit [AAdd (ex_file 5)] 5;
    LCheckpoint 5 5 false (str "b") 5 true; LCompact 3 5 (-100) (str "c") 5;
    LCommit [AAdd (ex_file 6)] 6; LCommit [AAdd (ex_file 7)] 7; LCommit [AAdd (ex_file 8)] 8;
    LCompact 6 8 (-100) (str "d") 8; LCommit [AAdd (ex_file 9)] 9 ].
Theorem C21_compacted_range_skipped_refuted :
  exists ops v st ts k a, let lg := log_run ops in
    checkpoint_due 5 5 = true /\ Forall (fun v => compaction_due v 3 = true) [2; 5; 8] /\
    load_state (lg_hint lg) [] (lg_files lg) v = Some (st, ts) /\
    live_file (acts_between (history ops) 0 v) k = Some a /\ rs_adds st !! k = None.
Proof.
  exists skip_ops, 9. eexists _, _, ([7%N], None), (ex_file 7). split; [done|]. split; [repeat constructor|].
  split; [vm_compute; reflexivity|]. split; vm_compute; reflexivity.
Qed.
Print Assumptions C21_compacted_range_skipped_refuted.

Lemma some_kind files k :
  existsb (fun f => bool_decide (lf_kind f = k)) files = true -> exists f, f ∈ files /\ lf_kind f = k.
Proof.
  intros (f & Hin & Hk)%existsb_exists. exists f. split; [by apply elem_of_list_In|]. by apply bool_decide_eq_true in Hk.
Qed.
(** The hypotheses of the first three theorems, on that log before the last commit:
    overlapping choices exist and the checkpoint is followed by a compacted file. *)
Example C21_example :
  let lg := log_run skip_ops in
  good_compactions (lg_files lg) /\ readable_from (lg_files lg) 5 8 /\ hint_upto (lg_files lg) (lg_hint lg) 5 /\
  exists sg, resolve_full (lg_hint lg) [] (lg_files lg) 8 = Some sg /\ starts_after_checkpoint sg /\
    (fst <$> sg_compactions sg) = [(6, 8)] /\ (fst <$> sg_checkpoint sg) = Some 5 /\ load_segment sg <> None.
Proof.
  split; [apply log_good_compactions|]. split; [|split].
  - split_and!; [lia|lia| |].
    + right. split; [lia|]. apply some_kind. vm_compute. reflexivity.
    + intros w Hw. apply some_kind. assert (w = 6 \/ w = 7 \/ w = 8) as [->|[->| ->]] by lia; vm_compute; reflexivity.
  - vm_compute. split; [split; congruence|]. intros loc H. discriminate.
  - eexists. split; [vm_compute; reflexivity|]. split; [right; by left|]. split; [done|]. split; [done|]. vm_compute. congruence.
Qed.
