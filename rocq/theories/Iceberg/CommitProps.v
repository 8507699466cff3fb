(** C34, C55: concurrent commits to a path-based Iceberg table. *)
From Coq Require Import NArith ZifyN Lia.
From stdpp Require Import prelude list gmap sorting.
From Verif.Lib Require Import ListFacts.
From Verif.Iceberg Require Import SnapshotModel SnapshotSpec SnapshotProofs CommitModel CommitSpec CommitProofs.

(** ** C34: commits are not lost *)
(** On a table with a snapshot, while the version hint can be read and written: after any
    schedule, whoever crashed and whatever else failed, the table is the one to begin
    with, followed by exactly the commits that reported success, one after the other,
    each on a state that met its requirements; and the history only grows.
    Missing: the other cases, which are refuted below. *)
Theorem C34_serial_partial : forall m b w l1 l2,
  healthy m b w -> steps_ok hints_work w (l1 ++ l2) = true -> exists log1 log2,
  serial m (run w l1) log1 /\ serial m (run w (l1 ++ l2)) (log1 ++ log2).
Proof. exact healthy_serial. Qed.
Print Assumptions C34_serial_partial.

(** A table with one snapshot and one file. *)
Definition data (p : nat) : file := File p CData 3 0 None.
Definition append (p : nat) : commit := Commit FastAppend [data p] [] 0 2.
Definition meta1 : meta := apply_commit (empty_meta 2 0 false) 0 (append 100).
Definition on_schema : list requirement := [RSchema 0].
Definition world_of (fs : list (nat * bool * meta)) (hint : option nat) (js : list job) : world :=
  World fs hint 50 [] [] (list_to_map (imap (fun i j => (i, (j, PHint 1))) js)).
Definition table1 (js : list job) : world := world_of [(1, false, meta1)] (Some 1) js.
Definition paths (w : world) : option (list nat) := (fun m => map f_path (flat_map (live_files false) (match current_snapshot m with Some s => [s] | None => [] end))) <$> visible w.
Definition steps (i n : nat) : list (nat * outcome) := repeat (i, OkO) n.

Lemma world_of_writers fs hint js i j ph : w_writers (world_of fs hint js) !! i = Some (j, ph) -> js !! i = Some j /\ ph = PHint 1.
Proof.
  cbn [world_of w_writers]. intros H%elem_of_list_to_map_2. apply elem_of_lookup_imap in H as (n & j' & H & Hn). by injection H as -> -> ->.
Qed.
Lemma table1_healthy js : Forall (fun j => exists c rs gz, j = JCommit c rs gz /\ requirements_hold None rs = false) js -> healthy meta1 1 (table1 js).
Proof.
  intros Hjs. constructor; try done.
  - repeat constructor.
  - repeat constructor.
  - intros i j ph [Hj ->]%world_of_writers. split; [|done]. by eapply Forall_lookup_1 in Hjs.
Qed.
Lemma table1_codec js : Forall (fun j => match j with JCommit _ _ gz | JCreate _ _ _ gz => gz = false end) js ->
  NoDup (100 :: flat_map job_paths js) -> one_codec false (table1 js).
Proof.
  intros Hjs Hn. assert (forall k m, (k, m) ∈ w_files (table1 js) -> k = (1, false) /\ m = meta1) as Hf by (intros k m [= -> ->]%elem_of_list_singleton; done).
  apply NoDup_cons in Hn as [Hn1 Hn2].
  assert (forall i j p, js !! i = Some j -> p ∈ job_paths j -> p ∈ flat_map job_paths js) as Hin.
  { intros i j p Hj Hp. apply elem_of_flat_map. exists j. split; [by eapply elem_of_list_lookup_2|done]. }
  constructor.
  - intros k m [-> ->]%Hf. done.
  - intros k m s [-> ->]%Hf Hs%elem_of_list_singleton. subst s. cbn. lia.
  - done.
  - intros i j ph [Hj ->]%world_of_writers. split; [done|]. by eapply Forall_lookup_1 in Hjs; [|exact Hj].
  - intros i j ph k m p [Hj _]%world_of_writers [-> ->]%Hf Hp Hq. vm_compute in Hq. apply elem_of_list_singleton in Hq. subst p. by eapply Hn1, Hin.
  - intros i i' j j' ph ph' p [Hj _]%world_of_writers [Hj' _]%world_of_writers Hp Hp'. by eapply (flat_nodup_pos job_paths js Hn2).
Qed.

(** Two writers at once: the second finds the version taken and tries again. *)
Definition two : list job := [JCommit (append 1) on_schema false; JCommit (append 2) on_schema false].
Definition race : list (nat * outcome) := steps 0 4 ++ steps 1 4 ++ steps 0 3 ++ steps 1 8.
Example race_case : healthy meta1 1 (table1 two) /\ steps_ok hints_work (table1 two) race = true /\
  phase_of (run (table1 two) race) 0 = Some PDone /\ phase_of (run (table1 two) race) 1 = Some PDone /\
  paths (run (table1 two) race) = Some [100; 1; 2].
Proof. split; [apply table1_healthy; repeat constructor; eexists _, _, _; done|]. by vm_compute. Qed.
(** A write that requires the snapshot it has read fails if there is a new one. *)
Definition two_strict : list job := [JCommit (append 1) on_schema false; JCommit (append 2) [RSnapshot (Some 0)] false].
Example race_strict : healthy meta1 1 (table1 two_strict) /\ steps_ok hints_work (table1 two_strict) race = true /\
  phase_of (run (table1 two_strict) race) 1 = Some PFailed /\ paths (run (table1 two_strict) race) = Some [100; 1].
Proof. split; [apply table1_healthy; repeat constructor; eexists _, _, _; done|]. by vm_compute. Qed.

(** Sequence numbers rise along the history. *)
Theorem C34_sequence_partial : forall m b w l,
  healthy m b w -> steps_ok hints_work w l = true ->
  StronglySorted N.lt (map s_seq (m_snaps m)) -> Forall (fun s => s_seq s <= m_seq m)%N (m_snaps m) ->
  exists m', visible (run w l) = Some m' /\ m_snaps m `prefix_of` m_snaps m' /\ StronglySorted N.lt (map s_seq (m_snaps m')).
Proof. exact healthy_sequence. Qed.
Print Assumptions C34_sequence_partial.

(** What a commit requires of the table is checked. *)
Theorem C34_requirements : forall m rs, requirements_hold m rs = true <-> Forall (meets m) rs.
Proof. exact requirements_spec. Qed.
Print Assumptions C34_requirements.
Example requirements_case : requirements_hold (Some meta1) [RSchema 0; RSnapshot (m_current meta1)] = true /\
  requirements_hold (Some meta1) [RSnapshot None] = false.
Proof. by vm_compute. Qed.

(** A table that has a metadata file is found, whatever the hint says; the file that is read
    is the newest of the hinted version or, without files of that version, of the highest. *)
Theorem C34_latest_file : forall hint fs, fs <> [] -> exists x, find_latest hint fs = Some x.1 /\ counts hint fs x.
Proof. exact find_latest_counts. Qed.
Print Assumptions C34_latest_file.
Example latest_case : find_latest (Some 7) [(1, false, meta1); (2, true, meta1); (2, false, meta1)] = Some (2, false) /\
  find_latest (Some 1) [(1, false, meta1); (2, true, meta1); (2, false, meta1)] = Some (1, false).
Proof. by vm_compute. Qed.

(** *** Where commits are lost *)
(** A version hint that could not be written is only logged, but it decides which version
    is read: the commit reports success and cannot be seen. *)
Theorem C34_hint_write_refuted : exists m b w l i c rs gz,
  healthy m b w /\ w_writers w !! i = Some (JCommit c rs gz, PHint 1) /\ c_data c <> [] /\
  steps_ok writes_reported w l = true /\
  phase_of (run w l) i = Some PDone /\ visible (run w l) = Some m.
Proof.
  exists meta1, 1, (table1 two), (steps 0 6 ++ [(0, ErrO)]), 0, (append 1), on_schema, false.
  split; [apply table1_healthy; repeat constructor; eexists _, _, _; done|]. by vm_compute.
Qed.
Print Assumptions C34_hint_write_refuted.

(** If the hint cannot be read once, a writer goes on from the highest version, and its
    commit is hidden when the writer before it writes its hint. *)
Theorem C34_hint_read_refuted : exists m b w l i j m',
  healthy m b w /\ steps_ok writes_reported w l = true /\
  phase_of (run w l) i = Some PDone /\ phase_of (run w l) j = Some PDone /\ i <> j /\
  visible (run w l) = Some m' /\ length (m_snaps m') = S (length (m_snaps m)).
Proof.
  exists meta1, 1, (table1 two), (steps 0 6 ++ [(1, ErrO)] ++ steps 1 6 ++ steps 0 1), 0, 1. eexists.
  split; [apply table1_healthy; repeat constructor; eexists _, _, _; done|]. by vm_compute.
Qed.
Print Assumptions C34_hint_read_refuted.
Example hint_read_paths : paths (run (table1 two) (steps 0 6 ++ [(1, ErrO)] ++ steps 1 6)) = Some [100; 1; 2] /\
  paths (run (table1 two) (steps 0 6 ++ [(1, ErrO)] ++ steps 1 6 ++ steps 0 1)) = Some [100; 1].
Proof. by vm_compute. Qed.

(** A writer that crashes between its metadata and its hint blocks the table: no later
    commit succeeds, ever. *)
Theorem C34_crash_refuted : exists m b w dead l,
  healthy m b w /\ steps_ok all_work w l = true /\ Forall (fun x => x.1 = dead) l /\
  forall l', Forall (fun x => x.1 <> dead) l' -> steps_ok hints_work (run w l) l' = true ->
  visible (run (run w l) l') = Some m /\ forall i, i <> dead -> phase_of (run (run w l) l') i <> Some PDone.
Proof.
  exists meta1, 1, (table1 two), 0, (steps 0 6).
  split; [apply table1_healthy; repeat constructor; eexists _, _, _; done|]. split; [by vm_compute|]. split; [by repeat constructor|].
  intros l' H1 H2. apply (behind_forever meta1 1 0); [|done|done]. constructor; try done. intros i j ph Hi Hd.
  apply elem_of_map_to_list in Hi. vm_compute in Hi.
  repeat (apply elem_of_cons in Hi as [Hi|Hi]; [injection Hi as -> -> ->|]); [done| |by apply elem_of_nil in Hi].
  split; [|done]. by exists (append 2), on_schema, false.
Qed.
Print Assumptions C34_crash_refuted.
Example crash_blocks : phase_of (run (run (table1 two) (steps 0 6)) (steps 1 100)) 1 = Some PFailed.
Proof. by vm_compute. Qed.
(** The same for every table whose hint is behind. *)
Theorem C34_behind : forall m b dead w l,
  behind m b dead w -> Forall (fun x => x.1 <> dead) l -> steps_ok hints_work w l = true ->
  visible (run w l) = Some m /\ forall i, i <> dead -> phase_of (run w l) i <> Some PDone.
Proof. exact behind_forever. Qed.
Print Assumptions C34_behind.

(** The first commits to a new table overwrite each other, with no failure at all. *)
Theorem C34_first_commits_refuted : exists w l i j m c,
  w_files w = [] /\ steps_ok all_work w l = true /\ i <> j /\
  w_writers w !! i = Some (JCommit c [] false, PHint 1) /\ c_data c <> [] /\
  phase_of (run w l) i = Some PDone /\ phase_of (run w l) j = Some PDone /\
  visible (run w l) = Some m /\ forall f, f ∈ c_data c -> f_path f ∉ meta_paths m.
Proof.
  exists (world_of [] None [JCommit (append 1) [] false; JCommit (append 2) [] false]), (steps 0 2 ++ steps 1 2 ++ steps 0 2 ++ steps 1 2), 0, 1.
  eexists _, (append 1). split; [done|]. split; [by vm_compute|]. split; [done|]. split; [by vm_compute|]. split; [done|].
  split; [by vm_compute|]. split; [by vm_compute|]. split; [by vm_compute|].
  intros f ->%elem_of_list_singleton H. vm_compute in H. apply elem_of_list_singleton in H. discriminate.
Qed.
Print Assumptions C34_first_commits_refuted.

(** So do a CREATE OR REPLACE TABLE and a commit: the snapshot is not even left in the
    history. *)
Theorem C34_replace_refuted : exists m b w l i j m' c rs,
  visible w = Some m /\ w_hint w = Some b /\ steps_ok all_work w l = true /\ i <> j /\
  w_writers w !! i = Some (JCommit c rs false, PHint 1) /\ w_writers w !! j = Some (JCreate true 2 1 false, PHint 1) /\
  phase_of (run w l) i = Some PDone /\ phase_of (run w l) j = Some PDone /\
  visible (run w l) = Some m' /\ length (m_snaps m') = length (m_snaps m) /\ c_data c <> [].
Proof.
  exists meta1, 1, (table1 [JCommit (append 1) on_schema false; JCreate true 2 1 false]), (steps 1 3 ++ steps 0 7 ++ steps 1 2), 0, 1.
  eexists _, (append 1), on_schema. by vm_compute.
Qed.
Print Assumptions C34_replace_refuted.

(** A listing that fails counts as an empty one: a write planned when there was no table
    yet overwrites the one that is there now. *)
Theorem C34_list_refuted : exists m b w l i m' c,
  visible w = Some m /\ w_hint w = Some b /\ current_snapshot m <> None /\ steps_ok hints_work w l = true /\
  w_writers w !! i = Some (JCommit c [] false, PHint 1) /\ c_kind c = FastAppend /\
  phase_of (run w l) i = Some PDone /\ visible (run w l) = Some m' /\ forall p, p ∈ meta_paths m -> p ∉ meta_paths m'.
Proof.
  exists meta1, 1, (table1 [JCommit (append 1) [] false]), ([(0, OkO); (0, ErrO)] ++ steps 0 2), 0. eexists _, (append 1).
  do 8 (split; [by vm_compute|]). intros p Hp H. vm_compute in Hp, H. apply elem_of_list_singleton in Hp, H. congruence.
Qed.
Print Assumptions C34_list_refuted.

(** ** C55: failed commits leave no dangling references *)
(** With one codec, and if requests that write metadata report what they did: after any
    schedule of commits, table creations and replacements, with any failures of other
    requests, no metadata file refers to a snapshot or a file that was removed. *)
Theorem C55_intact_partial : forall g w l,
  one_codec g w -> steps_ok writes_reported w l = true ->
  forall k m, (k, m) ∈ w_files (run w l) -> intact (run w l) m.
Proof. exact references_intact. Qed.
Print Assumptions C55_intact_partial.
Definition mixed : list job := [JCommit (append 1) on_schema false; JCommit (append 2) on_schema false; JCreate true 2 1 false].
Definition mixed_run : list (nat * outcome) := steps 0 4 ++ steps 1 4 ++ steps 0 3 ++ steps 2 3 ++ [(1, ErrO)] ++ steps 2 2.
Example mixed_case : one_codec false (table1 mixed) /\ steps_ok writes_reported (table1 mixed) mixed_run = true /\
  w_gone (run (table1 mixed) mixed_run) = [51] /\ w_gone_paths (run (table1 mixed) mixed_run) = [2] /\ length (w_files (run (table1 mixed) mixed_run)) = 3.
Proof.
  split; [apply table1_codec; [by repeat constructor|by apply (bool_decide_unpack _)]|]. by vm_compute.
Qed.

(** After its metadata file is written a commit looks for another file of the same version.
    It goes on only if there is none; otherwise it takes its own file, and only that, back. *)
Theorem C55_taken_back : forall w i j a v g sid,
  w_writers w !! i = Some (j, PVerify a v g sid) ->
  let w' := step w (i, OkO) in
  (phase_of w' i = Some (PHintWrite v) /\ w_files w' = w_files w /\
     forall x, x ∈ w_files w' -> x.1.1 = v -> x.1.2 = g) \/
  (phase_of w' i <> Some (PHintWrite v) /\ (forall x, x ∈ w_files w' <-> x ∈ w_files w /\ x.1 <> (v, g)) /\
     sid ∈ w_gone w' /\ exists x, x ∈ w_files w /\ x.1.1 = v /\ x.1.2 <> g).
Proof. exact taken_back. Qed.
Print Assumptions C55_taken_back.

(** If the request that writes the first version takes effect but reports an error, the
    table is there and its manifest list and data are not. *)
Theorem C55_lost_response_refuted : exists w l m i,
  one_codec false w /\ phase_of (run w l) i = Some PFailed /\ visible (run w l) = Some m /\
  current_snapshot m <> None /\ ~ intact (run w l) m.
Proof.
  exists (world_of [] None [JCommit (append 1) [] false]), (steps 0 2 ++ [(0, LostO)]). eexists _, 0.
  split; [|do 3 (split; [by vm_compute|])].
  - constructor; try done; try (by intros ? ? ?%elem_of_nil); try (by intros ? ? ? ?%elem_of_nil).
    + intros i j ph [Hj ->]%world_of_writers. split; [done|]. destruct i as [|i]; [|done]. by injection Hj as <-.
    + intros i j ph k m p _ Hk. by apply elem_of_nil in Hk.
    + intros i i' j j' ph ph' p [Hj _]%world_of_writers [Hj' _]%world_of_writers _ _. destruct i, i'; done.
  - intros [H _]. apply (H 50); vm_compute; left.
Qed.
Print Assumptions C55_lost_response_refuted.

(** So it is with a later version if the client repeats the request, is told that the
    file exists, and the hint is missing: the second attempt builds on the version whose
    manifests were just removed. *)
Theorem C55_echo_refuted : exists m0 w l m i,
  visible w = Some m0 /\ intact w m0 /\ current_snapshot m0 <> None /\
  phase_of (run w l) i = Some PDone /\ visible (run w l) = Some m /\ ~ intact (run w l) m.
Proof.
  exists meta1, (world_of [(1, false, meta1)] None [JCommit (append 1) on_schema false]), (steps 0 4 ++ [(0, EchoO)] ++ steps 0 7). eexists _, 0.
  split; [done|]. split; [split; intros ? _; apply not_elem_of_nil|]. do 3 (split; [by vm_compute|]).
  intros [H _]. apply (H 50); vm_compute; [right; left|left].
Qed.
Print Assumptions C55_echo_refuted.

(** With two codecs no failure is needed.  A commit finds that a CREATE OR REPLACE has
    written the same version with the other codec and takes its own back; another writer
    has read it already. *)
Theorem C55_codec_refuted : exists m0 w l m i,
  healthy m0 1 (World (w_files w) (w_hint w) (w_sid w) [] [] ∅) /\ intact w m0 /\ steps_ok all_work w l = true /\
  phase_of (run w l) i = Some PDone /\ visible (run w l) = Some m /\ ~ intact (run w l) m.
Proof.
  exists meta1, (table1 [JCommit (append 1) on_schema false; JCreate true 2 0 true; JCommit (append 2) on_schema false]),
    (steps 0 4 ++ steps 1 4 ++ steps 0 1 ++ steps 1 1 ++ steps 2 3 ++ steps 0 1 ++ steps 2 4). eexists _, 2.
  split; [constructor; try done; [repeat constructor|repeat constructor]|]. split; [split; intros ? _; apply not_elem_of_nil|].
  do 3 (split; [by vm_compute|]). intros [H _]. apply (H 50); vm_compute; [right; left|left].
Qed.
Print Assumptions C55_codec_refuted.
