(** C35: snapshots of an Iceberg table. *)
From Coq Require Import NArith ZifyN Lia.
From stdpp Require Import prelude list sorting.
From Verif.Iceberg Require Import SnapshotModel SnapshotSpec SnapshotProofs.
Local Open Scope N_scope.

(** ** What a commit does to the files *)
(** A commit adds one snapshot, with the next sequence number, the files of the commit
    and, unless it overwrites the table, all that were live. *)
Theorem C35_files : forall m id c, id ∉ map s_id (m_snaps m) -> exists s,
  current_snapshot (apply_commit m id c) = Some s /\
  m_snaps (apply_commit m id c) = m_snaps m ++ [s] /\
  s_id s = id /\ s_parent s = s_id <$> current_snapshot m /\ s_seq s = m_seq m + 1 /\
  live_files false s ≡ₚ files_after false (current_snapshot m) c ++ c_data c /\
  live_files true s ≡ₚ files_after true (current_snapshot m) c ++ c_deletes c.
Proof. exact commit_files. Qed.
Print Assumptions C35_files.

(** A table created at format 2, with files of two specs, deletes, an upgrade to
    format 3, an overwrite, a CREATE OR REPLACE and an append. *)
Definition data (p : nat) (rows : N) (spec : nat) : file := File p CData rows spec None.
Definition delete (p : nat) (c : content) (rows : N) : file := File p c rows 0 None.
Definition story : list change :=
  [ChCommit 1 (Commit FastAppend [data 10 5 1; data 11 7 0; data 12 2 1] [] 0 2);
   ChCommit 2 (Commit RowDelta [data 13 4 0] [delete 20 CPosition 3; delete 21 CEquality 1] 0 2);
   ChCommit 3 (Commit FastAppend [data 14 6 0] [] 1 3);
   ChCommit 4 (Commit RowDelta [] [delete 22 CPosition 2] 1 3)].
Definition story2 : list change :=
  story ++ [ChCommit 5 (Commit FullOverwrite [data 15 8 0] [] 1 3); ChReplace 3 2 false; ChCommit 6 (Commit FastAppend [data 16 9 0] [] 2 3)].
Definition created_story : meta := history (empty_meta 2 0 false) story.
Example story_files :
  match current_snapshot created_story with
  | Some s => map f_path (live_files false s) = [11; 10; 12; 13; 14]%nat /\ map f_path (live_files true s) = [20; 21; 22]%nat
  | None => False
  end.
Proof. by vm_compute. Qed.
Lemma story2_ok : NoDup (change_ids story2) /\ Forall change_ok story2.
Proof. split; [by apply (bool_decide_unpack _)|]. repeat constructor; done. Qed.
Lemma story_ok : NoDup (change_ids story) /\ Forall change_ok story.
Proof. split; [by apply (bool_decide_unpack _)|]. repeat constructor; done. Qed.

(** ** Summaries *)
(** The totals in the summary of every snapshot are right, whatever commits and
    replacements there were. *)
Theorem C35_totals : forall format schema gz l,
  NoDup (change_ids l) -> Forall change_ok l ->
  forall s, s ∈ m_snaps (history (empty_meta format schema gz) l) -> totals_right s.
Proof. exact created_totals. Qed.
Print Assumptions C35_totals.
Example story_totals : s_totals <$> current_snapshot created_story = Some (Totals (Some 5) (Some 3) (Some 24) (Some 5) (Some 1)).
Proof. by vm_compute. Qed.

(** So they are if the table was written by someone else, who left out some of the counts
    in the manifest list. *)
Theorem C35_totals_step : forall parent start last id c,
  (forall p, parent = Some p -> Forall counts_right (s_manifests p) /\ totals_right p) ->
  totals_right (build_snapshot parent start last id c).
Proof. exact build_totals. Qed.
Print Assumptions C35_totals_step.
Definition foreign : snapshot :=
  Snap 7 None 1 [MFile false 0 1 (Counts None (Some 0) None) (Counts None None None) None
    [(Added, data 1 5 0); (Deleted, data 2 6 0); (Added, data 3 7 0)]] (Totals (Some 2) (Some 0) (Some 12) (Some 0) (Some 0)) None None.
Example foreign_totals : Forall counts_right (s_manifests foreign) /\ totals_right foreign /\
  s_totals (build_snapshot (Some foreign) None 1 8 (Commit RowDelta [data 4 1 0] [delete 5 CPosition 1] 0 2)) =
    Totals (Some 3) (Some 1) (Some 13) (Some 1) (Some 0).
Proof.
  split; [|split; [repeat split; by vm_compute|by vm_compute]]. constructor; [|constructor].
  intros []; split; ((left; by vm_compute) || (right; by vm_compute)).
Qed.

(** ** Row ids *)
(** In every snapshot no two data files share a row id, and all are below the next row id
    of the table. *)
Theorem C35_row_ids : forall format schema gz l,
  NoDup (change_ids l) -> Forall change_ok l ->
  forall s, s ∈ m_snaps (history (empty_meta format schema gz) l) ->
  rows_distinct (data_files s) (default 0 (m_next_row (history (empty_meta format schema gz) l))).
Proof. exact created_distinct. Qed.
Print Assumptions C35_row_ids.
(** A row id that was given to a row is never given to another one, in all of the history. *)
Theorem C35_row_ids_permanent : forall format schema gz l,
  NoDup (change_ids l) -> Forall change_ok l -> forall s s' x y id,
  s ∈ m_snaps (history (empty_meta format schema gz) l) -> s' ∈ m_snaps (history (empty_meta format schema gz) l) ->
  x ∈ data_files s -> y ∈ data_files s' -> has_row x id -> has_row y id -> x = y.
Proof. exact created_unique. Qed.
Print Assumptions C35_row_ids_permanent.
(** From format 3 on each data file of the current snapshot has row ids, those written
    before the upgrade too. *)
Theorem C35_row_ids_complete : forall format schema gz l,
  NoDup (change_ids l) -> Forall change_ok l -> 3 <= m_format (history (empty_meta format schema gz) l) ->
  forall s x, current_snapshot (history (empty_meta format schema gz) l) = Some s -> x ∈ data_files s -> x.2 <> None.
Proof. exact created_complete. Qed.
Print Assumptions C35_row_ids_complete.
(** A commit that keeps the files keeps their row ids. *)
Theorem C35_row_ids_stable : forall format schema gz l id c p x,
  NoDup (change_ids l) -> Forall change_ok l -> id ∉ change_ids l ->
  current_snapshot (history (empty_meta format schema gz) l) = Some p ->
  carries (c_kind c) = true -> x ∈ data_files p -> x.2 <> None ->
  exists s, current_snapshot (apply_commit (history (empty_meta format schema gz) l) id c) = Some s /\ x ∈ data_files s.
Proof. exact created_stable. Qed.
Print Assumptions C35_row_ids_stable.
Example story_rows :
  map (fun s => map (fun x => (f_path x.1, x.2)) (data_files s)) (m_snaps (history (empty_meta 2 0 false) story2)) =
    [ [(11, None); (10, None); (12, None)];
      [(11, None); (10, None); (12, None); (13, None)];
      [(11, Some 0%N); (10, Some 7%N); (12, Some 12%N); (13, Some 14%N); (14, Some 18%N)];
      [(11, Some 0%N); (10, Some 7%N); (12, Some 12%N); (13, Some 14%N); (14, Some 18%N)];
      [(15, Some 24%N)]; [(16, Some 32%N)] ]%nat /\
  m_next_row (history (empty_meta 2 0 false) story2) = Some 41.
Proof. by vm_compute. Qed.

(** Sequence numbers rise from snapshot to snapshot. *)
Theorem C35_sequence : forall format schema gz l,
  NoDup (change_ids l) -> Forall change_ok l ->
  StronglySorted N.lt (map s_seq (m_snaps (history (empty_meta format schema gz) l))) /\
  Forall (fun s => s_seq s <= m_seq (history (empty_meta format schema gz) l)) (m_snaps (history (empty_meta format schema gz) l)).
Proof. exact created_sequence. Qed.
Print Assumptions C35_sequence.
Example story_sequence : map s_seq (m_snaps (history (empty_meta 2 0 false) story2)) = [1; 2; 3; 4; 5; 6].
Proof. by vm_compute. Qed.

(** *** Row ids of other writers *)
(** A manifest whose entries carry no row ids of their own is read as the Iceberg
    specification says. *)
Theorem C35_inherit_partial : forall next es,
  Forall (fun e : status * file => f_first e.2 = None) es -> inherit_rows next es = spec_rows next es.
Proof. exact inherit_spec. Qed.
Print Assumptions C35_inherit_partial.
Example inherit_case : inherit_rows (Some 100) [(Existing, data 1 5 0); (Deleted, data 2 9 0); (Added, data 3 7 0)] =
  [(data 1 5 0, Some 100); (data 3 7 0, Some 105)].
Proof. by vm_compute. Qed.
(** It is not if some do: the counter moves on for these too, so the same rows have
    other ids here than elsewhere. *)
Theorem C35_inherit_refuted : exists next es x,
  x ∈ inherit_rows next es /\ x ∉ spec_rows next es /\
  exists x', x' ∈ spec_rows next es /\ x'.1 = x.1 /\ x'.2 <> x.2.
Proof.
  exists (Some 100), [(Existing, File 1 CData 5 0 (Some 0)); (Added, data 2 3 0)], (data 2 3 0, Some 105).
  split; [vm_compute; right; left|]. split.
  - intros H. vm_compute in H. apply elem_of_cons in H as [H|H]; [discriminate|]. apply elem_of_list_singleton in H. discriminate.
  - exists (data 2 3 0, Some 100). split; [vm_compute; right; left|]. done.
Qed.
Print Assumptions C35_inherit_refuted.
