(** Properties C64-C66: what MERGE INTO does to a table. *)
From Coq Require Import NArith ZArith ZifyN Ascii String Lia.
From stdpp Require Import prelude list.
From Verif.Lib Require Import Text.
From Verif.Merge Require Import MergeModel MergeSpec MergeProofs MergeResultProofs MergeFinalProofs
  MergeUniqueModel MergeUniqueSpec MergeUniqueProofs.

(** C64, Iceberg: whatever the clauses, the rows after the statement are those its meaning
    prescribes. *)
Theorem C64_iceberg m p fds path tb tb' :
  plan_ok p -> Forall (fd_holds (plan_rows p)) fds -> table_ok m tb ->
  iceberg_merge m p fds path tb = Some tb' ->
  rows_of tb' ≡ₚ merged m (rows_of tb) (plan_rows p).
Proof.
  intros Hp Hfd Htb. apply iceberg_correct; [done|]. by apply unique_ok_source.
Qed.
Print Assumptions C64_iceberg.

(** C64, Delta tables with deletion vectors. *)
Theorem C64_delta_merge_on_read m p fds path tb tb' :
  plan_ok p -> Forall (fd_holds (plan_rows p)) fds -> statement_ok m -> table_ok m tb ->
  delta_merge_mor m p fds path tb = Done tb' ->
  rows_of tb' ≡ₚ merged m (rows_of tb) (plan_rows p).
Proof.
  intros Hp Hfd Hst Htb. apply mor_correct; [done|done|]. by apply unique_ok_source.
Qed.
Print Assumptions C64_delta_merge_on_read.

(** C64, Delta tables without deletion vectors.  Missing: statements with a NOT MATCHED BY SOURCE
    clause and no MATCHED clause, when several source rows match one target row; see
    [C64_delta_copy_on_write_refuted]. *)
Theorem C64_delta_copy_on_write_partial m p fds path tb tb' :
  plan_ok p -> Forall (fd_holds (plan_rows p)) fds -> statement_ok m -> table_ok m tb ->
  (m_matched m = [] -> m_by_source m <> [] ->
   Forall (fun t => length (matches m (plan_rows p) t) <= 1) (rows_of tb)) ->
  delta_merge_cow m p fds path tb = Some tb' ->
  rows_of tb' ≡ₚ merged m (rows_of tb) (plan_rows p).
Proof.
  intros Hp Hfd Hst Htb. apply cow_correct; [done|done|]. by apply unique_ok_source.
Qed.
Print Assumptions C64_delta_copy_on_write_partial.

(** Statements for the examples.  Target columns id, v; source columns id, v. *)
Definition cols : list text := [str "id"%string; str "v"%string].
Definition ex_row (a b : Z) : row := [Some (VInt a); Some (VInt b)].
Definition on_id : expr := EEq (ETgt 0) (ESrc 0).
Definition is_v (i : nat -> expr) (z : Z) : expr := EEq (i 1) (ELit (Some (VInt z))).
Definition ex_stmt : merge :=
  Merge false cols cols on_id
    [Clause (Some (is_v ESrc 0)) MDelete; Clause None (MUpdateSet [(1, ESrc 1)])]
    [Clause (Some (is_v ETgt 30)) SDelete]
    [Clause None TInsertAll] [].
Definition ex_table : table :=
  [File 1 [(0, ex_row 1 10); (1, ex_row 2 20)]; File 2 [(0, ex_row 3 30); (4, ex_row 4 40)];
   File 3 [(0, ex_row 5 50)]].
Definition ex_source : plan :=
  PTable cols [ex_row 1 0; ex_row 2 21; ex_row 9 90; [None; Some (VInt 1)]].

Example C64_example :
  iceberg_merge ex_stmt ex_source [] 7 ex_table =
    Some [File 1 []; File 2 [(4, ex_row 4 40)]; File 3 [(0, ex_row 5 50)];
          File 7 [(0, ex_row 2 21); (1, ex_row 9 90); (2, [None; Some (VInt 1)])]] /\
  delta_merge_cow ex_stmt ex_source [] 7 ex_table =
    Some [File 3 [(0, ex_row 5 50)];
          File 7 [(0, ex_row 2 21); (1, ex_row 4 40); (2, ex_row 9 90);
                  (3, [None; Some (VInt 1)])]] /\
  merged ex_stmt (rows_of ex_table) (plan_rows ex_source) =
    [ex_row 2 21; ex_row 4 40; ex_row 5 50; ex_row 9 90; [None; Some (VInt 1)]] /\
  plan_ok ex_source /\ statement_ok ex_stmt /\ table_ok ex_stmt ex_table.
Proof.
  split; [by vm_compute|]. split; [by vm_compute|]. split; [by vm_compute|].
  split; [split; [|done]; by apply (bool_decide_unpack _); vm_compute|].
  split; [split; [by left|]; by repeat constructor|].
  split; [by apply (bool_decide_unpack _); vm_compute|].
  repeat (apply Forall_cons; split;
    [split; [by apply (bool_decide_unpack _); vm_compute|by repeat constructor]|]).
  by apply Forall_nil.
Qed.

Definition ex_mor : merge :=
  Merge false cols cols on_id [Clause None MDelete] [] [Clause None TInsertAll] [].
Example C64_example_mor :
  delta_merge_mor ex_mor (PTable cols [ex_row 1 0; ex_row 1 5; ex_row 9 9]) [] 7 ex_table =
    Done [File 1 [(1, ex_row 2 20)]; File 2 [(0, ex_row 3 30); (4, ex_row 4 40)];
          File 3 [(0, ex_row 5 50)]; File 7 [(0, ex_row 9 9)]].
Proof. by vm_compute. Qed.

(** Full C64 is false for copy-on-write: with no MATCHED clause, a target row with two matches
    must stay as it is, but when another row of its file is deleted the row is written twice. *)
Definition ex_twice : merge :=
  Merge false cols cols on_id [] [Clause None SDelete] [] [].
Theorem C64_delta_copy_on_write_refuted :
  exists m p fds path tb tb',
    plan_ok p /\ Forall (fd_holds (plan_rows p)) fds /\ statement_ok m /\ table_ok m tb /\
    delta_merge_cow m p fds path tb = Some tb' /\
    merged m (rows_of tb) (plan_rows p) = [ex_row 1 10] /\
    rows_of tb' = [ex_row 1 10; ex_row 1 10].
Proof.
  exists ex_twice, (PTable cols [ex_row 1 0; ex_row 1 1]), [], 7%N,
    [File 1 [(0, ex_row 1 10); (1, ex_row 2 20)]], [File 7 [(0, ex_row 1 10); (1, ex_row 1 10)]].
  split; [split; [|done]; by apply (bool_decide_unpack _); vm_compute|].
  split; [by apply Forall_nil|].
  split; [split; [by right; left|]; by apply Forall_nil|].
  split.
  { split; [by apply (bool_decide_unpack _); vm_compute|].
    apply Forall_singleton. split; [by apply (bool_decide_unpack _); vm_compute|].
    by repeat constructor. }
  split; [by vm_compute|]. split; by vm_compute.
Qed.
Print Assumptions C64_delta_copy_on_write_refuted.

(** C65: a MERGE fails for ambiguity exactly when some target row has several matches and the
    statement is not one of the two kinds for which that is harmless; leaving out the check after
    analysing the source plan never changes this. *)
Theorem C65_ambiguous m p fds path tb :
  plan_ok p -> Forall (fd_holds (plan_rows p)) fds ->
  (delta_merge_cow m p fds path tb = None <-> ambiguous m (rows_of tb) (plan_rows p)) /\
  (iceberg_merge m p fds path tb = None <-> ambiguous m (rows_of tb) (plan_rows p)) /\
  (delta_merge_mor m p fds path tb = Failed <->
     has_update m = false /\ ambiguous m (rows_of tb) (plan_rows p)).
Proof.
  intros Hp Hfd. split_and!.
  - apply cow_error. by apply unique_ok_source.
  - apply iceberg_error. by apply unique_ok_source.
  - apply mor_error. by apply unique_ok_source.
Qed.
Print Assumptions C65_ambiguous.

Theorem C65_no_check_needed m p fds t :
  plan_ok p -> Forall (fd_holds (plan_rows p)) fds -> unique_source m p fds = true ->
  length (matches m (plan_rows p) t) <= 1.
Proof. exact (unique_sound p fds m t). Qed.
Print Assumptions C65_no_check_needed.

(** A source grouped by the join key, filtered and renamed, needs no check; one grouped by more
    columns does, and its statement fails. *)
Definition grouped (gs : list gexpr) : plan :=
  PProjection [(str "k"%string, PAliasCol (str "id"%string));
               (str "w"%string, PCol (str "v"%string))]
    (PFilter (fun _ => true)
      (PAggregate gs [(str "n"%string, fun rs => Some (VInt (Z.of_nat (length rs))))]
        (PTable cols [ex_row 1 0; ex_row 1 1; ex_row 2 5]))).
Example C65_example :
  unique_source ex_stmt (grouped [GCol (str "id"%string)]) [] = true /\
  unique_source ex_stmt (grouped [GCol (str "id"%string); GCol (str "v"%string)]) [] = false /\
  delta_merge_cow ex_stmt (grouped [GCol (str "id"%string); GCol (str "v"%string)]) [] 7 ex_table
    = None /\
  plan_ok (grouped [GCol (str "id"%string)]).
Proof.
  split; [by vm_compute|]. split; [by vm_compute|]. split; [by vm_compute|].
  cbn [plan_ok grouped fields]. split_and!; try done;
    by apply (bool_decide_unpack _); vm_compute.
Qed.

(** C65: merge-on-read Delta tables reject statements with UPDATE clauses before anything is
    written, and only those. *)
Theorem C65_unsupported m p fds path tb :
  delta_merge_mor m p fds path tb = NotSupported <->
  Exists (fun c : clause matched_action => c_action c <> MDelete) (m_matched m) \/
  Exists (fun c : clause by_source_action => c_action c <> SDelete) (m_by_source m).
Proof.
  unfold delta_merge_mor. rewrite mor_unsupported. unfold has_update.
  rewrite orb_true_iff, !existsb_exists, !Exists_exists. split.
  - intros [(c & Hc & H)|(c & Hc & H)]; [left|right]; exists c; apply elem_of_list_In in Hc;
      (split; [done|]); by destruct (c_action c).
  - intros [(c & Hc & H)|(c & Hc & H)]; [left|right]; exists c; apply elem_of_list_In in Hc;
      (split; [done|]); by destruct (c_action c).
Qed.
Print Assumptions C65_unsupported.

(** C66: copy-on-write keeps a data file exactly when no clause acts on any of its rows. *)
Theorem C66_untouched_files m p fds path tb tb' f :
  statement_ok m -> table_ok m tb ->
  delta_merge_cow m p fds path tb = Some tb' ->
  f ∈ tb -> f_path f <> path ->
  (f ∈ tb' <->
   Forall (fun ir : nat * row => ~ affected m (plan_rows p) ir.2) (f_rows f)).
Proof. apply cow_files. Qed.
Print Assumptions C66_untouched_files.
Example C66_example :
  affected ex_stmt (plan_rows ex_source) (ex_row 3 30) /\
  ~ affected ex_stmt (plan_rows ex_source) (ex_row 5 50).
Proof.
  split.
  - unfold affected. vm_compute. eauto.
  - unfold affected. vm_compute. by intros [].
Qed.
