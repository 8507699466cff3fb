(** * C27: log file names encode versions faithfully *)
From Coq Require Import NArith ZArith ZifyN Lia String.
From stdpp Require Import prelude list strings.
From Verif.Lib Require Import Text.
From Verif.Delta Require Import LogNameModel LogNameSpec LogNameProofs.
Local Open Scope Z_scope.

(** Every kind of file is recognised as what it is, with its version, and as nothing
    else. *)
Theorem C27_names_parse_back :
  forall f, good_file f ->
    parse_commit (name_of f) = (match f with Commit v => Some v | _ => None end) /\
    parse_checksum (name_of f) = (match f with Checksum v => Some v | _ => None end) /\
    parse_checkpoint (name_of f) =
      (match f with Checkpoint v | UuidCheckpoint v _ | UuidJsonCheckpoint v _ => Some v | _ => None end) /\
    parse_compacted (name_of f) = (match f with Compacted s e => Some (s, e) | _ => None end) /\
    parse_entry (name_of f) = entry_version f.
Proof. exact parse_name. Qed.
Print Assumptions C27_names_parse_back.

(** A name is taken for a commit, checksum or compacted file only if it is the name
    of one. *)
Theorem C27_commit_names_exact :
  forall f v, parse_commit f = Some v -> is_version v /\ f = name_of (Commit v).
Proof. exact parse_commit_inv. Qed.
Print Assumptions C27_commit_names_exact.
Theorem C27_checksum_names_exact :
  forall f v, parse_checksum f = Some v -> is_version v /\ f = name_of (Checksum v).
Proof. exact parse_checksum_inv. Qed.
Print Assumptions C27_checksum_names_exact.
Theorem C27_compacted_names_exact :
  forall f s e, parse_compacted f = Some (s, e) ->
    is_version s /\ is_version e /\ s < e /\ f = name_of (Compacted s e).
Proof. exact parse_compacted_inv. Qed.
Print Assumptions C27_compacted_names_exact.

(** Names sort in version order, whatever comes after the version. *)
Theorem C27_names_sort_by_version :
  forall v w suf suf', is_version v -> is_version w -> v < w ->
    tlt (pad20 v ++ suf) (pad20 w ++ suf') = true.
Proof. exact name_order. Qed.
Print Assumptions C27_names_sort_by_version.

(** Listing from an offset returns exactly the files that start at or after it. *)
Theorem C27_listing_from_offset :
  forall o files f, -1 <= o <= i64_max -> good_file f ->
    name_of f ∈ list_from o files <-> name_of f ∈ files /\ o <= first_version f.
Proof. exact listing_complete. Qed.
Print Assumptions C27_listing_from_offset.

(** The latest version found by listing from the recorded checkpoint is the latest
    version of the whole directory. *)
Theorem C27_latest_version :
  forall hint files m,
    (forall s e, is_version s -> compacted_name s e ∈ files -> commit_name e ∈ files) ->
    (forall h, hint = Some h -> 0 <= h <= i64_max /\ h - 1 <= m) ->
    largest m (entry_versions files) ->
    latest_version hint files = Some m.
Proof. exact latest_correct. Qed.
Print Assumptions C27_latest_version.

Example C27_example :
  name_of (Commit 17) = str "00000000000000000017.json" /\
  name_of (Compacted 4 6) = str "00000000000000000004.00000000000000000006.compacted.json" /\
  good_file (Compacted 4 6) /\ good_file (Checkpoint i64_max) /\
  parse_commit (str "99999999999999999999.json") = None /\
  let files := [str "_last_checkpoint"; commit_name 9; checkpoint_name 9; checksum_name 10; commit_name 10;
                compacted_name 8 10; str "_sidecars/x.parquet"; commit_name 8] in
  largest 10 (entry_versions files) /\ latest_version (Some 9) files = Some 10 /\
  list_from 9 files = [str "_last_checkpoint"; commit_name 9; checkpoint_name 9; checksum_name 10; commit_name 10].
Proof.
  split_and!; try by vm_compute.
  intros files.
  assert (entry_versions files = [9; 9; 10; 10; 8]) as He by (by vm_compute).
  split_and!; try by vm_compute.
  rewrite He. split; [set_solver|]. intros v Hv. apply elem_of_list_In in Hv. cbn in Hv. lia.
Qed.
