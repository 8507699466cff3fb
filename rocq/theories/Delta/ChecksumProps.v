(** * C25: version checksums agree with the table *)
From Coq Require Import NArith ZArith ZifyN Lia String.
From stdpp Require Import prelude list gmap strings.
From Verif.Lib Require Import Text.
From Verif.Delta Require Import ActionModel LogModel CommitModel CommitSpec CommitProps ChecksumModel ChecksumSpec ChecksumProofs.
Local Open Scope Z_scope.

(** Whatever commits are made and whichever checksums are written, late, lost or skipped:
    a checksum that is there describes its version, if commits add only files that are not
    there and remove only files that are. *)
Theorem C25_checksum_describes_version :
  forall known ops v c, let l := clog_run known ops in
    exact_history (cl_hist l) -> cl_crcs l !! v = Some c ->
    exists f, commit_at (cl_hist l) v = Some f /\ describes (table_at (cl_hist l) v) c.
Proof. exact checksums_describe. Qed.
Print Assumptions C25_checksum_describes_version.

Definition zrm (p : string) (s : option Z) : action := ARemove (Remove (str p) None None s true 0).
Definition all_kept {A} (_ : A) : bool := true.
Definition zops : list cop :=
  [ CCommit (CFile [AProtocol (xproto false); AMetadata (xmeta false); AAdd (xadd "a" 10)] 1); CChecksum 0 all_kept all_kept;
    CCommit (CFile [AAdd (xadd "b" 20); ADomain (Domain (str "d") 1 false)] 2); CChecksum 1 all_kept all_kept;
    CCommit (CFile [zrm "a" (Some 10); AAdd (xadd "c" 5)] 3);
    CCommit (CFile [zrm "b" None] 4); CChecksum 3 all_kept all_kept; CLose 1; CChecksum 2 all_kept all_kept ].
Definition zhist : list cfile := omap (fun op => match op with CCommit f => Some f | _ => None end) zops.
Example C25_run :
  ((fun v => match cl_crcs (clog_run all_kept zops) !! v with Some c => Some (cs_files c, cs_bytes c) | None => None end) <$> [0; 1; 2; 3])
    = [Some (1, 10); None; Some (2, 25); Some (1, 5)] /\
  exact_history (cl_hist (clog_run all_kept zops)).
Proof.
  split; [by vm_compute|]. intros v f H.
  change (cl_hist (clog_run all_kept zops)) with zhist in H |- *. pose proof (CommitProofs.commit_at_Some _ _ _ H) as Hv. change (length zhist) with 4%nat in Hv.
  assert (v = 0 \/ v = 1 \/ v = 2 \/ v = 3) as [->|[->|[->| ->]]] by lia; cbn in H; injection H as <-.
  - by vm_compute.
  - by vm_compute.
  - split; [|by vm_compute]. exists (xadd "a" 10). split; [by vm_compute|]. by intros s [= <-].
  - split; [|done]. exists (xadd "b" 20). split; [by vm_compute|]. done.
Qed.

(** A commit that adds a file which is there already (with new statistics, say) is counted
    twice, and every later checksum is wrong too. *)
Theorem C25_file_added_again_refuted :
  exists ops v c, let l := clog_run all_kept ops in
    cl_crcs l !! v = Some c /\ cs_files c = 2 /\ length (live_files (table_at (cl_hist l) v)) = 1%nat.
Proof.
  exists [ CCommit (CFile [AProtocol (xproto false); AMetadata (xmeta false); AAdd (xadd "a" 10)] 1); CChecksum 0 all_kept all_kept;
           CCommit (CFile [AAdd (xadd "a" 10)] 2); CChecksum 1 all_kept all_kept ], 1.
  eexists. split; [by vm_compute|]. by vm_compute.
Qed.
Print Assumptions C25_file_added_again_refuted.
