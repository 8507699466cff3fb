(** What a version checksum should say. *)
From Coq Require Import NArith ZArith.
From stdpp Require Import prelude list gmap.
From Verif.Lib Require Import Text.
From Verif.Delta Require Import ActionModel LogModel CommitModel CommitSpec ChecksumModel.
Local Open Scope Z_scope.

Definition live_files (st : rstate) : list add := (map_to_list (rs_adds st)).*2.
Definition total_size (l : list add) : Z := foldr (fun a z => add_size a + z) 0 l.
(** The checksum describes the table; of the transactions it may have dropped some. *)
Record describes (st : rstate) (c : checksum) : Prop := {
  ds_files : cs_files c = Z.of_nat (length (live_files st));
  ds_bytes : cs_bytes c = total_size (live_files st);
  ds_domains : cs_domains c = rs_domains st;
  ds_protocol : rs_protocol st = Some (cs_protocol c);
  ds_metadata : rs_metadata st = Some (cs_metadata c);
  ds_txns : cs_txns c ⊆ rs_txns st
}.
(** A commit adds only files that are not live and removes only files that are, with their
    size if it gives one. *)
Fixpoint exact_commit (st : rstate) (acts : list action) : Prop :=
  match acts with
  | [] => True
  | a :: l =>
      match a with
      | AAdd x => rs_adds st !! add_key x = None
      | ARemove x => exists y, rs_adds st !! rm_key x = Some y /\ forall s, rm_size x = Some s -> s = add_size y
      | _ => True
      end /\ exact_commit (apply_action st a) l
  end.
Definition exact_history (h : list cfile) : Prop :=
  forall v f, commit_at h v = Some f -> exact_commit (table_at h (v - 1)) (cf_acts f).
