(** Model of Delta log actions and of the state obtained by replaying them.
    Sources: crates/sail-delta-lake/src/spec/actions.rs,
             crates/sail-delta-lake/src/checkpoint/mod.rs. *)
From Coq Require Import NArith ZArith.
From stdpp Require Import prelude list gmap.
From Verif.Lib Require Import Text.
Local Open Scope Z_scope.

(** actions.rs:79-106 [DeletionVectorDescriptor]: [dv_uid] is the text computed by
    [unique_id]; the other fields are [dv_rest]. *)
Record dv := Dv { dv_uid : text; dv_rest : N }.
(** actions.rs:248-268 [Add]; fields not used here are [add_rest] *)
Record add := Add {
  add_path : text; add_dv : option dv; add_size : Z; add_change : bool; add_rest : N
}.
(** actions.rs:274-296 [Remove]; fields not used here are [rm_rest] *)
Record remove := Remove {
  rm_path : text; rm_dv : option dv; rm_ts : option Z; rm_size : option Z; rm_change : bool; rm_rest : N
}.
(** actions.rs:329-334 [Transaction] *)
Record txn := Txn { txn_app : text; txn_version : Z; txn_updated : option Z }.
(** actions.rs:369-373 [DomainMetadata] *)
Record domain := Domain { dom_name : text; dom_conf : N; dom_removed : bool }.
(** spec/protocol.rs [Protocol]: the two versions, whether in-commit timestamps are
    supported, and the rest *)
Record protocol := Protocol { pr_reader : Z; pr_writer : Z; pr_ict : bool; pr_rest : N }.
(** spec/properties.rs:52-60 *)
Inductive isolation := Serializable | WriteSerializable | SnapshotIsolation.
(** spec/metadata.rs [Metadata] with the table properties used here (retention times
    in milliseconds, in-commit timestamps, isolation level, spec/properties.rs:112-131).
    [md_id] stands for the table id, name and creation time, [md_rest] for the schema,
    the partition columns and the other properties. *)
Record metadata := Metadata {
  md_file_retention : Z; md_log_retention : Z;
  md_ict : bool; md_ict_version : option Z; md_ict_time : option Z;
  md_isolation : isolation; md_id : N; md_rest : N
}.
(** actions.rs:339-365 [CommitInfo] *)
Record commit_info := CommitInfo { ci_blind : option bool; ci_ict : option Z; ci_rest : N }.

(** actions.rs:129-141 [Action]; change data files, checkpoint metadata and sidecars
    are [AOther]: replay ignores them. *)
Inductive action :=
| AAdd (a : add)
| ARemove (r : remove)
| AMetadata (m : metadata)
| AProtocol (p : protocol)
| ATxn (t : txn)
| ADomain (d : domain)
| ACommitInfo (c : commit_info)
| AOther (n : N).

Global Instance dv_eq_dec : EqDecision dv. Proof. solve_decision. Defined.
Global Instance add_eq_dec : EqDecision add. Proof. solve_decision. Defined.
Global Instance remove_eq_dec : EqDecision remove. Proof. solve_decision. Defined.
Global Instance txn_eq_dec : EqDecision txn. Proof. solve_decision. Defined.
Global Instance domain_eq_dec : EqDecision domain. Proof. solve_decision. Defined.
Global Instance protocol_eq_dec : EqDecision protocol. Proof. solve_decision. Defined.
Global Instance isolation_eq_dec : EqDecision isolation. Proof. solve_decision. Defined.
Global Instance metadata_eq_dec : EqDecision metadata. Proof. solve_decision. Defined.
Global Instance commit_info_eq_dec : EqDecision commit_info. Proof. solve_decision. Defined.
Global Instance action_eq_dec : EqDecision action. Proof. solve_decision. Defined.

(** actions.rs:112-124 [logical_file_key] *)
Definition fkey : Type := text * option text.
Definition file_key (p : text) (d : option dv) : fkey := (p, dv_uid <$> d).
Definition add_key (a : add) : fkey := file_key (add_path a) (add_dv a).
Definition rm_key (r : remove) : fkey := file_key (rm_path r) (rm_dv r).

(** checkpoint/mod.rs:105-113 [ReconciledCheckpointState] *)
Record rstate := RState {
  rs_protocol : option protocol;
  rs_metadata : option metadata;
  rs_txns : gmap text txn;
  rs_domains : gmap text domain;
  rs_adds : gmap fkey add;
  rs_removes : gmap fkey remove
}.
Definition rs_empty : rstate := RState None None ∅ ∅ ∅ ∅.

(** checkpoint/mod.rs:136-170 [apply_action]; the header-only variant (306-332) does
    the same on the first four fields. *)
Definition apply_action (st : rstate) (a : action) : rstate :=
  let '(RState p m t d ad rm) := st in
  match a with
  | AProtocol p' => RState (Some p') m t d ad rm
  | AMetadata m' => RState p (Some m') t d ad rm
  | ATxn x => RState p m (<[txn_app x := x]> t) d ad rm
  | ADomain x =>
      RState p m t (if dom_removed x then delete (dom_name x) d else <[dom_name x := x]> d) ad rm
  | AAdd x => RState p m t d (<[add_key x := x]> ad) (delete (add_key x) rm)
  | ARemove x => RState p m t d (delete (rm_key x) ad) (<[rm_key x := x]> rm)
  | ACommitInfo _ | AOther _ => st
  end.
Definition replay (st : rstate) (l : list action) : rstate := foldl apply_action st l.

(** checkpoint/mod.rs:59-103 [CheckpointRetentionTimestamps::try_new]; overflow of the
    subtraction is not modelled.  First the cut-off for removed files, then for
    transactions. *)
Definition cutoffs (m : metadata) (now : Z) : Z * Z := (now - md_file_retention m, now - md_log_retention m).
(** 185-189 and 192-199: is it kept? *)
Definition keep_remove (cut : Z) (r : remove) : bool :=
  match rm_ts r with Some ts => cut <? ts | None => true end.
Definition keep_txn (cut : Z) (t : txn) : bool :=
  match txn_updated t with Some ts => cut <? ts | None => true end.
(** checkpoint/mod.rs:179-209 [prune_expired_checkpoint_actions] *)
Definition prune (now : Z) (st : rstate) : option rstate :=
  m ← rs_metadata st;
  let '(cr, ct) := cutoffs m now in
  Some (RState (rs_protocol st) (rs_metadata st)
          (filter (fun kt => keep_txn ct kt.2 = true) (rs_txns st))
          (rs_domains st) (rs_adds st)
          (filter (fun kr => keep_remove cr kr.2 = true) (rs_removes st))).

(** checkpoint/mod.rs:213-294 [into_checkpoint_batch_iter] (classic checkpoints): the
    rows in order, except that rows of one kind are in the order of the finite map
    instead of key order.  Parquet encoding and batching are not modelled. *)
Definition classic_rows (st : rstate) : option (list action) :=
  p ← rs_protocol st; m ← rs_metadata st;
  Some ([AProtocol p; AMetadata m] ++ (ATxn ∘ snd <$> map_to_list (rs_txns st))
        ++ (ADomain ∘ snd <$> map_to_list (rs_domains st))
        ++ (ARemove ∘ snd <$> map_to_list (rs_removes st))
        ++ (AAdd ∘ snd <$> map_to_list (rs_adds st))).
(** checkpoint/mod.rs:636-780 [write_v2_checkpoint] and 900-1100 (reading one): the
    rows of the main file, then those of the sidecar; [AOther] stands for the
    checkpoint metadata and sidecar rows. *)
Definition v2_rows (st : rstate) : option (list action) :=
  p ← rs_protocol st; m ← rs_metadata st;
  Some ([AOther 0; AProtocol p; AMetadata m] ++ (ATxn ∘ snd <$> map_to_list (rs_txns st))
        ++ (ADomain ∘ snd <$> map_to_list (rs_domains st)) ++ [AOther 1]
        ++ (AAdd ∘ snd <$> map_to_list (rs_adds st))
        ++ (ARemove ∘ snd <$> map_to_list (rs_removes st))).

(** checkpoint/mod.rs:1360-1418: the lines of a compacted file for the state [st] of
    its range, same remark on the order *)
Definition keep_compacted (min_ts : Z) (r : remove) : bool :=
  match rm_ts r with Some ts => min_ts <=? ts | None => true end.
Definition opt_row {A} (c : A -> action) (o : option A) : list action :=
  match o with Some x => [c x] | None => [] end.
Definition compacted_rows (min_ts : Z) (st : rstate) : list action :=
  opt_row AProtocol (rs_protocol st) ++ opt_row AMetadata (rs_metadata st)
  ++ (ATxn ∘ snd <$> map_to_list (rs_txns st))
  ++ (ADomain <$> filter (fun d => dom_removed d = false) (map_to_list (rs_domains st)).*2)
  ++ (ARemove <$> filter (fun r => keep_compacted min_ts r = true) (map_to_list (rs_removes st)).*2)
  ++ (AAdd ∘ snd <$> map_to_list (rs_adds st)).
