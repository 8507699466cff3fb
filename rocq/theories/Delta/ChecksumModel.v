(** Model of the version checksum files of a Delta table.
    Sources: crates/sail-delta-lake/src/transaction/mod.rs [PostCommit],
             crates/sail-delta-lake/src/snapshot/mod.rs. *)
From Coq Require Import NArith ZArith.
From stdpp Require Import prelude list gmap.
From Verif.Lib Require Import Text.
From Verif.Delta Require Import ActionModel LogModel CommitModel CommitSpec.
Local Open Scope Z_scope.

(** spec/checksum.rs [VersionChecksum]: file count, total size, transactions, domains,
    protocol and metadata.  The lists of transactions and domains are sorted by their key in
    the source; here they are maps.  The transaction id, the timestamp and the constant
    fields are left out. *)
Record checksum := Checksum {
  cs_files : Z; cs_bytes : Z; cs_txns : gmap text txn; cs_domains : gmap text domain;
  cs_protocol : protocol; cs_metadata : metadata
}.

Definition i64_min : Z := - 2 ^ 63.
Definition i64_max : Z := 2 ^ 63 - 1.
(** [checked_add] and [checked_sub] *)
Definition checked (z : Z) : option Z := if (i64_min <=? z) && (z <=? i64_max) then Some z else None.

(** transaction/mod.rs:1710-1717: does the commit have deletion vectors? *)
Definition has_dv (acts : list action) : bool :=
  existsb (fun a => match a with
                    | AAdd x => match add_dv x with Some _ => true | None => false end
                    | ARemove x => match rm_dv x with Some _ => true | None => false end
                    | _ => false end) acts.
(** 1727-1757: what the commit changes; an overflow ends it, a removed file of unknown size
    asks for the full computation *)
Inductive change := CKnown (files bytes : Z) | CUnknown | COverflow.
Fixpoint commit_change (files bytes : Z) (acts : list action) : change :=
  match acts with
  | [] => CKnown files bytes
  | AAdd a :: l =>
      match checked (files + 1), checked (bytes + add_size a) with
      | Some f, Some b => commit_change f b l
      | _, _ => COverflow
      end
  | ARemove r :: l =>
      match checked (files - 1) with
      | None => COverflow
      | Some f => match rm_size r with
                  | None => CUnknown
                  | Some s => match checked (bytes - s) with Some b => commit_change f b l | None => COverflow end
                  end
      end
  | _ :: l => commit_change files bytes l
  end.
(** 1759-1774, 1825-1859: merging the transactions and the domains *)
Definition merge_txns (t : gmap text txn) (acts : list action) : gmap text txn :=
  foldl (fun t a => match a with ATxn x => <[txn_app x := x]> t | _ => t end) t acts.
Definition merge_domains (d : gmap text domain) (acts : list action) : gmap text domain :=
  foldl (fun d a => match a with
                    | ADomain x => if dom_removed x then delete (dom_name x) d else <[dom_name x := x]> d
                    | _ => d end) d acts.

(** snapshot/mod.rs:527-592 [build_version_checksum]; [known] is: all features of the
    protocol are supported (505-525) *)
Definition sizes (adds : list add) : option (Z * Z) :=
  foldl (fun fb a => '(f, b) ← fb; f' ← checked (f + 1); b' ← checked (b + add_size a); Some (f', b')) (Some (0, 0)) adds.
Definition full_checksum (known : protocol -> bool) (st : rstate) : option checksum :=
  p ← rs_protocol st; m ← rs_metadata st;
  if negb (known p) then None
  else if existsb (fun ka => match add_dv ka.2 with Some _ => true | None => false end) (map_to_list (rs_adds st))
          || existsb (fun kr => match rm_dv kr.2 with Some _ => true | None => false end) (map_to_list (rs_removes st))
  then None
  else '(f, b) ← sizes ((map_to_list (rs_adds st)).*2); Some (Checksum f b (rs_txns st) (rs_domains st) p m).

(** transaction/mod.rs:1639-1875 [build_incremental_checksum]: [base] is the state the
    writer read (its protocol and metadata are those of the version before, see C17),
    [prev] the checksum of the version before if it is there, [full] the loaded state of
    the version itself *)
Definition incremental_checksum (known : protocol -> bool) (v : Z) (acts : list action) (base : rstate)
    (prev : option checksum) (full : rstate) : option checksum :=
  match effective (rs_protocol base) (rs_metadata base) acts with
  | None => None
  | Some (p, m) =>
      if negb (known p) then None
      else if has_dv acts then None
      else match commit_change 0 0 acts with
           | COverflow => None
           | CUnknown => full_checksum known full
           | CKnown df db =>
               if v =? 0 then
                 Some (Checksum df db (merge_txns ∅ acts) (merge_domains ∅ acts) p m)
               else match prev with
                    | None => full_checksum known full
                    | Some c =>
                        f ← checked (cs_files c + df); b ← checked (cs_bytes c + db);
                        Some (Checksum f b (merge_txns (cs_txns c) acts) (merge_domains (cs_domains c) acts) p m)
                    end
           end
  end.

(** The log as far as checksums are concerned. *)
Record clog := CLog { cl_hist : list cfile; cl_crcs : gmap Z checksum }.
Definition clog_empty : clog := CLog [] ∅.
Inductive cop :=
(** a commit is written *)
| CCommit (f : cfile)
(** the writer of version [v], or somebody repeating it, gets round to writing its checksum
    (create-if-absent, 1965-2035), at any later time; when it loads the version it sees only
    the tombstones and transactions a checkpoint may have kept *)
| CChecksum (v : Z) (keep_r : fkey * remove -> bool) (keep_t : text * txn -> bool)
(** a checksum is lost (or cannot be read) *)
| CLose (v : Z).
Definition seen_state (keep_r : fkey * remove -> bool) (keep_t : text * txn -> bool) (st : rstate) : rstate :=
  RState (rs_protocol st) (rs_metadata st) (filter (fun kt => keep_t kt = true) (rs_txns st)) (rs_domains st)
    (rs_adds st) (filter (fun kr => keep_r kr = true) (rs_removes st)).
Definition clog_step (known : protocol -> bool) (l : clog) (op : cop) : clog :=
  let '(CLog h crcs) := l in
  match op with
  | CCommit f => CLog (h ++ [f]) crcs
  | CLose v => CLog h (delete v crcs)
  | CChecksum v keep_r keep_t =>
      match commit_at h v, crcs !! v with
      | Some f, None =>
          match incremental_checksum known v (cf_acts f) (table_at h (v - 1)) (crcs !! (v - 1))
                  (seen_state keep_r keep_t (table_at h v)) with
          | Some c => CLog h (<[v := c]> crcs)
          | None => l
          end
      | _, _ => l
      end
  end.
Definition clog_run (known : protocol -> bool) (ops : list cop) : clog := foldl (clog_step known) clog_empty ops.
