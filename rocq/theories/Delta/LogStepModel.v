(** Model of a Delta log directory over time: what writers do to it.
    Sources: crates/sail-delta-lake/src/transaction/mod.rs (post-commit work, 1560-1630
             and 2050-2110), checkpoint/mod.rs:536-634 and 1320-1449,
             delta_log/cleanup.rs:120-156. *)
From Coq Require Import NArith ZArith.
From stdpp Require Import prelude list gmap.
From Verif.Lib Require Import Text Sort.
From Verif.Delta Require Import ActionModel LogModel.
Local Open Scope Z_scope.

(** [lg_next] is the version the next commit gets (property C16). *)
Record tlog := TLog { lg_files : list lfile; lg_hint : option hint; lg_next : Z }.
Definition log_empty : tlog := TLog [] None 0.
Inductive lop :=
(** a commit is written; [mtime] is the time the store gives the file *)
| LCommit (acts : list action) (mtime : Z)
(** a checkpoint of version [v] is written at clock [now], at the location [loc]; the
    writer may stop before it records it as the last checkpoint *)
| LCheckpoint (v now : Z) (v2 : bool) (loc : text) (mtime : Z) (set_hint : bool)
(** a compacted file for the versions from [s] to [e] is written *)
| LCompact (s e min_ts : Z) (loc : text) (mtime : Z)
(** files are deleted, whichever: all or part of what a clean-up selects, or anything
    else *)
| LDelete (gone : lfile -> bool).

(** checkpoint/mod.rs:536-634: the file replaces one of the same name. *)
Definition same_file (f g : lfile) : bool := bool_decide (lf_kind f = lf_kind g) && bool_decide (lf_loc f = lf_loc g).
Definition put_file (f : lfile) (files : list lfile) : list lfile :=
  f :: filter (fun g => same_file f g = false) files.
(** The compacted file is only written if there is none yet (checkpoint/mod.rs:1424-1446). *)
Definition has_compacted (s e : Z) (files : list lfile) : bool :=
  existsb (fun f => bool_decide (lf_kind f = KCompacted s e)) files.
Definition log_step (lg : tlog) (op : lop) : tlog :=
  let '(TLog files h n) := lg in
  match op with
  | LCommit acts mtime => TLog (LFile (KCommit n) [] mtime acts :: files) h (n + 1)
  | LCheckpoint v now v2 loc mtime set_hint =>
      match checkpoint_content h files v now v2 with
      | Some rows =>
          TLog (put_file (LFile (KCheckpoint v) loc mtime rows) files)
               (if set_hint then Some (Hint v (if v2 then Some loc else None)) else h) n
      | None => lg
      end
  | LCompact s e min_ts loc mtime =>
      if (s <? e) && (0 <=? s) && negb (has_compacted s e files) then
        match compaction_content files s e min_ts with
        | Some rows => TLog (LFile (KCompacted s e) loc mtime rows :: files) h n
        | None => lg
        end
      else lg
  | LDelete gone => TLog (filter (fun f => gone f = false) files) h n
  end.
Definition log_run (ops : list lop) : tlog := foldl log_step log_empty ops.
