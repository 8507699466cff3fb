(** Model of the Delta log directory: choosing the files to read a version from,
    replaying them, and writing checkpoints and compacted files.
    Sources: crates/sail-delta-lake/src/delta_log/segment.rs,
             crates/sail-delta-lake/src/delta_log/replay.rs,
             crates/sail-delta-lake/src/delta_log/cleanup.rs,
             crates/sail-delta-lake/src/delta_log/timestamps.rs,
             crates/sail-delta-lake/src/checkpoint/mod.rs.
    Versions are integers; saturation at the largest [i64] and I/O errors are not
    modelled.  [None] is an error. *)
From Coq Require Import NArith ZArith.
From stdpp Require Import prelude list gmap.
From Verif.Lib Require Import Text Sort.
From Verif.Delta Require Import ActionModel.
Local Open Scope Z_scope.

(** A file of the log, by what its name says (see LogNameModel for the names):
    its location, modification time and content.  The content of a checkpoint is the
    list of its rows, including those of its sidecars. *)
Inductive lkind := KCommit (v : Z) | KCheckpoint (v : Z) | KChecksum (v : Z) | KCompacted (s e : Z).
Global Instance lkind_eq_dec : EqDecision lkind.
Proof. solve_decision. Defined.
Record lfile := LFile { lf_kind : lkind; lf_loc : text; lf_mtime : Z; lf_rows : list action }.
Definition lf_first (f : lfile) : Z :=
  match lf_kind f with KCommit v | KCheckpoint v | KChecksum v => v | KCompacted s _ => s end.

(** listing.rs:88-122: listing from an offset, see property C27 *)
Definition list_entries (offset : Z) (files : list lfile) : list lfile :=
  filter (fun f => (offset <=? lf_first f) = true) files.

Definition commit_of (max : Z) (f : lfile) : option (Z * lfile) :=
  match lf_kind f with KCommit v => if v <=? max then Some (v, f) else None | _ => None end.
Definition checkpoint_of (max : Z) (f : lfile) : option (Z * lfile) :=
  match lf_kind f with KCheckpoint v => if v <=? max then Some (v, f) else None | _ => None end.
Definition compaction_of (max : Z) (f : lfile) : option ((Z * Z) * lfile) :=
  match lf_kind f with KCompacted s e => if e <=? max then Some ((s, e), f) else None | _ => None end.

(** spec/checkpoint.rs:80-95 [LastCheckpointHint]: its version, and the location of the v2
    checkpoint if it names one *)
Record hint := Hint { h_version : Z; h_v2 : option text }.

(** segment.rs:458-485 [select_checkpoint_candidate] *)
Definition cp_before (a b : Z * lfile) : bool :=
  (b.1 <? a.1) || ((a.1 =? b.1) && negb (tlt (lf_loc b.2) (lf_loc a.2))).
Definition select_checkpoint (cands : list (Z * lfile)) (h : option hint) : option (Z * lfile) :=
  let sorted := isort cp_before cands in
  match sorted with
  | [] => None
  | (latest, _) :: _ =>
      match h with
      | Some (Hint v (Some loc)) =>
          if v =? latest then
            match head (filter (fun c => c.1 = v /\ lf_loc c.2 = loc) sorted) with
            | Some c => Some c
            | None => head (filter (fun c => c.1 <> v) sorted)
            end
          else head sorted
      | _ => head sorted
      end
  end.

(** segment.rs:397-456 [list_log_files]: the checkpoint, the commits and the compacted
    files up to [max].  (A name is only of one kind, property C27, so the order of the
    tests does not matter.) *)
Definition list_log_files (h : option hint) (offset max : Z) (files : list lfile)
  : option (Z * lfile) * list (Z * lfile) * list ((Z * Z) * lfile) :=
  let entries := list_entries offset files in
  (select_checkpoint (omap (checkpoint_of max) entries) h,
   sort_asc fst (omap (commit_of max) entries),
   sort_asc (fun c => c.1.1) (omap (compaction_of max) entries)).

(** segment.rs:517-527 *)
Definition compactions_in_range (start last : Z) (l : list ((Z * Z) * lfile)) : list ((Z * Z) * lfile) :=
  filter (fun c => start <= c.1.1 /\ c.1.2 <= last) l.
(** segment.rs:529-538 *)
Definition merge_catalog (commits catalog : list (Z * lfile)) : list (Z * lfile) :=
  foldl (fun m p => bt_insert p.1 p.2 m) (bt_of_list commits) catalog.
(** segment.rs:540-555 *)
Definition compactions_without_catalog (l : list ((Z * Z) * lfile)) (catalog : list (Z * lfile))
  : list ((Z * Z) * lfile) :=
  filter (fun c => forallb (fun k => negb ((c.1.1 <=? k.1) && (k.1 <=? c.1.2))) catalog = true) l.

(** segment.rs:560-598 [resolve_compactions] *)
Fixpoint pick_compactions (lowest : option Z) (l : list ((Z * Z) * lfile)) : list ((Z * Z) * lfile) :=
  match l with
  | [] => []
  | c :: l' =>
      match lowest with
      | Some b => if b <=? c.1.2 then pick_compactions lowest l' else c :: pick_compactions (Some c.1.1) l'
      | None => c :: pick_compactions (Some c.1.1) l'
      end
  end.
Definition in_compaction (v : Z) (c : (Z * Z) * lfile) : bool := (c.1.1 <=? v) && (v <=? c.1.2).
Definition resolve_compactions (commits : list (Z * lfile)) (comps : list ((Z * Z) * lfile))
  : list (Z * lfile) * list ((Z * Z) * lfile) :=
  let sel := pick_compactions None (sort_desc (fun c => c.1.2) comps) in
  (filter (fun k => existsb (in_compaction k.1) sel = false) commits,
   sort_asc (fun c => c.1.1) sel).

(** segment.rs:487-514 and 602-645 [validate_commit_contiguity(_with_compactions)] *)
Fixpoint contiguous_from (expected : Z) (ivs : list (Z * Z)) : option Z :=
  match ivs with
  | [] => Some expected
  | (s, e) :: ivs' => if s =? expected then contiguous_from (e + 1) ivs' else None
  end.
Definition contiguous (commits : list (Z * lfile)) (comps : list ((Z * Z) * lfile)) (start last : Z) : bool :=
  if last <? start then true
  else
    let ivs := ((fun k => (k.1, k.1)) <$> filter (fun k => start <= k.1 <= last) commits) ++ (fst <$> comps) in
    let ivs := match comps with [] => ivs | _ => sort_asc fst ivs end in
    match contiguous_from start ivs with Some x => x - 1 =? last | None => false end.

(** segment.rs:34-51 [ResolvedLogSegment::FullReplay] *)
Record segment := Segment {
  sg_checkpoint : option (Z * lfile);
  sg_commits : list (Z * lfile);
  sg_compactions : list ((Z * Z) * lfile);
  sg_target : Z
}.
(** segment.rs:283-325 [resolve_for_full_state]; [catalog] are the commits a catalog
    manages for the table, if any (86-114). *)
Definition segment_start (cp : option (Z * lfile)) : Z := match cp with Some (v, _) => v + 1 | None => 0 end.
Definition resolve_full (h : option hint) (catalog : list (Z * lfile)) (files : list lfile) (target : Z)
  : option segment :=
  let offset := match h with Some h => Z.min (h_version h) target - 1 | None => 0 end in
  let '(cp, commits, comps) := list_log_files h offset target files in
  let start := segment_start cp in
  let commits := filter (fun k => start <= k.1 <= target) commits in
  let catalog := sort_asc fst (filter (fun k => start <= k.1 <= target) catalog) in
  let comps := compactions_without_catalog (compactions_in_range start target comps) catalog in
  let commits := merge_catalog commits catalog in
  let '(commits, comps) := resolve_compactions commits comps in
  if contiguous commits comps start target then Some (Segment cp commits comps target) else None.

(** timestamps.rs:9-14 *)
Fixpoint ict_of (acts : list action) : option Z :=
  match acts with
  | [] => None
  | ACommitInfo c :: l => match ci_ict c with Some t => Some t | None => ict_of l end
  | _ :: l => ict_of l
  end.
(** timestamps.rs:16-38 [resolve_effective_protocol_and_metadata] *)
Definition last_protocol (acts : list action) : option protocol :=
  last (omap (fun a => match a with AProtocol p => Some p | _ => None end) acts).
Definition last_metadata (acts : list action) : option metadata :=
  last (omap (fun a => match a with AMetadata m => Some m | _ => None end) acts).
Definition or_else {A} (a b : option A) : option A := match a with Some x => Some x | None => b end.
Definition effective (p : option protocol) (m : option metadata) (acts : list action)
  : option (protocol * metadata) :=
  p ← or_else (last_protocol acts) p; m ← or_else (last_metadata acts) m; Some (p, m).
(** timestamps.rs:40-54 [version_uses_in_commit_timestamps]; protocol.rs:390-392 *)
Definition ict_enabled (p : protocol) (m : metadata) : bool := pr_ict p && md_ict m.
Definition uses_ict (v : Z) (p : protocol) (m : metadata) : bool :=
  ict_enabled p m && match md_ict_version m with Some e => e <=? v | None => true end.
(** timestamps.rs:56-79 [resolve_commit_timestamp_from_actions] *)
Definition commit_time (v mtime : Z) (p : option protocol) (m : option metadata) (acts : list action) : option Z :=
  match effective p m acts with
  | Some (p, m) => if uses_ict v p m then ict_of acts else Some mtime
  | None => Some mtime
  end.

(** What replay builds: the state and the commit timestamps. *)
Definition loaded : Type := rstate * gmap Z Z.
Definition replay_commit (s : loaded) (v : Z) (f : lfile) : option loaded :=
  t ← commit_time v (lf_mtime f) (rs_protocol s.1) (rs_metadata s.1) (lf_rows f);
  Some (replay s.1 (lf_rows f), <[v := t]> s.2).

(** checkpoint/mod.rs:838-886 [replay_commit_actions_for_state] *)
Fixpoint replay_commits (commits : list (Z * lfile)) (start last expected : Z) (s : loaded)
  : option (Z * loaded) :=
  match commits with
  | [] => Some (expected, s)
  | (v, f) :: l =>
      if (v <? start) || (last <? v) then replay_commits l start last expected s
      else if v =? expected then
        s' ← replay_commit s v f; replay_commits l start last (expected + 1) s'
      else None
  end.
Definition replay_plain (commits : list (Z * lfile)) (start last : Z) (s : loaded) : option loaded :=
  if last <? start then Some s
  else
    '(x, s') ← replay_commits commits start last start s;
    if x - 1 =? last then Some s' else None.

(** checkpoint/mod.rs:1247-1302 [build_replay_sequence] *)
Inductive rentry := RCommit (v : Z) (f : lfile) | RCompaction (s e : Z) (f : lfile).
Definition comp_at (v : Z) (comps : list ((Z * Z) * lfile)) : option ((Z * Z) * lfile) :=
  last (filter (fun c => c.1.1 = v) comps).
Fixpoint skip_below (v : Z) (l : list (Z * lfile)) : list (Z * lfile) :=
  match l with
  | [] => []
  | k :: l' => if k.1 <? v then skip_below v l' else l
  end.
Fixpoint build_seq (fuel : nat) (comps : list ((Z * Z) * lfile)) (last v : Z) (commits : list (Z * lfile))
  : list rentry :=
  match fuel with
  | O => []
  | S n =>
      if last <? v then []
      else
        match comp_at v comps with
        | Some (_, e, f) => RCompaction v e f :: build_seq n comps last (e + 1) (skip_below (e + 1) commits)
        | None =>
            match commits with
            | (v', f) :: l =>
                if v' =? v then RCommit v' f :: build_seq n comps last (v + 1) l
                else build_seq n comps last (v + 1) commits
            | [] => []
            end
        end
  end.
(** Every turn of the loop advances the version ([e > s] by the parsing of names). *)
Definition build_replay_sequence (commits : list (Z * lfile)) (comps : list ((Z * Z) * lfile)) (start last : Z)
  : list rentry :=
  build_seq (Z.to_nat (last - start + 1)) comps last start commits.
(** The versions from [s] to [e]. *)
Definition zrange (s e : Z) : list Z := (fun i => s + Z.of_nat i) <$> seq 0 (Z.to_nat (e - s + 1)).
(** checkpoint/mod.rs:1168-1216 [replay_commit_actions_with_compactions_for_state] *)
Definition replay_entry (s : loaded) (x : rentry) : option loaded :=
  match x with
  | RCommit v f => replay_commit s v f
  | RCompaction a b f =>
      Some (replay s.1 (lf_rows f), foldl (fun m v => <[v := lf_mtime f]> m) s.2 (zrange a b))
  end.
Fixpoint replay_entries (s : loaded) (l : list rentry) : option loaded :=
  match l with
  | [] => Some s
  | x :: l' => s' ← replay_entry s x; replay_entries s' l'
  end.
(** checkpoint/mod.rs:1137-1166 [replay_commit_actions_with_compactions] *)
Definition replay_with_compactions (commits : list (Z * lfile)) (comps : list ((Z * Z) * lfile))
    (start last : Z) (s : loaded) : option loaded :=
  match comps with
  | [] => replay_plain commits start last s
  | _ => replay_entries s (build_replay_sequence commits comps start last)
  end.

(** replay.rs:77-165 [load_replayed_table_state]: first the start version (104-114),
    then the whole *)
Definition load_start (sg : segment) : Z :=
  match sg_checkpoint sg with
  | None => 0
  | Some _ =>
      match sg_commits sg, sg_compactions sg with
      | (v, _) :: _, _ => v
      | [], ((s, _), _) :: _ => s
      | [], [] => sg_target sg + 1
      end
  end.
Definition load_segment (sg : segment) : option loaded :=
  let st := match sg_checkpoint sg with Some (_, f) => replay rs_empty (lf_rows f) | None => rs_empty end in
  s ← replay_with_compactions (sg_commits sg) (sg_compactions sg) (load_start sg) (sg_target sg) (st, ∅);
  match rs_protocol s.1, rs_metadata s.1 with Some _, Some _ => Some s | _, _ => None end.
Definition load_state (h : option hint) (catalog : list (Z * lfile)) (files : list lfile) (v : Z) : option loaded :=
  if v <? 0 then None else sg ← resolve_full h catalog files v; load_segment sg.

(** checkpoint/mod.rs:536-607 [create_checkpoint] without the writing: the rows of the
    checkpoint.  [v2] is the checkpoint policy of the table. *)
Definition checkpoint_content (h : option hint) (files : list lfile) (v now : Z) (v2 : bool) : option (list action) :=
  if v <? 0 then None
  else
    let offset := match h with Some h => Z.min (h_version h) v - 1 | None => 0 end in
    let entries := list_entries offset files in
    let commits := sort_asc fst (omap (commit_of v) entries) in
    let cps := sort_asc fst (omap (checkpoint_of v) entries) in
    let '(st, start) := match last cps with
                        | Some (cv, f) => (replay rs_empty (lf_rows f), cv + 1)
                        | None => (rs_empty, 0)
                        end in
    s ← replay_plain commits start v (st, ∅);
    st ← prune now s.1;
    if v2 then v2_rows st else classic_rows st.

(** store.rs [read_commit_entry] *)
Definition read_commit (files : list lfile) (v : Z) : option (list action) :=
  head (omap (fun f => match lf_kind f with KCommit w => if w =? v then Some (lf_rows f) else None | _ => None end) files).
(** checkpoint/mod.rs:1320-1418 [create_log_compaction_for]: the lines of the
    compacted file for the versions from [s] to [e] *)
Definition compaction_content (files : list lfile) (s e min_ts : Z) : option (list action) :=
  acts ← mapM (read_commit files) (zrange s e);
  Some (compacted_rows min_ts (replay rs_empty (concat acts))).

(** transaction/mod.rs:2050-2052 [should_create_checkpoint] and
    checkpoint/mod.rs:1453-1457 [should_create_compaction] *)
Definition checkpoint_due (v interval : Z) : bool := negb (v =? 0) && (v mod interval =? 0).
Definition compaction_due (v interval : Z) : bool := (0 <? interval) && (0 <? v) && ((v + 1) mod interval =? 0).

(** cleanup.rs:28-118 and 212-254 [find_retention_checkpoint_version]: [time v] is the
    timestamp of version [v] as resolved by [resolve_version_timestamp]. *)
Definition cutoff_commit (time : Z -> Z) (latest cutoff : Z) (files : list lfile) : option Z :=
  foldl (fun acc v => if (v <=? latest) && (time v <=? cutoff)
                      then Some (match acc with Some c => Z.max c v | None => v end) else acc) None
    (omap (fun f => match lf_kind f with KCommit v => Some v | _ => None end) files).
Definition retention_checkpoint (time : Z -> Z) (latest cutoff : Z) (files : list lfile) : option Z :=
  c ← cutoff_commit time latest cutoff files;
  foldl (fun acc v => if (v <=? latest) && (v <=? c)
                      then Some (match acc with Some c => Z.max c v | None => v end) else acc) None
    (omap (fun f => match lf_kind f with KCheckpoint v => Some v | _ => None end) files).
(** cleanup.rs:79-84 [expires_before] *)
Definition expires_before (b : Z) (f : lfile) : bool :=
  match lf_kind f with
  | KCompacted _ e => e <? b
  | _ => lf_first f <? b
  end.
(** cleanup.rs:120-156 [cleanup_expired_delta_log_files]; the clean-up of sidecars and
    the extra classic checkpoint written beside a v2 one are not modelled. *)
Definition cleanup (time : Z -> Z) (latest cutoff : Z) (files : list lfile) : list lfile :=
  match retention_checkpoint time latest cutoff files with
  | None => files
  | Some b => filter (fun f => expires_before b f = false) files
  end.
