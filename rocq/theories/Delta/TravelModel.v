(** Model of reading a Delta table as of a timestamp.
    Sources: crates/sail-delta-lake/src/table/mod.rs,
             crates/sail-delta-lake/src/delta_log/timestamps.rs. *)
From Coq Require Import NArith ZArith.
From stdpp Require Import prelude list gmap.
From Verif.Lib Require Import Text.
From Verif.Delta Require Import ActionModel LogModel CommitModel.
Local Open Scope Z_scope.

(** timestamps.rs:106-136 [resolve_version_timestamp] of any version.  [p] and [m] are of the
    latest version; [cached] are the timestamps collected while loading it, [crcs] the
    timestamps in the checksum files that are there (62-76), [files] the commits that are
    there. *)
Definition resolve_version_time (p : protocol) (m : metadata) (cached : gmap Z Z) (crcs : gmap Z (option Z))
    (files : gmap Z cfile) (v : Z) : option Z :=
  match cached !! v with
  | Some t => Some t
  | None =>
      if uses_ict v p m then
        match crcs !! v with
        | Some (Some t) => Some t
        | _ => f ← files !! v; ict_of (cf_acts f)
        end
      else f ← files !! v; Some (cf_mtime f)
  end.

(** An error of reading a timestamp, no such version, or a version. *)
Inductive found := FError | FMissing | FVersion (v : Z).

(** table/mod.rs:871-885: the loop; [best] is [target_version].  The two conditions of the
    loop shrink the range, so [fuel] above its size is enough (the Rust code loops). *)
Fixpoint search (fuel : nat) (time : Z -> option Z) (ts lo hi best : Z) : option Z :=
  match fuel with
  | O => None
  | S fuel' =>
      if lo <=? hi then
        let pivot := lo + Z.quot (hi - lo) 2 in
        match time pivot with
        | None => None
        | Some t => if t <=? ts then search fuel' time ts (pivot + 1) hi pivot
                    else search fuel' time ts lo (pivot - 1) best
        end
      else Some best
  end.
(** table/mod.rs:835-893 [find_version_for_timestamp]; [enablement] is
    [in_commit_timestamp_enablement] of the latest version, properties.rs:203-206 *)
Definition find_version (enablement : option (Z * Z)) (time : Z -> option Z) (latest ts : Z) : found :=
  let range :=
    match enablement with
    | Some (ev, et) => if et <=? ts then Some (ev, latest) else if ev =? 0 then None else Some (0, ev - 1)
    | None => Some (0, latest)
    end in
  match range with
  | None => FMissing
  | Some (lo, hi) =>
      match search (S (Z.to_nat (hi - lo + 1))) time ts lo hi (-1) with
      | None => FError
      | Some v => if v =? -1 then FMissing else FVersion v
      end
  end.
(** properties.rs:203-206 *)
Definition enablement_of (m : metadata) : option (Z * Z) :=
  match md_ict_version m, md_ict_time m with Some v, Some t => Some (v, t) | _, _ => None end.
Definition travel (p : protocol) (m : metadata) (cached : gmap Z Z) (crcs : gmap Z (option Z)) (files : gmap Z cfile)
    (latest ts : Z) : found :=
  find_version (enablement_of m) (resolve_version_time p m cached crcs files) latest ts.
