(** What it takes for a compacted log file to stand for its commits. *)
From Coq Require Import NArith ZArith.
From stdpp Require Import prelude list gmap.
From Verif.Lib Require Import Text.
From Verif.Delta Require Import ActionModel ReplaySpec.
Local Open Scope Z_scope.

(** The file [k] was live before the run of commits [acts]; the run removes it for good,
    with a deletion time before [min_ts]. *)
Definition drops_removal (before acts : list action) (min_ts : Z) (k : fkey) : Prop :=
  exists a r ts, live_file before k = Some a /\ tombstone acts k = Some r /\ rm_ts r = Some ts /\ ts < min_ts.
(** The domain [n] was set before the run; the run ends up removing it. *)
Definition drops_domain (before acts : list action) (n : text) : Prop :=
  exists d d', live_domain before n = Some d /\ last (omap (domain_event n) acts) = Some d' /\ dom_removed d' = true.

(** Two tables a reader cannot tell apart: same protocol, metadata, live files,
    transactions and domains. *)
Definition same_table (s1 s2 : rstate) : Prop :=
  rs_protocol s1 = rs_protocol s2 /\ rs_metadata s1 = rs_metadata s2 /\ rs_adds s1 = rs_adds s2 /\
  rs_domains s1 = rs_domains s2 /\ rs_txns s1 = rs_txns s2.
