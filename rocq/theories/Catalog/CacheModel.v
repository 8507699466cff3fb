(** The caching layer in front of a catalog.
    Source: crates/sail-catalog/src/provider/cache.rs:150-460
    ([CachingCatalogProvider]).

    The catalog behind the cache is any [istep]; operations and results are
    those of MemoryModel.v.  The three caches are one map with tagged keys.
    Entries disappear at any time (expiry and size limits of the moka cache):
    [Evict].  Lakehouse commits (cache.rs:330-347) invalidate like alterations
    of a table and are not operations of their own. *)
From Coq Require Import NArith ZifyN Ascii String Lia.
From stdpp Require Import prelude gmap list strings.
From Verif.Lib Require Import Text.
From Verif.Catalog Require Import MemoryModel.

(** cache.rs:24-40: the keys of [database_cache], [table_cache], [view_cache]. *)
Notation key := (option namespace + (namespace + namespace))%type.
Definition KDatabases (prefix : option namespace) : key := inl prefix.
Definition KTables (ns : namespace) : key := inr (inl ns).
Definition KViews (ns : namespace) : key := inr (inr ns).

(** Which caches there are: cache.rs:150-190. *)
Record flags := mkFlags { use_databases : bool; use_tables : bool; use_views : bool }.
Definition enabled (f : flags) (k : key) : bool :=
  match k with
  | inl _ => use_databases f
  | inr (inl _) => use_tables f
  | inr (inr _) => use_views f
  end.

(** The listings, and the key each is cached under. *)
Definition key_of (o : op) : option key :=
  match o with
  | ListDatabases p => Some (KDatabases p)
  | ListTables ns => Some (KTables ns)
  | ListViews ns => Some (KViews ns)
  | _ => None
  end.

(** The entries an operation removes after it succeeded: create_database
    cache.rs:211-222, drop_database 247-266, create_table 268-280, drop_table
    381-393, alter_table 395-407, create_view 409-421, drop_view 443-456. *)
Definition invalidates (o : op) (k : key) : bool :=
  match o, k with
  | CreateDatabase _ _, inl _ => true
  | DropDatabase _ _ _, inl _ => true
  | DropDatabase ns _ _, (inr (inl ns') | inr (inr ns')) => bool_decide (ns' = ns)
  | (CreateTable ns _ _ | DropTable ns _ _ | AlterTable ns _ _), inr (inl ns') => bool_decide (ns' = ns)
  | (CreateView ns _ _ | DropView ns _ _), inr (inr ns') => bool_decide (ns' = ns)
  | _, _ => false
  end.

Definition failed (r : out) : bool := match r with Error _ => true | _ => false end.

(** What happens at the cache, one thing at a time.
    [Own]: a request of the session, through the cache.
    [Other]: someone changes the catalog without going through this cache.
    [Evict]: an entry expires.
    [Start], [Finish]: the two halves of a listing that misses, between which
    other requests may run (list_tables cache.rs:364-379: the catalog is asked,
    and the answer inserted afterwards). *)
Inductive event := Own (o : op) | Other (o : op) | Evict (k : key) | Start (o : op) | Finish.

Section cache.
  Context {S : Type} (istep : S -> op -> S * out) (f : flags).

  Record state := mkState { st_inner : S; st_cache : gmap key out; st_pending : list (key * out) }.

  (** cache.rs:207-460: one request. *)
  Definition request (s : S) (c : gmap key out) (o : op) : S * gmap key out * out :=
    match key_of o with
    | Some k =>
        if enabled f k then
          match c !! k with
          | Some r => (s, c, r)
          | None =>
              let '(s', r) := istep s o in
              (s', if failed r then c else <[k := r]> c, r)
          end
        else let '(s', r) := istep s o in (s', c, r)
    | None =>
        let '(s', r) := istep s o in
        (s', if failed r then c else filter (fun p => invalidates o p.1 = false) c, r)
    end.

  Definition event_step (st : state) (e : event) : state * option out :=
    match e with
    | Own o =>
        let '(s, c, r) := request (st_inner st) (st_cache st) o in
        (mkState s c (st_pending st), Some r)
    | Other o => (mkState (istep (st_inner st) o).1 (st_cache st) (st_pending st), None)
    | Evict k => (mkState (st_inner st) (delete k (st_cache st)) (st_pending st), None)
    | Start o =>
        match key_of o with
        | Some k =>
            let '(s, r) := istep (st_inner st) o in
            (mkState s (st_cache st) (if failed r then st_pending st else (k, r) :: st_pending st), Some r)
        | None => (st, None)
        end
    | Finish =>
        match st_pending st with
        | (k, r) :: rest => (mkState (st_inner st) (<[k := r]> (st_cache st)) rest, None)
        | [] => (st, None)
        end
    end.

  Definition started (s : S) : state := mkState s ∅ [].
  Definition after (s : S) (es : list event) : state :=
    fold_left (fun st e => (event_step st e).1) es (started s).
End cache.
Arguments mkState {S}. Arguments st_inner {S}. Arguments st_cache {S}. Arguments st_pending {S}.
Global Arguments after {S}. Global Arguments event_step {S}. Global Arguments request {S}.
