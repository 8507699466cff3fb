(** Model of the configuration of a session.
    Sources: crates/sail-spark-connect/src/config.rs, session.rs,
             crates/sail-spark-connect/build.rs (the tables of known keys). *)
From Coq Require Import NArith Ascii String.
From stdpp Require Import prelude list gmap.
From Verif.Lib Require Import Text.

(** build.rs:61-76 [SparkConfigEntry], without documentation and deprecation notices;
    whether there is a notice of removal. *)
Record entry := Entry { e_default : option text; e_alternatives : list text; e_fallback : option text; e_static : bool; e_removed : bool }.

(** config.rs:39-43 [SparkRuntimeConfig]; the table is fixed. *)
Notation table := (gmap text entry).
Notation config := (gmap text text).

(** config.rs:76-86 [validate_removed_key] *)
Definition removed_ok (t : table) (k v : text) : bool :=
  match t !! k with
  | Some e => negb (e_removed e) || bool_decide (e_default e = Some v)
  | None => true
  end.

(** config.rs:88-101 [get_by_key] *)
Fixpoint first_set (c : config) (ks : list text) : option text :=
  match ks with
  | [] => None
  | k :: ks' => match c !! k with Some v => Some v | None => first_set c ks' end
  end.
Definition get_by_key (t : table) (c : config) (k : text) : option text :=
  match c !! k with
  | Some v => Some v
  | None => first_set c (match t !! k with Some e => e_alternatives e | None => [] end)
  end.
Definition fallback_of (t : table) (k : text) : option text := e ← t !! k; e_fallback e.

(** config.rs:103-117 [get]; [None] is the error for an unknown key.  The recursion,
    which need not end if fallbacks form a cycle, is given a bound. *)
Fixpoint get (fuel : nat) (t : table) (c : config) (k : text) : option (option text) :=
  match fuel with
  | O => None
  | S fuel =>
    match get_by_key t c k with
    | Some v => Some (Some v)
    | None =>
      match fallback_of t k with
      | Some k' => get fuel t c k'
      | None => match t !! k with Some e => Some (e_default e) | None => None end
      end
    end
  end.
(** config.rs:119-128 [get_option] *)
Fixpoint get_option (fuel : nat) (t : table) (c : config) (k : text) : option text :=
  match fuel with
  | O => None
  | S fuel =>
    match get_by_key t c k with
    | Some v => Some v
    | None =>
      match fallback_of t k with
      | Some k' => get_option fuel t c k'
      | None => match t !! k with Some e => e_default e | None => None end
      end
    end
  end.
(** config.rs:130-143 [get_with_default] *)
Fixpoint get_with_default (fuel : nat) (t : table) (c : config) (k : text) (d : option text) : option text :=
  match fuel with
  | O => d
  | S fuel =>
    match get_by_key t c k with
    | Some v => Some v
    | None => match fallback_of t k with Some k' => get_with_default fuel t c k' d | None => d end
    end
  end.

(** config.rs:145-149 [set], :151-154 [unset] *)
Definition set (t : table) (c : config) (k v : text) : option config :=
  if removed_ok t k v then Some (<[k := v]> c) else None.
Definition unset (c : config) (k : text) : config := delete k c.

(** session.rs:129-141 [set_config], :143-149 [unset_config]; whether the request
    succeeded. *)
Fixpoint set_config (t : table) (c : config) (kvs : list (text * option text)) : config * bool :=
  match kvs with
  | [] => (c, true)
  | (k, Some v) :: kvs' => match set t c k v with Some c' => set_config t c' kvs' | None => (c, false) end
  | (k, None) :: _ => (c, false)
  end.
Definition unset_config (c : config) (ks : list text) : config := fold_left unset ks c.

(** config.rs:156-171 [get_all] *)
Definition get_all (c : config) (prefix : option text) : list (text * text) :=
  filter (fun x => match prefix with Some p => starts_with x.1 p | None => true end = true) (map_to_list c).

(** config.rs:173-178 [is_modifiable] *)
Definition is_modifiable (t : table) (k : text) : bool :=
  match t !! k with Some e => negb (e_static e) && negb (e_removed e) | None => false end.

(** session.rs:56-69: a new session sets its time zone. *)
Definition time_zone_key : text := str "spark.sql.session.timeZone".
Definition new_config (t : table) (zone : text) : config := (set_config t ∅ [(time_zone_key, Some zone)]).1.

Inductive request := SetConfig (kvs : list (text * option text)) | UnsetConfig (ks : list text).
Definition step (t : table) (c : config) (r : request) : config :=
  match r with SetConfig kvs => (set_config t c kvs).1 | UnsetConfig ks => unset_config c ks end.
Definition run (t : table) (c : config) (l : list request) : config := fold_left (step t) l c.
