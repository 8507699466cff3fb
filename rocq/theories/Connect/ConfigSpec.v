(** What reading a configuration key should return, in terms of the requests made. *)
From Coq Require Import NArith.
From stdpp Require Import prelude list gmap.
From Verif.Lib Require Import Text.
From Verif.Connect Require Import ConfigModel.

(** A request as single changes: up to the first value that is missing or not allowed. *)
Inductive change := Assign (k v : text) | Remove (k : text).
Global Instance change_eq_dec : EqDecision change.
Proof. solve_decision. Defined.
Definition allowed (t : table) (k v : text) : Prop :=
  forall e, t !! k = Some e -> e_removed e = true -> e_default e = Some v.
Global Instance allowed_dec t k v : Decision (allowed t k v).
Proof.
  unfold allowed. destruct (t !! k) as [e|] eqn:E; [|left; congruence].
  destruct (decide (e_removed e = true -> e_default e = Some v)) as [H|H]; [left|right].
  - by intros e' [= <-].
  - intros H'. by apply H, H'.
Defined.
Fixpoint assignments (t : table) (kvs : list (text * option text)) : list change :=
  match kvs with
  | (k, Some v) :: kvs' => if decide (allowed t k v) then Assign k v :: assignments t kvs' else []
  | _ => []
  end.
Definition changes_of (t : table) (r : request) : list change :=
  match r with SetConfig kvs => assignments t kvs | UnsetConfig ks => map Remove ks end.
Definition changes (t : table) (zone : text) (l : list request) : list change :=
  Assign time_zone_key zone :: flat_map (changes_of t) l.

(** The value last assigned to a key, unless it was removed since. *)
Fixpoint assigned (h : list change) (k : text) : option text :=
  match h with
  | [] => None
  | x :: h' =>
    match assigned h' k with
    | Some v => Some v
    | None =>
      match x with
      | Assign k' v => if decide (k' = k /\ Remove k ∉ h') then Some v else None
      | Remove _ => None
      end
    end
  end.

(** The key, the key it falls back to, and so on. *)
Inductive chain (t : table) : text -> list text -> Prop :=
  | chain_end k : fallback_of t k = None -> chain t k [k]
  | chain_next k k' ks : fallback_of t k = Some k' -> chain t k' ks -> chain t k (k :: ks).
Definition names (t : table) (k : text) : list text := k :: match t !! k with Some e => e_alternatives e | None => [] end.

(** The first of the names along the chain that has a value. *)
Definition value_of (t : table) (h : list change) (ks : list text) : option text :=
  head (omap (assigned h) (flat_map (names t) ks)).
(** The default of the last key. *)
Definition default_of (t : table) (ks : list text) : option (option text) := k ← last ks; e_default <$> t !! k.
