(** Quoted names.  Source: crates/sail-catalog/src/utils.rs:8-13,51-74. *)
From Coq Require Import NArith ZifyN Ascii String Lia.
From stdpp Require Import prelude list.
From Verif.Lib Require Import Text.
Local Open Scope N_scope.

Definition BACKTICK : N := 96.
Definition DOT : N := 46.
(** utils.rs:8-13 [VALID_IDENTIFIER_REGEX]: ^[a-zA-Z_][a-zA-Z0-9_]*$. *)
Definition is_letter (c : N) : bool := ((65 <=? c) && (c <=? 90)) || ((97 <=? c) && (c <=? 122)).
Definition is_digit (c : N) : bool := (48 <=? c) && (c <=? 57).
Definition valid_identifier (s : text) : bool :=
  match s with
  | [] => false
  | c :: s' => (is_letter c || (c =? 95)) && forallb (fun c => is_letter c || is_digit c || (c =? 95)) s'
  end.
(** str::replace('`', "``"). *)
Definition double (q : N) (s : text) : text := flat_map (fun c => if c =? q then [q; q] else [c]) s.
(** utils.rs:51-57 [quote_name_if_needed]. *)
Definition quote_name (s : text) : text :=
  if valid_identifier s then s else BACKTICK :: double BACKTICK s ++ [BACKTICK].
(** utils.rs:59-65 [quote_names_if_needed]. *)
Fixpoint quote_names (l : list text) : text :=
  match l with
  | [] => []
  | [s] => quote_name s
  | s :: l' => quote_name s ++ DOT :: quote_names l'
  end.
