(** LIKE patterns with an escape character.
    Sources: crates/sail-function/src/scalar/predicate/rewrite_like_pattern.rs,
    crates/sail-plan/src/function/scalar/predicate.rs. *)
From Coq Require Import NArith.
From stdpp Require Import prelude list.
From Verif.Lib Require Import Text.
Local Open Scope N_scope.

Definition BSLASH : N := 92.
Definition PERCENT : N := 37.
Definition UNDER : N := 95.

(** rewrite_like_pattern.rs:175-208, the loop of [rewrite_like_into_string] for an escape other than
    the backslash. *)
Fixpoint rewrite_loop (escape : N) (p : text) : text :=
  match p with
  | [] => []
  | c :: p' =>
    if c =? BSLASH then BSLASH :: BSLASH :: rewrite_loop escape p'
    else if c =? escape then
      match p' with
      | [] => [c]
      | n :: p'' =>
        if (n =? PERCENT) || (n =? UNDER) || (n =? escape) then BSLASH :: n :: rewrite_loop escape p''
        else if n =? BSLASH then c :: BSLASH :: BSLASH :: rewrite_loop escape p''
        else c :: n :: rewrite_loop escape p''
      end
    else c :: rewrite_loop escape p'
  end.
(** rewrite_like_pattern.rs:170-174 [rewrite_like_into_string]. *)
Definition rewrite_pattern (escape : N) (p : text) : text :=
  if escape =? BSLASH then p else rewrite_loop escape p.

(** What a pattern consists of. *)
Inductive item := Lit (c : N) | AnyChar | AnyText.

(** The LIKE kernel of arrow (arrow-string, [regex_like]), which the expression built at
    predicate.rs:31-75 is evaluated with: a backslash makes the next character literal, whatever it
    is; one at the end stands for itself.  The kernel is external; this reading of patterns is
    trusted. *)
Fixpoint kernel_items (p : text) : list item :=
  match p with
  | [] => []
  | c :: p' =>
    if c =? BSLASH then
      match p' with
      | [] => [Lit BSLASH]
      | n :: p'' => Lit n :: kernel_items p''
      end
    else if c =? PERCENT then AnyText :: kernel_items p'
    else if c =? UNDER then AnyChar :: kernel_items p'
    else Lit c :: kernel_items p'
  end.

(** predicate.rs:31-75 [build_like_expr]: without an escape the pattern is used as it is, with one it
    is rewritten first unless it is the backslash. *)
Definition like_items (escape : option N) (p : text) : list item :=
  match escape with
  | None => kernel_items p
  | Some e => kernel_items (if e =? BSLASH then p else rewrite_pattern e p)
  end.

(** The match itself: [same] is equality for LIKE and equality up to case for ILIKE. *)
Fixpoint matches (same : N -> N -> bool) (l : list item) : text -> bool :=
  match l with
  | [] => fun s => match s with [] => true | _ => false end
  | Lit c :: l' => fun s => match s with x :: s' => same c x && matches same l' s' | [] => false end
  | AnyChar :: l' => fun s => match s with _ :: s' => matches same l' s' | [] => false end
  | AnyText :: l' =>
    fix any (s : text) : bool :=
      matches same l' s || match s with _ :: s' => any s' | [] => false end
  end.
Definition like (same : N -> N -> bool) (escape : option N) (p s : text) : bool :=
  matches same (like_items escape p) s.
