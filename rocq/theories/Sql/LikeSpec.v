(** What a LIKE pattern means under an escape character, in its own words. *)
From Coq Require Import NArith.
From stdpp Require Import prelude list.
From Verif.Lib Require Import Text.
From Verif.Sql Require Import LikeModel.
Local Open Scope N_scope.

Definition is_wild (c : N) : Prop := c = PERCENT \/ c = UNDER.

(** [denotes same e p s]: the string [s] is one of those the pattern [p] stands for when [e] is the
    escape character.  An escape makes a following wildcard or escape literal. *)
Inductive denotes (same : N -> N -> bool) (e : N) : text -> text -> Prop :=
  | denotes_end : denotes same e [] []
  | denotes_escaped c x p s : is_wild c \/ c = e -> same c x = true ->
      denotes same e p s -> denotes same e (e :: c :: p) (x :: s)
  | denotes_literal c x p s : c <> e -> ~ is_wild c -> same c x = true ->
      denotes same e p s -> denotes same e (c :: p) (x :: s)
  | denotes_one x p s : UNDER <> e -> denotes same e p s -> denotes same e (UNDER :: p) (x :: s)
  | denotes_many a p s : PERCENT <> e -> denotes same e p s -> denotes same e (PERCENT :: p) (a ++ s).

(** A pattern in which every escape is used. *)
Fixpoint well_formed (e : N) (p : text) : Prop :=
  match p with
  | [] => True
  | c :: p' =>
    if c =? e then
      match p' with n :: p'' => (is_wild n \/ n = e) /\ well_formed e p'' | [] => False end
    else well_formed e p'
  end.

(** The pattern that stands for one string: its wildcards and escapes are escaped. *)
Definition literal_pattern (e : N) (s : text) : text :=
  flat_map (fun c => if (c =? PERCENT) || (c =? UNDER) || (c =? e) then [e; c] else [c]) s.

(** Escapes that are not used are literal characters. *)
Fixpoint repaired (e : N) (p : text) : text :=
  match p with
  | [] => []
  | c :: p' =>
    if c =? e then
      match p' with
      | [] => [e; e]
      | n :: p'' =>
        if (n =? PERCENT) || (n =? UNDER) || (n =? e) then e :: n :: repaired e p''
        else e :: e :: n :: repaired e p''
      end
    else c :: repaired e p'
  end.
