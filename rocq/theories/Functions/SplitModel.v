(** [split] with patterns and limits from columns, and the memo of compiled
    patterns: crates/sail-function/src/scalar/string/spark_split.rs and
    crates/sail-function/src/functions_utils.rs. *)

From Coq Require Import ZArith.
From stdpp Require Import list.

(** functions_utils.rs:61 *)
Definition MAX_DISTINCT : nat := 128.

Section split.
(** Characters, patterns and compiled regular expressions.  [compile] is
    [parse_regex] (spark_split.rs:166-168), [None] for an invalid pattern.
    [matches] are the ranges that the regex crate's [find_iter] yields. *)
Context {C K R : Type} `{EqDecision K}.
Context (compile : K -> option R) (matches : R -> list C -> list (nat * nat)).

(** [StrMemo] (functions_utils.rs:68-73).  The hash map is a list of pairs;
    [overflow] only holds a value while it is used. *)
Definition memo := list (K * R).

Fixpoint find (m : memo) (k : K) : option R :=
  match m with
  | [] => None
  | (k', r) :: m' => if decide (k' = k) then Some r else find m' k
  end.

(** [get_or_try_insert_ref] (functions_utils.rs:88-100): the value, the memo
    afterwards and whether it was computed. *)
Definition get_or_insert (m : memo) (k : K) : option (R * memo * bool) :=
  match find m k with
  | Some r => Some (r, m, false)
  | None =>
      r ← compile k;
      Some (r, if MAX_DISTINCT <=? length m then m else (k, r) :: m, true)
  end.

(** [resolve] (functions_utils.rs:108-118); [key] is [None] if the value is
    out of the range of the column, where Arrow panics. *)
Definition resolve (m : memo) (scalar : option R) (key : option K) : option (R * memo) :=
  match scalar with
  | Some r => Some (r, m)
  | None => k ← key; '(r, m', _) ← get_or_insert m k; Some (r, m')
  end.

(** The pieces between the matches, from position [from] on; at most [limit]
    of them if one is given (the regex crate's [split] and [splitn]). *)
Fixpoint pieces (v : list C) (from : nat) (ms : list (nat * nat)) (limit : option nat)
    : list (list C) :=
  match limit with
  | Some 0 => []
  | Some 1 => [drop from v]
  | _ =>
      match ms with
      | [] => [drop from v]
      | (s, e) :: ms' => take (s - from) (drop from v) :: pieces v e ms' (pred <$> limit)
      end
  end.

(** [split_to_array] (spark_split.rs:170-180) *)
Definition split_to_array (v : list C) (r : R) (limit : Z) : list (list C) :=
  if (0 <? limit)%Z then pieces v 0 (matches r v) (Some (Z.to_nat limit))
  else pieces v 0 (matches r v) None.

(** [array.is_null(i)]: a column without NULL has no null buffer, so that
    every index is answered; a column of one row with NULL is not asked for
    other rows (spark_split.rs:129-130, 136-141). *)
Definition is_null {B} (l : list (option B)) (i : nat) : bool :=
  match l !! i with Some None => true | _ => false end.

(** [array.value(i)] *)
Definition value {B} (l : list (option B)) (i : nat) : option B :=
  match l !! i with Some (Some x) => Some x | _ => None end.

(** [len() == 1 && is_valid(0)], [len() == 1 && is_null(0)]
    (spark_split.rs:125-130) *)
Definition single {B} (l : list (option B)) : option B :=
  match l with [Some x] => Some x | _ => None end.
Definition single_null {B} (l : list (option B)) : bool :=
  match l with [None] => true | _ => false end.

(** The loop over the rows (spark_split.rs:135-155); [None] is an error. *)
Fixpoint split_loop (values : list (option (list C))) (format : list (option K))
    (limit : list (option Z)) (scalar : option R) (idx : list nat) (m : memo)
    : option (list (option (list (list C)))) :=
  match idx with
  | [] => Some []
  | i :: idx' =>
      if single_null format || single_null limit || is_null values i || is_null format i
         || is_null limit i
      then rest ← split_loop values format limit scalar idx' m; Some (None :: rest)
      else
        '(r, m') ← resolve m scalar (value format i);
        z ← match single limit with Some z => Some z | None => value limit i end;
        v ← value values i;
        rest ← split_loop values format limit scalar idx' m';
        Some (Some (split_to_array v r z) :: rest)
  end.

(** [spark_split_inner_downcast] (spark_split.rs:105-164): a pattern that is
    the only one is compiled first. *)
Definition split_inner (values : list (option (list C))) (format : list (option K))
    (limit : list (option Z)) : option (list (option (list (list C)))) :=
  match single format with
  | Some k => r ← compile k; split_loop values format limit (Some r) (seq 0 (length values)) []
  | None => split_loop values format limit None (seq 0 (length values)) []
  end.

End split.
