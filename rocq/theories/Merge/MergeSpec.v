(** What MERGE INTO means, row by row. *)
From stdpp Require Import prelude list.
From Verif.Lib Require Import Text.
From Verif.Merge Require Import MergeModel.

(** A condition holds when it is true, not when it is NULL; a clause with no condition always
    holds. *)
Definition holds (c : option expr) (t s : option row) : Prop :=
  match c with Some e => truth (eval e t s) = Some true | None => True end.
#[global] Instance holds_dec c t s : Decision (holds c t s).
Proof. destruct c; unfold holds; apply _. Defined.

(** The source rows that match a target row. *)
Definition matches (m : merge) (ss : list row) (t : row) : list row :=
  filter (fun s => truth (eval (m_on m) (Some t) (Some s)) = Some true) ss.

(** The action of the first clause whose condition holds. *)
Fixpoint first_action {A} (cs : list (clause A)) (t s : option row) : option A :=
  match cs with
  | [] => None
  | c :: cs' => if decide (holds (c_cond c) t s) then Some (c_action c) else first_action cs' t s
  end.

(** The value of column [i], named [name], after SET, and for a new row. *)
Definition set_value (assign : list (nat * expr)) (t : row) (s : option row) (i : nat) : cell :=
  match list_find (fun a : nat * expr => a.1 = i) assign with
  | Some (_, (_, e)) => eval e (Some t) s
  | None => default None (t !! i)
  end.
(** Letters that differ in their case only, and names. *)
Definition same_letter (a b : N) : Prop :=
  a = b \/ (65 <= a /\ a <= 90 /\ b = a + 32)%N \/ (65 <= b /\ b <= 90 /\ a = b + 32)%N.
Definition same_name (m : merge) (a b : text) : Prop :=
  if m_case_sensitive m then a = b else Forall2 same_letter a b.
#[global] Instance same_letter_dec a b : Decision (same_letter a b).
Proof. unfold same_letter. apply _. Defined.
#[global] Instance same_name_dec m a b : Decision (same_name m a b).
Proof. unfold same_name. destruct (m_case_sensitive m); apply _. Defined.
Definition star_value (m : merge) (s : row) (name : text) : option cell :=
  match list_find (fun n => same_name m n name) (m_source_names m) with
  | Some (k, _) => Some (default None (s !! k))
  | None => None
  end.
Definition default_value (m : merge) (s : row) (name : text) : cell :=
  match list_find (fun d : text * expr => same_name m d.1 name) (m_defaults m) with
  | Some (_, (_, e)) => eval e None (Some s)
  | None => None
  end.

Definition updated_row (m : merge) (value : nat -> text -> cell) : row :=
  imap value (m_target_names m).

(** What becomes of a target row with exactly one match. *)
Definition matched_result (m : merge) (t s : row) : option row :=
  match first_action (m_matched m) (Some t) (Some s) with
  | None => Some t
  | Some MDelete => None
  | Some MUpdateAll =>
    Some (updated_row m (fun i name => default (default None (t !! i)) (star_value m s name)))
  | Some (MUpdateSet assign) => Some (updated_row m (fun i _ => set_value assign t (Some s) i))
  end.
(** What becomes of a target row with no match. *)
Definition unmatched_result (m : merge) (t : row) : option row :=
  match first_action (m_by_source m) (Some t) None with
  | None => Some t
  | Some SDelete => None
  | Some (SUpdateSet assign) => Some (updated_row m (fun i _ => set_value assign t None i))
  end.
(** What becomes of a target row. With several matches there are only two cases that are not
    errors: a statement with no MATCHED clause leaves the row as it is, one whose only MATCHED
    clause is an unconditional DELETE removes it. *)
Definition target_result (m : merge) (ss : list row) (t : row) : option row :=
  match matches m ss t with
  | [] => unmatched_result m t
  | [s] => matched_result m t s
  | _ => match m_matched m with [] => Some t | _ => None end
  end.

(** The row inserted for a source row with no match, if any. *)
Definition insert_result (m : merge) (s : row) : option row :=
  match first_action (m_by_target m) None (Some s) with
  | None => None
  | Some TInsertAll =>
    Some (updated_row m (fun i name => default (default_value m s name) (star_value m s name)))
  | Some (TInsertColumns assign) =>
    Some (updated_row m (fun i name =>
      match list_find (fun a : nat * expr => a.1 = i) assign with
      | Some (_, (_, e)) => eval e None (Some s)
      | None => default_value m s name
      end))
  end.
Definition inserts (m : merge) (ts ss : list row) : list row :=
  omap (insert_result m)
    (filter (fun s => Forall (fun t => truth (eval (m_on m) (Some t) (Some s)) <> Some true) ts) ss).

(** A target row matched by several source rows is an error, except in the two cases above. *)
Definition several_allowed (m : merge) : Prop :=
  m_matched m = [] \/ m_matched m = [Clause None MDelete].
Definition ambiguous (m : merge) (ts ss : list row) : Prop :=
  ~ several_allowed m /\ Exists (fun t => 2 <= length (matches m ss t)) ts.

(** The rows of the table after the statement. *)
Definition merged (m : merge) (ts ss : list row) : list row :=
  omap (target_result m ss) ts ++ inserts m ts ss.

(** A target row is affected if a clause acts on it. *)
Definition affected (m : merge) (ss : list row) (t : row) : Prop :=
  match matches m ss t with
  | [] => is_Some (first_action (m_by_source m) (Some t) None)
  | ms => Exists (fun s => is_Some (first_action (m_matched m) (Some t) (Some s))) ms
  end.

(** What the analyzer guarantees about a statement: there is a clause, and INSERT clauses do not
    mention the target; and about the table: rows have the columns of the table, and rows of a
    file have different positions. *)
Definition statement_ok (m : merge) : Prop :=
  (m_matched m <> [] \/ m_by_source m <> [] \/ m_by_target m <> []) /\
  Forall (fun c => by_target_refs c = false) (m_by_target m).
Definition table_ok (m : merge) (tb : table) : Prop :=
  NoDup (map f_path tb) /\
  Forall (fun f => NoDup (map fst (f_rows f)) /\
    Forall (fun ir : nat * row => length ir.2 = length (m_target_names m)) (f_rows f)) tb.
