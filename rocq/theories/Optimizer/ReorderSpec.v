(** What join reordering must keep, without the graph, the join tree or the rebuilt plan. *)
From stdpp Require Import prelude list.
From Verif.Optimizer Require Import ReorderModel.

(** The physical plans the rule is given: every operator returns rows as wide as its schema, and
    the columns a join filter is evaluated on exist. *)
Definition filter_wf (f : option jfilter) (wl wr : nat) : Prop :=
  match f with
  | None => True
  | Some f => Forall (fun si => si.2 < match si.1 with SLeft => wl | SRight => wr end) (jf_cols f)
  end.
Fixpoint wf (p : plan) : Prop :=
  match p with
  | POther _ w rows => Forall (fun r => length r = w) rows
  | PHash l r _ _ f _ | PNested l r f _ => wf l /\ wf r /\ filter_wf f (width l) (width r)
  | PCross l r => wf l /\ wf r
  | PProj _ input => wf input
  end.

(** A comparison of two columns with "=". *)
Definition col_eq (e : expr) : bool :=
  match e with EEq (ECol _ _) (ECol _ _) => true | _ => false end.
(** No null-safe hash join ("<=>" keys) also filters by "column = column". *)
Fixpoint plain (p : plan) : Prop :=
  match p with
  | POther _ _ _ => True
  | PHash l r _ ns f _ =>
      plain l /\ plain r /\
      (ns = true -> match f with
                    | None => True
                    | Some f => Forall (fun c => col_eq c = false) (conjuncts (jf_expr f))
                    end)
  | PNested l r _ _ | PCross l r => plain l /\ plain r
  | PProj _ input => plain input
  end.

(** The same rows, as often, in any order, in the same columns. *)
Definition same_rows (p q : plan) : Prop := eval p ≡ₚ eval q /\ width p = width q.

(** All joins of the plan that can be reordered compare NULL keys in the same way. *)
Fixpoint one_null_mode (ns : bool) (p : plan) : Prop :=
  match p with
  | PHash l r _ ns' _ _ => ns' = ns /\ one_null_mode ns l /\ one_null_mode ns r
  | PProj _ input => one_null_mode ns input
  | _ => True
  end.
