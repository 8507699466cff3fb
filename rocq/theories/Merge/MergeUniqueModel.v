(** Deciding from the source plan of a MERGE that no target row can have two matches, in which
    case the run-time check is left out. *)
From Coq Require Import NArith ZArith Lia.
From stdpp Require Import prelude list.
From Verif.Lib Require Import Text.
From Verif.Merge Require Import MergeModel.

(** A projected expression: a column, an alias of a column, anything else
    (datafusion_expr::Expr). *)
Inductive pexpr := PCol (n : text) | PAliasCol (n : text) | POther (f : row -> cell).
(** A grouping expression with the name of its output column. *)
Inductive gexpr := GCol (n : text) | GOther (n : text) (f : row -> cell).

(** The logical plan of the source; [PTable] stands for every operator the analysis does not look
    into, with the rows it yields (datafusion_expr::LogicalPlan). *)
Inductive plan :=
| PTable (fields : list text) (rows : list row)
| PSubqueryAlias (p : plan)
| PFilter (keep : row -> bool) (p : plan)
| PProjection (items : list (text * pexpr)) (p : plan)
| PAggregate (groups : list gexpr) (aggs : list (text * (list row -> cell))) (p : plan).

Definition gname (g : gexpr) : text := match g with GCol n => n | GOther n _ => n end.

(** The schema of a plan. *)
Fixpoint fields (p : plan) : list text :=
  match p with
  | PTable fs _ => fs
  | PSubqueryAlias p' | PFilter _ p' => fields p'
  | PProjection items _ => map fst items
  | PAggregate groups aggs _ => map gname groups ++ map fst aggs
  end.

(** The cell of a named column. *)
Definition position (fs : list text) (n : text) : option nat :=
  fst <$> list_find (fun f => f = n) fs.
Definition col (fs : list text) (r : row) (n : text) : cell :=
  i ← position fs n; c ← r !! i; c.

Definition peval (fs : list text) (e : pexpr) (r : row) : cell :=
  match e with PCol n | PAliasCol n => col fs r n | POther f => f r end.
Definition geval (fs : list text) (g : gexpr) (r : row) : cell :=
  match g with GCol n => col fs r n | GOther _ f => f r end.

(** The rows a plan yields. *)
Fixpoint plan_rows (p : plan) : list row :=
  match p with
  | PTable _ rs => rs
  | PSubqueryAlias p' => plan_rows p'
  | PFilter keep p' => filter (fun r => keep r = true) (plan_rows p')
  | PProjection items p' =>
    map (fun r => map (fun it => peval (fields p') it.2 r) items) (plan_rows p')
  | PAggregate groups aggs p' =>
    let key r := map (fun g => geval (fields p') g r) groups in
    map (fun k => k ++ map (fun a => a.2 (filter (fun r => key r = k) (plan_rows p'))) aggs)
      (remove_dups (map key (plan_rows p')))
  end.

(** source_join_key_column_names (crates/sail-logical-plan/src/merge.rs:1519-1529); the source
    columns of the ON condition are positions in the schema of the plan. *)
Fixpoint key_column_names (fs : list text) (pairs : list (expr * expr)) : option (list text) :=
  match pairs with
  | [] => Some []
  | (_, ESrc i) :: ps => n ← fs !! i; ns ← key_column_names fs ps; Some (n :: ns)
  | _ => None
  end.
Definition source_key_names (fs : list text) (pairs : list (expr * expr)) : option (list text) :=
  ns ← key_column_names fs pairs; if bool_decide (ns = []) then None else Some ns.

Definition norm_ident (n : text) : text := map ascii_lower n.

(** A functional dependency of the plan's schema: the columns at these positions determine the
    row; [fd_single] is Dependency::Single. *)
Record fd := Fd { fd_source : list nat; fd_single : bool }.

(** Resolution of the key columns in schema_implies_unique_for_columns (merge.rs:1538-1562). *)
Fixpoint key_indices (fs : list text) (keys : list text) (acc : list nat) : option (list nat) :=
  match keys with
  | [] => Some acc
  | k :: ks =>
    '(i, _) ← list_find (fun f => norm_ident f = norm_ident k) fs;
    if bool_decide (i ∈ acc) then None else key_indices fs ks (i :: acc)
  end.
(** schema_implies_unique_for_columns (merge.rs:1531-1565). *)
Definition schema_implies_unique (fs : list text) (fds : list fd) (keys : list text) : bool :=
  if bool_decide (NoDup (map norm_ident fs)) then
    match key_indices fs keys [] with
    | Some ((_ :: _) as is) =>
      existsb (fun d => fd_single d && forallb (fun i => bool_decide (i ∈ is)) (fd_source d)) fds
    | _ => false
    end
  else false.

(** map_key_cols_through_projection (merge.rs:1567-1590). *)
Fixpoint map_keys (items : list (text * pexpr)) (keys : list text) : option (list text) :=
  match keys with
  | [] => Some []
  | k :: ks =>
    '(_, (_, e)) ← list_find (fun it : text * pexpr => it.1 = k) items;
    n ← match e with PCol n | PAliasCol n => Some n | POther _ => None end;
    ns ← map_keys items ks; Some (n :: ns)
  end.

(** same_column_set_case_insensitive (merge.rs:1603-1612). *)
Definition same_column_set (a b : list text) : bool :=
  let sa := map norm_ident a in
  let sb := map norm_ident b in
  bool_decide (length a = length b) && bool_decide (NoDup sa) && bool_decide (NoDup sb) &&
  forallb (fun x => bool_decide (x ∈ sb)) sa && forallb (fun x => bool_decide (x ∈ sa)) sb.

(** aggregate_groups_exactly_on_columns (merge.rs:1592-1601). *)
Fixpoint group_columns (gs : list gexpr) : option (list text) :=
  match gs with
  | [] => Some []
  | GCol n :: gs' => ns ← group_columns gs'; Some (n :: ns)
  | GOther _ _ :: _ => None
  end.
Definition groups_exactly (groups : list gexpr) (keys : list text) : bool :=
  match group_columns groups with Some ns => same_column_set ns keys | None => false end.

(** The walk of source_is_unique_on_merge_join_keys (merge.rs:1495-1516). *)
Fixpoint walk (p : plan) (keys : list text) : bool :=
  match p with
  | PTable _ _ => false
  | PSubqueryAlias p' | PFilter _ p' => walk p' keys
  | PProjection items p' =>
    match map_keys items keys with Some keys' => walk p' keys' | None => false end
  | PAggregate groups _ _ => groups_exactly groups keys
  end.

(** source_is_unique_on_merge_join_keys (merge.rs:1481-1517). *)
Definition source_is_unique (p : plan) (fds : list fd) (pairs : list (expr * expr)) : bool :=
  match source_key_names (fields p) pairs with
  | None => false
  | Some keys => schema_implies_unique (fields p) fds keys || walk p keys
  end.

(** The analysis as called by expand_merge (merge.rs:515-520), and the statement run with it. *)
Definition unique_source (m : merge) (p : plan) (fds : list fd) : bool :=
  source_is_unique p fds (analyze (split_conjunction (m_on m))).1.
Definition delta_merge_cow (m : merge) (p : plan) (fds : list fd) (path : N) (tb : table)
    : option table := run_cow m (unique_source m p fds) path tb (plan_rows p).
Definition delta_merge_mor (m : merge) (p : plan) (fds : list fd) (path : N) (tb : table)
    : result := run_mor m (unique_source m p fds) path tb (plan_rows p).
Definition iceberg_merge (m : merge) (p : plan) (fds : list fd) (path : N) (tb : table)
    : option table := run_iceberg m (unique_source m p fds) path tb (plan_rows p).
