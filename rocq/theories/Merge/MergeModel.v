(** MERGE INTO: expansion of the statement into a join with presence flags and per-column CASE
    expressions, and the three ways its rows reach the table (Delta copy-on-write, Delta
    merge-on-read, Iceberg merge-on-read). *)
From Coq Require Import NArith ZArith ZifyN Lia.
From stdpp Require Import prelude list.
From Verif.Lib Require Import Text.

(** A cell value.  Simplification: integers and booleans stand for all column types; the casts
    that align a value with the type of its target column (align_merge_value,
    crates/sail-logical-plan/src/merge.rs:1297-1302) are taken to be the identity. *)
Inductive val := VInt (z : Z) | VBool (b : bool).
#[global] Instance val_eq_dec : EqDecision val.
Proof. solve_decision. Defined.

(** A cell; [None] is NULL. *)
Notation cell := (option val).
(** The cells of a row, by column position.  Simplification: columns are addressed by position
    where the code renames them apart and addresses them by name
    (merge.rs:664-741, 1986-2039). *)
Notation row := (list cell).

(** Expressions of a MERGE statement over one target row and one source row; [EApp] is any other
    deterministic operator (datafusion_expr::Expr). *)
Inductive expr :=
| ETgt (i : nat)
| ESrc (i : nat)
| ELit (c : cell)
| EEq (a b : expr)
| EAnd (a b : expr)
| EApp (f : list cell -> cell) (args : list expr).

(** A column of a row that may be missing from an outer join (all its columns are NULL then). *)
Definition cell_at (r : option row) (i : nat) : cell :=
  match r with Some cs => default None (cs !! i) | None => None end.

(** SQL's three truth values. *)
Notation tv := (option bool).
Definition and3 (a b : tv) : tv :=
  match a, b with
  | Some false, _ | _, Some false => Some false
  | Some true, Some true => Some true
  | _, _ => None
  end.
Definition or3 (a b : tv) : tv :=
  match a, b with
  | Some true, _ | _, Some true => Some true
  | Some false, Some false => Some false
  | _, _ => None
  end.
Definition not3 (a : tv) : tv := match a with Some b => Some (negb b) | None => None end.
(** [IS TRUE] *)
Definition is_true3 (a : tv) : tv := Some (match a with Some true => true | _ => false end).

(** The truth value of a cell of boolean type (conditions are checked to be boolean:
    crates/sail-plan/src/resolver/command/merge.rs validate_merge_condition). *)
Definition truth (c : cell) : tv := match c with Some (VBool b) => Some b | _ => None end.
Definition of_tv (t : tv) : cell := match t with Some b => Some (VBool b) | None => None end.

(** SQL equality: NULL if either side is. *)
Definition eq3 (a b : cell) : tv :=
  match a, b with Some x, Some y => Some (bool_decide (x = y)) | _, _ => None end.

Fixpoint eval (e : expr) (t s : option row) : cell :=
  match e with
  | ETgt i => cell_at t i
  | ESrc i => cell_at s i
  | ELit c => c
  | EEq a b => of_tv (eq3 (eval a t s) (eval b t s))
  | EAnd a b => of_tv (and3 (truth (eval a t s)) (truth (eval b t s)))
  | EApp f args => f (map (fun a => eval a t s) args)
  end.

(** expr_to_columns + the schema test (resolver/command/merge.rs:1883-1914,
    sail-logical-plan/src/merge.rs:1136-1147). *)
Fixpoint uses_target (e : expr) : bool :=
  match e with
  | ETgt _ => true
  | ESrc _ | ELit _ => false
  | EEq a b | EAnd a b => uses_target a || uses_target b
  | EApp _ args => existsb uses_target args
  end.
Fixpoint uses_source (e : expr) : bool :=
  match e with
  | ESrc _ => true
  | ETgt _ | ELit _ => false
  | EEq a b | EAnd a b => uses_source a || uses_source b
  | EApp _ args => existsb uses_source args
  end.

(** ExprColumnDomain, classify_expr_domain (resolver/command/merge.rs:1875-1915). *)
Inductive domain := DNone | DTarget | DSource | DMixed.
#[global] Instance domain_eq_dec : EqDecision domain.
Proof. solve_decision. Defined.
Definition classify (e : expr) : domain :=
  match uses_target e, uses_source e with
  | false, false => DNone
  | true, false => DTarget
  | false, true => DSource
  | true, true => DMixed
  end.

(** datafusion split_conjunction. *)
Fixpoint split_conjunction (e : expr) : list expr :=
  match e with
  | EAnd a b => split_conjunction a ++ split_conjunction b
  | _ => [e]
  end.

(** analyze_merge_join (resolver/command/merge.rs:1917-1958): the pairs of join keys (target
    side, source side) and the residual predicates of the ON condition.  The third result
    (target-only predicates) is not used by any plan and is left out. *)
Definition analyze_one (p : expr) : option (expr * expr) :=
  match p with
  | EEq l r =>
    match classify l, classify r with
    | DTarget, DSource => Some (l, r)
    | DSource, DTarget => Some (r, l)
    | _, _ => None
    end
  | _ => None
  end.
Fixpoint analyze (ps : list expr) : list (expr * expr) * list expr :=
  match ps with
  | [] => ([], [])
  | p :: ps' =>
    let '(keys, residual) := analyze ps' in
    match analyze_one p with
    | Some k => (k :: keys, residual)
    | None => (keys, p :: residual)
    end
  end.

(** Clause actions (sail-common-datafusion/src/datasource.rs MergeMatchedAction,
    MergeNotMatchedBySourceAction, MergeNotMatchedByTargetAction).  Columns are target column
    positions; INSERT columns and values come paired, the resolver having checked that there are
    as many of each (resolver/command/merge.rs:440-444). *)
Inductive matched_action :=
| MDelete | MUpdateAll | MUpdateSet (assign : list (nat * expr)).
Inductive by_source_action := SDelete | SUpdateSet (assign : list (nat * expr)).
Inductive by_target_action := TInsertAll | TInsertColumns (assign : list (nat * expr)).

Record clause (A : Type) := Clause { c_cond : option expr; c_action : A }.
Arguments Clause {_} _ _.
Arguments c_cond {_} _.
Arguments c_action {_} _.

(** MergeIntoOptions (sail-common-datafusion/src/datasource.rs:311-345), the parts that decide
    which rows result. Generated columns and check constraints are not modelled. *)
Record merge := Merge {
  m_case_sensitive : bool;
  m_target_names : list text;
  m_source_names : list text;
  m_on : expr;
  m_matched : list (clause matched_action);
  m_by_source : list (clause by_source_action);
  m_by_target : list (clause by_target_action);
  m_defaults : list (text * expr);
}.

(** u8::to_ascii_lowercase, str::eq_ignore_ascii_case; merge_names_equal (merge.rs:451-457). *)
Definition ascii_lower (c : N) : N := if (65 <=? c)%N && (c <=? 90)%N then (c + 32)%N else c.
Definition names_equal (case_sensitive : bool) (a b : text) : bool :=
  if case_sensitive then bool_decide (a = b)
  else bool_decide (map ascii_lower a = map ascii_lower b).

(** merge_source_expr (merge.rs:1273-1281): the first source column of that name. *)
Definition source_expr (m : merge) (name : text) : option expr :=
  '(i, _) ← list_find (fun n => names_equal (m_case_sensitive m) n name = true) (m_source_names m);
  Some (ESrc i).

(** merge_default_expr, merge_insert_value (merge.rs:1283-1295). *)
Definition insert_value (m : merge) (name : text) : expr :=
  match list_find (fun d : text * expr => names_equal (m_case_sensitive m) d.1 name = true)
          (m_defaults m) with
  | Some (_, (_, e)) => e
  | None => ELit None
  end.

(** A target row as scanned: its file, its position in the file, its cells, and the row id added
    before the join (merge.rs:653-662; the ids of different rows differ, see C60). *)
Record trow := TRow { t_path : N; t_index : nat; t_cells : row; t_id : N }.

(** A row of the full outer join of target and source with its two presence columns
    (merge.rs:920-950, 1096-1116). *)
Record jrow := JRow { j_target : option trow; j_source : option row }.
Definition jcells (j : jrow) : option row := t_cells <$> j_target j.
Definition jeval (e : expr) (j : jrow) : cell := eval e (jcells j) (j_source j).
Definition jtrue (e : expr) (j : jrow) : tv := truth (jeval e j).
Definition present {A} (o : option A) : tv := Some (match o with Some _ => true | None => false end).

(** Join key equality under NullEqualsNothing: each side is computed on its own input. *)
Definition key_equal (t s : row) (k : expr * expr) : bool :=
  match eval k.1 (Some t) None, eval k.2 None (Some s) with
  | Some x, Some y => bool_decide (x = y)
  | _, _ => false
  end.
(** combine_conjunction (merge.rs:1614-1618). *)
Definition conjunction (es : list expr) : option expr :=
  match es with [] => None | e :: es' => Some (fold_left EAnd es' e) end.
Definition filter_true (f : option expr) (t s : row) : bool :=
  match f with None => true | Some e => bool_decide (truth (eval e (Some t) (Some s)) = Some true) end.

(** The match condition of the joins built by the expansion (merge.rs:937-950, 814-834). *)
Definition joins (m : merge) (t s : row) : bool :=
  let '(keys, residual) := analyze (split_conjunction (m_on m)) in
  forallb (key_equal t s) keys && filter_true (conjunction residual) t s.

(** Full, left-anti and left-semi join.  The order of a join's output is up to the executor; the
    results below are compared as multisets. *)
Definition join_target (m : merge) (ss : list row) (t : trow) : list jrow :=
  match filter (fun s => joins m (t_cells t) s = true) ss with
  | [] => [JRow (Some t) None]
  | ms => map (fun s => JRow (Some t) (Some s)) ms
  end.
Definition unmatched_sources (m : merge) (ts : list trow) (ss : list row) : list row :=
  filter (fun s => forallb (fun t => negb (joins m (t_cells t) s)) ts = true) ss.
Definition matched_sources (m : merge) (ts : list trow) (ss : list row) : list row :=
  filter (fun s => existsb (fun t => joins m (t_cells t) s) ts = true) ss.
Definition full_join (m : merge) (ts : list trow) (ss : list row) : list jrow :=
  concat (map (join_target m ss) ts) ++
  map (fun s => JRow None (Some s)) (unmatched_sources m ts ss).

(** should_check_cardinality (merge.rs:1466-1479). *)
Definition should_check_cardinality (cs : list (clause matched_action)) : bool :=
  match cs with
  | [] => false
  | [Clause None MDelete] => false
  | _ => true
  end.

(** MergeCardinalityCheckStream::poll_next (crates/sail-physical-plan/src/
    merge_cardinality_check.rs:177-244) over one stream: fails at the second matched row with a
    row id seen before.  (Several partitions: see C61.) *)
Fixpoint check_cardinality (seen : list N) (js : list jrow) : bool :=
  match js with
  | [] => true
  | j :: js' =>
    match j_target j, j_source j with
    | Some t, Some _ =>
      if bool_decide (t_id t ∈ seen) then false else check_cardinality (t_id t :: seen) js'
    | _, _ => check_cardinality seen js'
    end
  end.

(** The three base predicates over the presence columns (merge.rs:965-970, 1669-1696). *)
Definition base_matched (j : jrow) : tv := and3 (present (j_target j)) (present (j_source j)).
Definition base_by_source (j : jrow) : tv :=
  and3 (present (j_target j)) (not3 (present (j_source j))).
Definition base_by_target (j : jrow) : tv :=
  and3 (not3 (present (j_target j))) (present (j_source j)).

Notation pred := (jrow -> tv).
Definition cond_pred (c : option expr) : pred :=
  fun j => match c with Some e => jtrue e j | None => Some true end.

(** first_matching_clause_predicates (merge.rs:1633-1660). *)
Fixpoint first_matching (base : pred) (prior : option pred) (conds : list (option expr))
    : list pred :=
  match conds with
  | [] => []
  | c :: cs =>
    let clause_match : pred := fun j => is_true3 (and3 (base j) (cond_pred c j)) in
    let selected : pred :=
      match prior with
      | Some p => fun j => and3 (clause_match j) (not3 (p j))
      | None => clause_match
      end in
    let prior' : pred :=
      match prior with
      | Some p => fun j => or3 (p j) (clause_match j)
      | None => clause_match
      end in
    selected :: first_matching base (Some prior') cs
  end.

(** Row operations (sail-common-datafusion/src/datasource.rs:95-116). *)
Inductive op :=
| Copy | Delete | Update | Insert | Noop | MatchedDelete | MatchedUpdate
| BySourceDelete | BySourceUpdate | SourceMetric.
#[global] Instance op_eq_dec : EqDecision op.
Proof. solve_decision. Defined.

(** Evaluation of a searched CASE. *)
Fixpoint case_when {A} (branches : list (pred * A)) (other : A) (j : jrow) : A :=
  match branches with
  | [] => other
  | (p, a) :: bs => if bool_decide (p j = Some true) then a else case_when bs other j
  end.

Definition assigned (assign : list (nat * expr)) (i : nat) : option expr :=
  '(_, (_, e)) ← list_find (fun a : nat * expr => a.1 = i) assign; Some e.

(** The CASE branches of target column [i] named [name] (build_merge_projection,
    merge.rs:1698-1830). *)
Definition column_branches (m : merge) (pm ps pt : list pred) (i : nat) (name : text)
    : list (pred * expr) :=
  concat (zip_with (fun (c : clause matched_action) p =>
    match c_action c with
    | MDelete => []
    | MUpdateAll => [(p, default (ETgt i) (source_expr m name))]
    | MUpdateSet assign => match assigned assign i with Some e => [(p, e)] | None => [] end
    end) (m_matched m) pm) ++
  concat (zip_with (fun (c : clause by_source_action) p =>
    match c_action c with
    | SDelete => []
    | SUpdateSet assign => match assigned assign i with Some e => [(p, e)] | None => [] end
    end) (m_by_source m) ps) ++
  concat (zip_with (fun (c : clause by_target_action) p =>
    match c_action c with
    | TInsertAll => [(p, default (insert_value m name) (source_expr m name))]
    | TInsertColumns assign => [(p, default (insert_value m name) (assigned assign i))]
    end) (m_by_target m) pt).

(** The operation CASE (merge.rs:1866-1913). *)
Definition op_branches (m : merge) (pm ps : list pred) : list (pred * op) :=
  [((fun j => not3 (present (j_target j))) : pred, Insert)] ++
  zip_with (fun (c : clause matched_action) p =>
    (p, match c_action c with MDelete => MatchedDelete | _ => MatchedUpdate end))
    (m_matched m) pm ++
  zip_with (fun (c : clause by_source_action) p =>
    (p, match c_action c with SDelete => BySourceDelete | SUpdateSet _ => BySourceUpdate end))
    (m_by_source m) ps.

(** A row of the write plan: data columns, file path and row index of the target row (NULL for
    other rows), operation. *)
Record wrow := WRow { w_cells : row; w_path : option N; w_index : option nat; w_op : op }.

(** build_merge_projection (merge.rs:1662-1918). *)
Definition project (m : merge) (j : jrow) : wrow :=
  let pm := first_matching base_matched None (map c_cond (m_matched m)) in
  let ps := first_matching base_by_source None (map c_cond (m_by_source m)) in
  let pt := first_matching base_by_target None (map c_cond (m_by_target m)) in
  WRow
    (imap (fun i name => jeval (case_when (column_branches m pm ps pt i name) (ETgt i) j) j)
       (m_target_names m))
    (t_path <$> j_target j) (t_index <$> j_target j)
    (case_when (op_branches m pm ps) Copy j).

Definition nulls (m : merge) : row := map (fun _ => None) (m_target_names m).
(** build_source_metric_plan (merge.rs:1393-1464): one metric row. *)
Definition metric_row (m : merge) : wrow := WRow (nulls m) None None SourceMetric.

(** Disjunctions of clause predicates (merge.rs:972-1020, 1620-1631). *)
Definition clause_pred (base : pred) {A} (c : clause A) : pred :=
  fun j => match c_cond c with Some e => and3 (base j) (jtrue e j) | None => base j end.
Definition disjunction (ps : list pred) : pred :=
  match ps with
  | [] => fun _ => Some false
  | p :: ps' => fun j => fold_left (fun acc q => or3 acc (q j)) ps' (p j)
  end.
Definition insert_expr (m : merge) : pred :=
  disjunction (map (clause_pred base_by_target) (m_by_target m)).
Definition row_delete_expr (m : merge) : pred :=
  disjunction (map (clause_pred base_matched) (m_matched m) ++
               map (clause_pred base_by_source) (m_by_source m)).
(** build_rewrite_predicates, combine_rewrite_preds (merge.rs:1920-1952). *)
Definition rewrite_filter (m : merge) : pred :=
  disjunction
    (map (clause_pred (fun j => and3 (base_matched j) (jtrue (m_on m) j))) (m_matched m) ++
     map (clause_pred base_by_source) (m_by_source m)).

(** MergeExpansion (merge.rs:435-441): write plan rows, touched file paths, rows to delete. *)
Record expansion := Expansion {
  x_rows : list wrow; x_touched : list N; x_deletes : option (list (N * nat)) }.

(** build_default_merge_expansion (merge.rs:908-1094). [row_index] says whether the format asked
    for a row-index delete plan. *)
Definition default_expansion (m : merge) (row_index : bool) (js : list jrow) : expansion :=
  let active : pred := fun j => or3 (present (j_target j)) (insert_expr m j) in
  Expansion
    (map (project m) (filter (fun j => active j = Some true) js) ++ [metric_row m])
    (omap (fun j => t_path <$> j_target j)
       (filter (fun j => rewrite_filter m j = Some true) js))
    (if row_index then
       Some (omap (fun j => (fun t => (t_path t, t_index t)) <$> j_target j)
               (filter (fun j => row_delete_expr m j = Some true) js))
     else None).

(** can_fast_append_insert_only (merge.rs:1118-1168). *)
Definition insert_only (m : merge) : bool :=
  match m_matched m, m_by_source m, m_by_target m with
  | [], [], _ :: _ => true
  | _, _, _ => false
  end.
Definition by_target_refs (c : clause by_target_action) : bool :=
  match c_cond c with Some e => uses_target e | None => false end ||
  match c_action c with
  | TInsertAll => false
  | TInsertColumns assign => existsb (fun a => uses_target a.2) assign
  end.
Definition can_fast_append (m : merge) : bool :=
  insert_only m && negb (existsb by_target_refs (m_by_target m)).

(** The fast append path (merge.rs:811-893, 1170-1182, 1304-1391): an anti join for the rows to
    insert, a semi join for the rows counted only. *)
Definition fast_branches (m : merge) (i : nat) (name : text) : list (pred * expr) :=
  map (fun c : clause by_target_action =>
    (cond_pred (c_cond c),
     match c_action c with
     | TInsertAll => default (insert_value m name) (source_expr m name)
     | TInsertColumns assign => default (insert_value m name) (assigned assign i)
     end)) (m_by_target m).
Definition fast_filter (m : merge) : pred :=
  disjunction (map (fun c : clause by_target_action => cond_pred (c_cond c)) (m_by_target m)).
Definition fast_project (m : merge) (s : row) : wrow :=
  let j := JRow None (Some s) in
  WRow
    (imap (fun i name => jeval (case_when (fast_branches m i name) (ELit None) j) j)
       (m_target_names m))
    None None (if bool_decide (fast_filter m j = Some true) then Insert else Noop).
Definition fast_expansion (m : merge) (ts : list trow) (ss : list row) : expansion :=
  Expansion
    (map (fast_project m) (unmatched_sources m ts ss) ++
     map (fun _ => WRow (nulls m) None None Noop) (matched_sources m ts ss))
    [] None.

(** expand_merge (merge.rs:505-905); [unique] is the result of the analysis of the source plan
    (source_is_unique_on_merge_join_keys).  [None]: MERGE_CARDINALITY_VIOLATION. *)
Definition expand (m : merge) (unique row_index : bool) (ts : list trow) (ss : list row)
    : option expansion :=
  if can_fast_append m then Some (fast_expansion m ts ss)
  else
    let js := full_join m ts ss in
    if should_check_cardinality (m_matched m) && negb unique && negb (check_cardinality [] js)
    then None
    else Some (default_expansion m row_index js).

(** A table: files of rows, each row with its position in the file (rows removed by an earlier
    deletion vector or position delete are not listed). *)
Record file := File { f_path : N; f_rows : list (nat * row) }.
Notation table := (list file).

(** The scan of the target with file path, row index and row id columns. *)
Definition scan_file (f : file) : list (N * nat * row) :=
  map (fun ir => (f_path f, ir.1, ir.2)) (f_rows f).
Definition scan (tb : table) : list trow :=
  imap (fun i p => TRow p.1.1 p.1.2 p.2 (N.of_nat i)) (concat (map scan_file tb)).

(** The rows a table shows to a reader. *)
Definition rows_of (tb : table) : list row := concat (map (fun f => map snd (f_rows f)) tb).

(** metric_only_filter_mask (crates/sail-delta-lake/src/physical_plan/writer_exec.rs:951-1009). *)
Definition metric_only (o : op) : bool :=
  match o with
  | Noop | Delete | MatchedDelete | BySourceDelete | SourceMetric => true
  | _ => false
  end.
Definition new_file (path : N) (rows : list row) : file := File path (imap pair rows).
Definition delta_write (path : N) (ws : list wrow) : file :=
  new_file path (map w_cells (filter (fun w => metric_only (w_op w) = false) ws)).

(** build_merge_plan with build_targeted_writer_input (crates/sail-delta-lake/src/physical_plan/
    planner/op_merge.rs:105-192, 376-446), reached with touched files only if the statement is
    not insert-only (planner/row_level.rs:69-93).  Simplification: one new file. *)
Definition run_cow (m : merge) (unique : bool) (path : N) (tb : table) (ss : list row)
    : option table :=
  x ← expand m unique false (scan tb) ss;
  Some (
    if insert_only m then tb ++ [delta_write path (x_rows x)]
    else
      filter (fun f => f_path f ∉ x_touched x) tb ++
      [delta_write path
         (filter (fun w => match w_path w with
                          | Some p => bool_decide (p ∈ x_touched x)
                          | None => true
                          end = true) (x_rows x))]).

(** Whether the statement has DELETE or UPDATE actions on target rows
    (crates/sail-delta-lake/src/logical/merge.rs:103-113; op_merge.rs:524-554). *)
Definition has_delete (m : merge) : bool :=
  existsb (fun c : clause matched_action => match c_action c with MDelete => true | _ => false end)
    (m_matched m) ||
  existsb (fun c : clause by_source_action => match c_action c with SDelete => true | _ => false end)
    (m_by_source m).
Definition has_update (m : merge) : bool :=
  existsb (fun c : clause matched_action => match c_action c with MDelete => false | _ => true end)
    (m_matched m) ||
  existsb (fun c : clause by_source_action => match c_action c with SDelete => false | _ => true end)
    (m_by_source m).

Definition delete_rows (ds : list (N * nat)) (tb : table) : table :=
  map (fun f => File (f_path f)
    (filter (fun ir : nat * row => (f_path f, ir.1) ∉ ds) (f_rows f))) tb.

(** build_merge_plan_mor, used when the table supports deletion vectors (op_merge.rs:199-329). *)
Inductive result := Failed | NotSupported | Done (tb : table).
Definition run_mor (m : merge) (unique : bool) (path : N) (tb : table) (ss : list row) : result :=
  if has_update m then NotSupported
  else
    match expand m unique (has_delete m) (scan tb) ss with
    | None => Failed
    | Some x =>
      match (if insert_only m then None else x_deletes x) with
      | Some ds =>
        Done (delete_rows ds tb ++
              [delta_write path (filter (fun w => w_path w = None) (x_rows x))])
      | None => Done (tb ++ [delta_write path (x_rows x)])
      end
    end.

(** merge_operation_writes_data, merge_operation_writes_position_delete
    (crates/sail-iceberg/src/physical_plan/merge_row_projection.rs:112-123). *)
Definition writes_data (o : op) : bool :=
  match o with Insert | MatchedUpdate | BySourceUpdate => true | _ => false end.
Definition writes_delete (o : op) : bool :=
  match o with
  | MatchedDelete | MatchedUpdate | BySourceDelete | BySourceUpdate => true
  | _ => false
  end.
(** IcebergMergeRowProjection (merge_row_projection.rs:22-84) over the write plan. *)
Definition run_iceberg (m : merge) (unique : bool) (path : N) (tb : table) (ss : list row)
    : option table :=
  x ← expand m unique (has_delete m || has_update m) (scan tb) ss;
  let ds := omap (fun w => p ← w_path w; i ← w_index w; Some (p, i))
              (filter (fun w => writes_delete (w_op w) = true) (x_rows x)) in
  Some (delete_rows ds tb ++
        [new_file path (map w_cells (filter (fun w => writes_data (w_op w) = true) (x_rows x)))]).
