(** Join reordering: a region of inner hash joins is turned into a graph of relations and
    predicates, a join tree over the relations is chosen, and the region is rebuilt along that
    tree (crates/sail-physical-optimizer/src/join_reorder). *)
From Coq Require Import NArith ZArith ZifyN Ascii String Lia.
From stdpp Require Import prelude list gmap.
From Verif.Lib Require Import Text.
From Verif.Sql Require Import LexModel.

(** ** Physical plans and what they return *)

(** A cell value; [None] is NULL.  Simplification: integers and booleans stand for all types. *)
Inductive val := VInt (z : Z) | VBool (b : bool).
#[global] Instance val_eq_dec : EqDecision val.
Proof. solve_decision. Defined.
Notation cell := (option val).
Notation row := (list cell).

(** Physical expressions.  A column has a name and the index it is evaluated by
    (datafusion Column).  [EApp] is any other deterministic expression that does not fail. *)
Inductive expr :=
| ECol (name : text) (i : nat)
| ELit (c : cell)
| EEq (a b : expr)
| EAnd (a b : expr)
| EApp (f : list cell -> cell) (args : list expr).

Definition cell_at (r : row) (i : nat) : cell := default None (r !! i).
Definition truth (c : cell) : option bool := match c with Some (VBool b) => Some b | _ => None end.
Definition eq_cell (a b : cell) : cell :=
  match a, b with Some x, Some y => Some (VBool (bool_decide (x = y))) | _, _ => None end.
Definition and_cell (a b : cell) : cell :=
  match truth a, truth b with
  | Some false, _ | _, Some false => Some (VBool false)
  | Some true, Some true => Some (VBool true)
  | _, _ => None
  end.
Fixpoint eval_expr (r : row) (e : expr) : cell :=
  match e with
  | ECol _ i => cell_at r i
  | ELit c => c
  | EEq a b => eq_cell (eval_expr r a) (eval_expr r b)
  | EAnd a b => and_cell (eval_expr r a) (eval_expr r b)
  | EApp f args => f (map (eval_expr r) args)
  end.
(** A filter keeps the rows for which its predicate is true. *)
Definition holds (c : cell) : bool := match truth c with Some true => true | _ => false end.

(** A join filter is evaluated on a row put together from columns of the two sides
    (datafusion JoinFilter). *)
Inductive side := SLeft | SRight.
#[global] Instance side_eq_dec : EqDecision side.
Proof. solve_decision. Defined.
Record jfilter := { jf_expr : expr; jf_cols : list (side * nat) }.

(** The physical operators the rule looks at or makes: HashJoinExec with an inner join type,
    NestedLoopJoinExec (inner), CrossJoinExec and ProjectionExec with nothing but columns.
    [POther] is any other operator, including joins that are not inner and projections that
    compute something: the rows it returns, their width, and whether it is an AggregateExec.
    [null_safe] is NullEquality::NullEqualsNull.  Simplification: column names of schemas, types,
    partitioning and statistics are left out, and what is below [POther] is not rewritten. *)
Inductive plan :=
| POther (agg : bool) (w : nat) (rows : list row)
| PHash (l r : plan) (on : list (expr * expr)) (null_safe : bool) (filter : option jfilter)
    (proj : option (list nat))
| PNested (l r : plan) (filter : option jfilter) (proj : option (list nat))
| PCross (l r : plan)
| PProj (cols : list nat) (input : plan).

Definition pick (cols : list nat) (r : row) : row := map (cell_at r) cols.
Definition project (proj : option (list nat)) (r : row) : row :=
  match proj with None => r | Some cols => pick cols r end.
Definition key_match (null_safe : bool) (a b : cell) : bool :=
  if null_safe then bool_decide (a = b) else holds (eq_cell a b).
Definition filter_row (cols : list (side * nat)) (l r : row) : row :=
  map (fun si => match si.1 with SLeft => cell_at l si.2 | SRight => cell_at r si.2 end) cols.
Definition filter_ok (f : option jfilter) (l r : row) : bool :=
  match f with
  | None => true
  | Some f => holds (eval_expr (filter_row (jf_cols f) l r) (jf_expr f))
  end.
Definition keys_ok (on : list (expr * expr)) (null_safe : bool) (l r : row) : bool :=
  forallb (fun ab => key_match null_safe (eval_expr l ab.1) (eval_expr r ab.2)) on.
Definition join_rows (keep : row -> row -> bool) (L R : list row) : list row :=
  L ≫= fun l => R ≫= fun r => if keep l r then [l ++ r] else [].

(** The rows a plan returns; the order of the list means nothing. *)
Fixpoint eval (p : plan) : list row :=
  match p with
  | POther _ _ rows => rows
  | PHash l r on ns f proj =>
      map (project proj)
        (join_rows (fun a b => keys_ok on ns a b && filter_ok f a b) (eval l) (eval r))
  | PNested l r f proj => map (project proj) (join_rows (filter_ok f) (eval l) (eval r))
  | PCross l r => join_rows (fun _ _ => true) (eval l) (eval r)
  | PProj cols input => map (pick cols) (eval input)
  end.
(** The number of columns of its schema. *)
Fixpoint width (p : plan) : nat :=
  match p with
  | POther _ w _ => w
  | PHash l r _ _ _ proj | PNested l r _ proj =>
      match proj with None => width l + width r | Some cols => length cols end
  | PCross l r => width l + width r
  | PProj cols _ => length cols
  end.

(** ** The graph *)

(** A column of a relation: the relation's number and the column's index
    (StableColumn, graph.rs:13-19; ColumnMapEntry::Stable, builder.rs). *)
Notation stable := (nat * nat)%type.
(** ColumnMap (builder.rs).  Simplification: ColumnMapEntry::Expression is left out: it is only
    made by visit_projection (builder.rs:555-585) for an expression that is not a column, and
    visit_plan calls that for projections of columns only (builder.rs:118-130). *)
Notation colmap := (list (nat * nat)).
(** JoinSet (join_set.rs): a set of relations.  Simplification: not limited to 64. *)
Notation rset := (gset nat).

(** JoinEdge (graph.rs:96-136).  The join type is left out: only inner joins make edges. *)
Record edge := {
  e_left : rset; e_right : rset;
  e_filter : expr;
  e_pairs : list (stable * stable);
  e_null_safe : bool }.
Definition e_set (e : edge) : rset := e_left e ∪ e_right e.
(** QueryGraph (graph.rs:139-146). *)
Record graph := { g_rels : list plan; g_edges : list edge }.

(** StableColumn::format_stable_name (graph.rs:23-25). *)
Definition stable_name (c : stable) : text :=
  82%N :: decimal (N.of_nat c.1) ++ [46; 67]%N ++ decimal (N.of_nat c.2).
(** str::parse::<usize>: an optional plus sign and at least one digit.  Simplification: no
    overflow. *)
Definition parse_usize (s : text) : option nat :=
  let s := match s with c :: s' => if (c =? 43)%N then s' else s | [] => [] end in
  if bool_decide (s <> []) && forallb is_digit s then Some (N.to_nat (dec_value s)) else None.
(** The text before the first dot and the text after it. *)
Fixpoint split_dot (s : text) : option (text * text) :=
  match s with
  | [] => None
  | c :: s' =>
      if (c =? 46)%N then Some ([], s')
      else '(a, b) ← split_dot s'; Some (c :: a, b)
  end.
(** StableColumn::parse_stable_name (graph.rs:28-41). *)
Definition parse_stable (name : text) : option stable :=
  match name with
  | 82%N :: rest =>
      '(rel, rest') ← split_dot rest;
      match rest' with
      | 67%N :: col => r ← parse_usize rel; c ← parse_usize col; Some (r, c)
      | _ => None
      end
  | _ => None
  end.

(** The columns of an expression, in order of appearance (collect_columns, which returns a set). *)
Fixpoint columns (e : expr) : list (text * nat) :=
  match e with
  | ECol n i => [(n, i)]
  | ELit _ => []
  | EEq a b | EAnd a b => columns a ++ columns b
  | EApp _ args => concat (map columns args)
  end.
(** TreeNode::transform with a closure that replaces columns or fails. *)
Fixpoint replace_cols (f : text -> nat -> option expr) (e : expr) : option expr :=
  match e with
  | ECol n i => f n i
  | ELit c => Some (ELit c)
  | EEq a b => a' ← replace_cols f a; b' ← replace_cols f b; Some (EEq a' b')
  | EAnd a b => a' ← replace_cols f a; b' ← replace_cols f b; Some (EAnd a' b')
  | EApp g args => args' ← mapM (replace_cols f) args; Some (EApp g args')
  end.
(** decompose_conjuncts (builder.rs:323-338, reconstructor.rs:1055-1069). *)
Fixpoint conjuncts (e : expr) : list expr :=
  match e with
  | EAnd a b => conjuncts a ++ conjuncts b
  | e => [e]
  end.

(** resolve_to_single_stable_col (builder.rs:899-931). *)
Definition resolve (e : expr) (m : colmap) : option stable :=
  match e with ECol _ i => m !! i | _ => None end.
(** rewrite_join_filter_to_stable (builder.rs:505-553). *)
Definition to_stable (f : jfilter) (ml mr : colmap) : option expr :=
  replace_cols (fun n i =>
    '(s, j) ← jf_cols f !! i;
    match (match s with SLeft => ml !! j | SRight => mr !! j end) with
    | Some c => Some (ECol (stable_name c) 0)
    | None => Some (ECol n i)
    end) (jf_expr f).

(** relations_in_map (builder.rs:479-485). *)
Definition rels_of (m : colmap) : rset := list_to_set m.*1.
(** relations_for_expr (builder.rs:371-429). *)
Definition rel_of_col (ml mr : colmap) (c : text * nat) : option nat :=
  match parse_stable c.1 with
  | Some (r, _) => Some r
  | None =>
      match ml !! c.2, mr !! c.2 with
      | Some (r, _), None | None, Some (r, _) => Some r
      | _, _ => None
      end
  end.
Definition deps (e : expr) (ml mr : colmap) : option rset :=
  rs ← mapM (rel_of_col ml mr) (columns e); Some (list_to_set rs).
(** The two ends of a predicate (builder.rs:233-262). *)
Definition endpoints (e : expr) (ml mr : colmap) : option (rset * rset) :=
  d ← deps e ml mr;
  let lr := rels_of ml in
  let rr := rels_of mr in
  let d := if decide (size d < 2) then lr ∪ rr else d in
  let l := d ∩ lr in
  let r := d ∩ rr in
  let '(l, r) :=
    if decide (l = ∅ \/ r = ∅) then ((lr ∪ rr) ∩ lr, (lr ∪ rr) ∩ rr) else (l, r) in
  if decide (l = ∅ \/ r = ∅) then None else Some (l, r).

(** Predicates with their key pairs, grouped by their two ends (builder.rs:224-275).
    Simplification: groups in order of appearance; the code keeps them in a hash map, whose
    order is modelled by [order] below. *)
Notation pred := (expr * list (stable * stable))%type.
Fixpoint add_group (k : rset * rset) (x : pred) (gs : list ((rset * rset) * list pred)) :=
  match gs with
  | [] => [(k, [x])]
  | (k', xs) :: gs' =>
      if decide (k = k') then (k', xs ++ [x]) :: gs' else (k', xs) :: add_group k x gs'
  end.
Fixpoint group_preds (ml mr : colmap) (ps : list pred) (gs : list ((rset * rset) * list pred))
  : option (list ((rset * rset) * list pred)) :=
  match ps with
  | [] => Some gs
  | p :: ps' => k ← endpoints p.1 ml mr; group_preds ml mr ps' (add_group k p gs)
  end.
(** combine_predicates (builder.rs:487-503) and JoinEdge::new (graph.rs:118-135,
    builder.rs:277-288). *)
Definition conjoin (e : expr) (es : list expr) : expr := fold_left EAnd es e.
Definition make_edge (null_safe : bool) (g : (rset * rset) * list pred) : edge :=
  {| e_left := g.1.1; e_right := g.1.2;
     e_filter := match g.2 with [] => ELit None | p :: ps => conjoin p.1 ps.*1 end;
     e_pairs := concat g.2.*2;
     e_null_safe := null_safe |}.

(** JoinReorderOptions::max_relations and the order in which the hash map of a join's predicate
    groups is read. *)
Record options := { max_relations : nat; order : list edge -> list edge }.

(** create_relation_node (builder.rs:587-669).  Statistics are left out. *)
Definition relation (o : options) (p : plan) (g : graph) : option (colmap * graph) :=
  if decide (max_relations o <= length (g_rels g)) then None
  else Some (map (fun i => (length (g_rels g), i)) (seq 0 (width p)),
             {| g_rels := g_rels g ++ [p]; g_edges := g_edges g |}).
(** is_trivial_projection (builder.rs:346-362). *)
Definition trivial_projection (cols : list nat) (input : plan) : bool :=
  bool_decide (cols <> []) && forallb (fun i => i <? width input) cols.
(** The predicates of a hash join (builder.rs:180-222). *)
Definition join_preds (on : list (expr * expr)) (f : option jfilter) (ml mr : colmap)
  : option (list pred) :=
  keys ← mapM (fun ab : expr * expr =>
    a ← resolve ab.1 ml; b ← resolve ab.2 mr;
    Some ((EEq (ECol (stable_name a) 0) (ECol (stable_name b) 0), [(a, b)]) : pred)) on;
  rest ← match f with
         | None => Some []
         | Some f => e ← to_stable f ml mr; Some (map (fun c => (c, []) : pred) (conjuncts e))
         end;
  Some (keys ++ rest).
(** The columns a projection picks (builder.rs:290-312, 555-585). *)
Definition pick_cols (m : colmap) (cols : list nat) : option colmap := mapM (fun i => m !! i) cols.

(** visit_plan, visit_hash_join, visit_projection (builder.rs:98-313, 555-585): the columns of the
    plan and the graph; [None] abandons the region. *)
Fixpoint visit (o : options) (p : plan) (g : graph) : option (colmap * graph) :=
  match p with
  | PHash l r on ns f proj =>
      '(ml, g1) ← visit o l g;
      '(mr, g2) ← visit o r g1;
      ps ← join_preds on f ml mr;
      gs ← group_preds ml mr ps [];
      out ← match proj with None => Some (ml ++ mr) | Some cols => pick_cols (ml ++ mr) cols end;
      Some (out, {| g_rels := g_rels g2;
                    g_edges := g_edges g2 ++ order o (map (make_edge ns) gs) |})
  | PProj cols input =>
      if trivial_projection cols input then
        if decide (max_relations o <= length (g_rels g)) then relation o p g
        else '(m, g1) ← visit o input g; out ← pick_cols m cols; Some (out, g1)
      else relation o p g
  | POther true _ _ => None
  | _ => relation o p g
  end.

(** ** The join tree *)

(** DPPlan (dp_plan.rs:7-61): the set of relations and how it was put together.
    Simplification: a node holds its children where the code holds their sets and finds them in
    the table by these (enumerator.rs:500-585 and 730-745 store a plan under its own set); costs are
    left out. *)
Inductive tree :=
| TLeaf (s : rset) (rid : nat)
| TJoin (s : rset) (edges : list nat) (l r : tree).
Definition tset (t : tree) : rset := match t with TLeaf s _ => s | TJoin s _ _ _ => s end.

(** validate_reconstruction_subplan (reconstructor.rs:325-431): the edges used, in order, and the
    sets seen.  The test is_join_pair_legal (graph.rs:239-286) passes whenever all joins are
    inner and is left out. *)
Definition connects (g : graph) (s l r : rset) (i : nat) : bool :=
  match g_edges g !! i with
  | Some e =>
      bool_decide (e_set e ⊆ s) && negb (bool_decide (e_set e ⊆ l)) && negb (bool_decide (e_set e ⊆ r))
  | None => false
  end.
Fixpoint validate_sub (g : graph) (t : tree) (seen : list rset) : option (list nat * list rset) :=
  if decide (tset t ∈ seen) then None
  else
    let seen := tset t :: seen in
    match t with
    | TLeaf s rid =>
        if decide (s = {[rid]}) then
          match g_rels g !! rid with Some _ => Some ([], seen) | None => None end
        else None
    | TJoin s es l r =>
        if decide (tset l ## tset r) then
          if decide (tset l ∪ tset r = s) then
            if forallb (connects g s (tset l) (tset r)) es then
              '(ul, seen) ← validate_sub g l seen;
              '(ur, seen) ← validate_sub g r seen;
              Some (es ++ ul ++ ur, seen)
            else None
          else None
        else None
    end.
(** validate_reconstruction_plan (reconstructor.rs:286-323). *)
Definition validate (g : graph) (t : tree) : bool :=
  if decide (tset t = list_to_set (seq 0 (length (g_rels g)))) then
    match validate_sub g t [] with
    | Some (used, _) =>
        forallb (fun i => bool_decide (length (filter (fun j => j = i) used) = 1))
          (seq 0 (length (g_edges g)))
    | None => false
    end
  else false.

(** find_physical_index (mod.rs:472-481). *)
Fixpoint find_col (c : stable) (m : colmap) : option nat :=
  match m with
  | [] => None
  | d :: m' => if decide (c = d) then Some 0 else i ← find_col c m'; Some (S i)
  end.

(** is_equi_join_condition (reconstructor.rs:1268-1291): by name, in either order. *)
Definition is_pair (a b : text) (ps : list (stable * stable)) : bool :=
  existsb (fun cd =>
    (bool_decide (a = stable_name cd.1) && bool_decide (b = stable_name cd.2)) ||
    (bool_decide (a = stable_name cd.2) && bool_decide (b = stable_name cd.1))) ps.
(** extract_non_equi_from_expression (reconstructor.rs:1216-1266). *)
Fixpoint residual (ps : list (stable * stable)) (e : expr) : option expr :=
  match e with
  | EAnd a b =>
      match residual ps a, residual ps b with
      | Some a', Some b' => Some (EAnd a' b')
      | Some x, None | None, Some x => Some x
      | None, None => None
      end
  | EEq (ECol a _) (ECol b _) => if is_pair a b ps then None else Some e
  | e => Some e
  end.
Definition residual_preds (e : edge) : list expr :=
  match residual (e_pairs e) (e_filter e) with None => [] | Some x => conjuncts x end.

(** find_side_and_index (reconstructor.rs:875-937).  Simplification: the search by field name that
    follows when the stable column is on neither side is an error here. *)
Definition find_side (ml mr : colmap) (name : text) : option (side * nat) :=
  c ← parse_stable name;
  match find_col c ml with
  | Some i => Some (SLeft, i)
  | None => i ← find_col c mr; Some (SRight, i)
  end.
(** The columns of the filter's row, each once (reconstructor.rs:939-949). *)
Fixpoint compact (seen : list (side * nat)) (cs : list (side * nat)) : list (side * nat) :=
  match cs with
  | [] => seen
  | c :: cs' => if decide (c ∈ seen) then compact seen cs' else compact (seen ++ [c]) cs'
  end.
Fixpoint position (c : side * nat) (l : list (side * nat)) : option nat :=
  match l with
  | [] => None
  | d :: l' => if decide (c = d) then Some 0 else i ← position c l'; Some (S i)
  end.
(** analyze_predicate_dependencies (reconstructor.rs:1105-1179).  Simplification: a column whose
    name is not stable is an error here. *)
Definition pred_rels (e : expr) : option rset :=
  rs ← mapM (fun c : text * nat => parse_stable c.1) (columns e); Some (list_to_set rs.*1).
(** build_join_filter (reconstructor.rs:756-988); the outer option is failure.  Simplification: a
    predicate that needs a relation outside the join is an error here, where the code puts it off
    to a later join (reconstructor.rs:793-833); [C69_always_rebuilt_partial] shows that this does not
    arise. *)
Definition build_filter (es : list edge) (s : rset) (ml mr : colmap)
  : option (option jfilter) :=
  let preds := concat (map residual_preds es) in
  if forallb (fun p => match pred_rels p with Some rs => bool_decide (rs ⊆ s) | None => false end) preds
  then
    match preds with
    | [] => Some None
    | p :: ps =>
        let e := conjoin p ps in
        cs ← mapM (fun c : text * nat => find_side ml mr c.1) (columns e);
        let cols := compact [] cs in
        e' ← replace_cols (fun n _ => c ← find_side ml mr n; i ← position c cols; Some (ECol n i)) e;
        Some (Some {| jf_expr := e'; jf_cols := cols |})
    end
  else None.

(** build_join_conditions (reconstructor.rs:636-717): a pair that does not span the two sides is
    left out, and it is an error if that leaves none of at least one. *)
Definition pair_keys (ml mr : colmap) (ab : stable * stable) : list (expr * expr) :=
  match find_col ab.1 ml, find_col ab.2 mr with
  | Some i, Some j => [(ECol [] i, ECol [] j)]
  | _, _ =>
      match find_col ab.2 ml, find_col ab.1 mr with
      | Some i, Some j => [(ECol [] i, ECol [] j)]
      | _, _ => []
      end
  end.
Definition build_keys (es : list edge) (ml mr : colmap) : option (list (expr * expr)) :=
  let pairs := concat (map e_pairs es) in
  let on := concat (map (pair_keys ml mr) pairs) in
  if decide (on = [] /\ pairs <> []) then None else Some on.
(** determine_null_equality (reconstructor.rs:724-754). *)
Definition null_mode (es : list edge) : option bool :=
  match es with
  | [] => Some false
  | e :: es' =>
      if forallb (fun e' => bool_decide (e_null_safe e' = e_null_safe e)) es'
      then Some (e_null_safe e) else None
  end.

(** The columns a join needs of one side (reconstructor.rs:132-197): those its own output needs
    and those its predicates use. *)
Definition expr_stables (e : expr) : list stable := omap (fun c : text * nat => parse_stable c.1) (columns e).
Definition edge_stables (e : edge) : list stable :=
  concat (map (fun ab => [ab.1; ab.2]) (e_pairs e)) ++ expr_stables (e_filter e).
Definition needs (required : list stable) (es : list edge) (s : rset) : list stable :=
  filter (fun c => c.1 ∈ s) (required ++ concat (map edge_stables es)).
(** compute_required_projection (reconstructor.rs:246-278). *)
Definition required_proj (required : list stable) (m : colmap) : option (list nat) :=
  let keep :=
    filter (fun i => Is_true match m !! i with Some c => bool_decide (c ∈ required) | None => false end)
      (seq 0 (length m)) in
  if decide (keep = []) then None
  else if decide (length keep < length m) then Some keep else None.
Definition apply_proj (proj : option (list nat)) (m : colmap) : colmap :=
  match proj with None => m | Some cols => omap (fun i => m !! i) cols end.

(** reconstruct, reconstruct_leaf, reconstruct_join (reconstructor.rs:435-634).  Simplifications:
    the required columns of a node (prepare_required_output_columns, reconstructor.rs:65-130) are
    passed down here where the code stores them by set beforehand, and the cache of rebuilt
    nodes (443-446) is left out: [validate] has seen every set once. *)
Fixpoint reconstruct (g : graph) (t : tree) (required : list stable) : option (plan * colmap) :=
  match t with
  | TLeaf _ rid =>
      p ← g_rels g !! rid;
      let m := map (fun i => (rid, i)) (seq 0 (width p)) in
      match required_proj required m with
      | Some keep => Some (PProj keep p, apply_proj (Some keep) m)
      | None => Some (p, m)
      end
  | TJoin s is l r =>
      es ← mapM (fun i => g_edges g !! i) is;
      ns ← null_mode es;
      '(pl, ml) ← reconstruct g l (needs required es (tset l));
      '(pr, mr) ← reconstruct g r (needs required es (tset r));
      on ← build_keys es ml mr;
      f ← build_filter es (tset l ∪ tset r) ml mr;
      let proj := required_proj required (ml ++ mr) in
      let m := apply_proj proj (ml ++ mr) in
      match on, f with
      | [], Some _ => Some (PNested pl pr f proj, m)
      | [], None =>
          Some (match proj with
                | Some keep => PProj keep (PCross pl pr)
                | None => PCross pl pr
                end, m)
      | _, _ => Some (PHash pl pr on ns f proj, m)
      end
  end.

(** try_optimize_region (mod.rs:186-302) with build (builder.rs:74-94) and build_final_projection
    (mod.rs:304-398).  [choose] is the enumerator; [None] leaves the plan as it is. *)
Definition try_region (o : options) (choose : graph -> option tree) (p : plan) : option plan :=
  '(target, g) ← visit o p {| g_rels := []; g_edges := [] |};
  if decide (length (g_rels g) <= 2) then None
  else
    t ← choose g;
    if validate g t then
      '(joined, m) ← reconstruct g t target;
      cols ← mapM (fun c => find_col c m) target;
      Some (PProj cols joined)
    else None.

(** find_and_optimize_regions (mod.rs:147-184): bottom-up. *)
Fixpoint optimize (o : options) (choose : graph -> option tree) (p : plan) : plan :=
  let p' :=
    match p with
    | POther _ _ _ => p
    | PHash l r on ns f proj =>
        PHash (optimize o choose l) (optimize o choose r) on ns f proj
    | PNested l r f proj => PNested (optimize o choose l) (optimize o choose r) f proj
    | PCross l r => PCross (optimize o choose l) (optimize o choose r)
    | PProj cols input => PProj cols (optimize o choose input)
    end in
  default p' (try_region o choose p').
