(** Model of the pruning of Iceberg manifests and data files by a scan.
    Source: crates/sail-iceberg/src/datasource/pruning.rs and provider.rs. *)
From Coq Require Import NArith ZArith Lia.
From stdpp Require Import prelude list.
From Verif.Lib Require Import Text.
From Verif.Iceberg Require Import ValueModel TransformModel.

(** DataFusion's [Expr], as far as pruning looks at it.  Columns are field ids instead
    of names; a literal is already an Iceberg literal, [None] standing for NULL and for
    the scalars that [scalar_to_primitive_literal] (utils/conversions.rs:306-313)
    rejects; the target types of casts, the other operators and the other expressions
    are numbered. *)
Inductive binop := OEq | OGt | OGe | OLt | OLe | OAnd | OOther (k : nat).
Inductive expr :=
| ECol (c : nat)
| ELit (v : option prim)
| ECast (k : nat) (e : expr)
| EAlias (e : expr)
| EBin (o : binop) (l r : expr)
| EIn (e : expr) (negated : bool) (items : list expr)
| EOther (k : nat).

(** A partition field: source column and transform (spec/partition.rs [PartitionField]). *)
Definition pfield : Type := nat * transform.
(** The primitive columns of the table schema. *)
Definition schema := nat -> option ptype.

(** pruning.rs:348-354, 406-412, 722-728 and provider.rs:1369-1375 [strip] *)
Fixpoint strip (e : expr) : expr :=
  match e with ECast _ e => strip e | EAlias e => strip e | _ => e end.
(** provider.rs:1384-1386 [expr_is_literal] *)
Definition is_literal (e : expr) : bool := match e with ELit _ => true | _ => false end.

(** ** Which filters the scan uses *)
Inductive pushdown := Exact | Inexact | Unsupported.
Global Instance binop_eqdec : EqDecision binop.
Proof. solve_decision. Defined.
Global Instance pushdown_eqdec : EqDecision pushdown.
Proof. solve_decision. Defined.

Definition ignored (t : transform) : bool := match t with Void | Unknown => true | _ => false end.
Definition is_identity (t : transform) : bool := match t with Identity => true | _ => false end.
(** provider.rs:1405-1422 [partition_source_col_only_uses_identity] *)
Definition only_identity (specs : list (list pfield)) (c : nat) : option bool :=
  match filter (fun f : pfield => f.1 = c /\ ignored f.2 = false) (concat specs) with
  | [] => None
  | fs => Some (forallb (fun f : pfield => is_identity f.2) fs)
  end.
(** provider.rs:1388-1398 [eq_in_pushdown_for_partition_col] *)
Definition eq_in_pushdown (specs : list (list pfield)) (c : nat) : pushdown :=
  match only_identity specs c with
  | Some true => Exact | Some false => Inexact | None => Unsupported
  end.
Definition range_pushdown (specs : list (list pfield)) (c : nat) : pushdown :=
  match only_identity specs c with Some _ => Inexact | None => Unsupported end.
(** provider.rs:1278-1336 [classify_pushdown_for_expr] *)
Definition classify (specs : list (list pfield)) (e : expr) : pushdown :=
  match e with
  | EBin o l r =>
      match o, strip l, strip r with
      | OEq, ECol c, ELit _ | OEq, ELit _, ECol c => eq_in_pushdown specs c
      | (OGt | OGe | OLt | OLe), ECol c, ELit _
      | (OGt | OGe | OLt | OLe), ELit _, ECol c => range_pushdown specs c
      | _, _, _ => Unsupported
      end
  | EIn e false items =>
      match strip e with
      | ECol c => if forallb is_literal items then eq_in_pushdown specs c else Unsupported
      | _ => Unsupported
      end
  | _ => Unsupported
  end.
(** provider.rs:1338-1357 [separate_filters]: the filters used for pruning and those
    handed to the Parquet reader.  Repeated filters are not removed here. *)
Definition pruning_filters (specs : list (list pfield)) (fs : list expr) : list expr :=
  filter (fun e => classify specs e <> Unsupported) fs.
Definition exact_filters (specs : list (list pfield)) (fs : list expr) : list expr :=
  filter (fun e => classify specs e = Exact) fs.

(** ** Constraints on source columns *)
Section collect.
Context (sc : schema).
Definition known (c : nat) : bool := match sc c with Some _ => true | None => false end.

(** pruning.rs:347-400 [collect_source_eq_filters] *)
Fixpoint eq_filter (e : expr) : list (nat * prim) :=
  match e with
  | EBin OEq l r =>
      match strip l, strip r with
      | ECol c, ELit (Some p) | ELit (Some p), ECol c => if known c then [(c, p)] else []
      | _, _ => []
      end
  | EBin OAnd l r => eq_filter l ++ eq_filter r
  | _ => []
  end.
Definition eq_filters (fs : list expr) : list (nat * prim) := flat_map eq_filter fs.

Definition literal_items (items : list expr) : list prim :=
  flat_map (fun e => match e with ELit (Some p) => [p] | _ => [] end) items.
(** pruning.rs:402-450 [collect_source_in_filters]; the values of several lists for one
    column are gathered into one. *)
Fixpoint in_filter (e : expr) : list (nat * prim) :=
  match e with
  | EIn e false items =>
      match strip e with
      | ECol c => if known c then map (fun p => (c, p)) (literal_items items) else []
      | _ => []
      end
  | EBin OAnd l r => in_filter l ++ in_filter r
  | _ => []
  end.
Definition in_filters (fs : list expr) : list (nat * prim) := flat_map in_filter fs.
Definition for_column (c : nat) (l : list (nat * prim)) : list prim :=
  map snd (filter (fun p : nat * prim => p.1 = c) l).

(** A lower or an upper bound on a column, inclusive or not. *)
Record bound := Bound { b_col : nat; b_lower : bool; b_lit : prim; b_incl : bool }.
(** pruning.rs:784-818 [visit_expr] of [collect_source_range_filters]; [under] tells
    whether the expression is an operand of an AND, whose casts are stripped. *)
Fixpoint range_filter (under : bool) (e : expr) : list bound :=
  match e with
  | ECast _ e | EAlias e => if under then range_filter true e else []
  | EBin o l r =>
      match o with
      | OAnd => range_filter true l ++ range_filter true r
      | OGt | OGe =>
          let incl := match o with OGe => true | _ => false end in
          match strip l, strip r with
          | ECol c, ELit (Some p) => if known c then [Bound c true p incl] else []
          | ELit (Some p), ECol c => if known c then [Bound c false p incl] else []
          | _, _ => []
          end
      | OLt | OLe =>
          let incl := match o with OLe => true | _ => false end in
          match strip l, strip r with
          | ECol c, ELit (Some p) => if known c then [Bound c false p incl] else []
          | ELit (Some p), ECol c => if known c then [Bound c true p incl] else []
          | _, _ => []
          end
      | _ => []
      end
  | _ => []
  end.
End collect.

(** pruning.rs:457-470 [RangeConstraint] *)
Record range := Range { r_min : option (prim * bool); r_max : option (prim * bool) }.
(** pruning.rs:730-750 [tighten_min], [tighten_max] *)
Definition tighten (better : prim -> prim -> bool) (cur : option (prim * bool)) (cand : prim * bool)
  : option (prim * bool) :=
  match cur with
  | None => Some cand
  | Some (v, incl) =>
      if better cand.1 v || (prim_eq cand.1 v && negb cand.2 && incl) then Some cand else cur
  end.
Definition add_bound (r : range) (b : bound) : range :=
  if b_lower b then Range (tighten prim_gt (r_min r) (b_lit b, b_incl b)) (r_max r)
  else Range (r_min r) (tighten prim_lt (r_max r) (b_lit b, b_incl b)).
(** pruning.rs:718-820 [collect_source_range_filters], for one column; [None] when the
    column has no entry in the map. *)
Definition column_range (sc : schema) (c : nat) (fs : list expr) : option range :=
  match filter (fun b => b_col b = c) (flat_map (range_filter sc false) fs) with
  | [] => None
  | bs => Some (fold_left add_bound bs (Range None None))
  end.

(** ** Constraints on partition values; [None] is a panic *)
(** pruning.rs:542-551 [transform_primitive_literal] *)
Definition transform_literal (t : transform) (ty : ptype) (p : prim) : option (option prim) :=
  match apply_transform t ty (Some p) with Panic => None | Ret v => Some v end.
Definition shift (k : Z) (z : Z) (up : bool) : option Z :=
  let z := if up then (z + 1)%Z else (z - 1)%Z in
  if decide (- 2 ^ (k - 1) <= z < 2 ^ (k - 1))%Z then Some z else None.
(** pruning.rs:597-629 [adjust_exclusive_bound] *)
Definition adjust_exclusive (ty : ptype) (p : prim) (lower : bool) : option prim :=
  match ty, p with
  | (TyInt | TyDate), PInt z => PInt <$> shift 32 z lower
  | (TyLong | TyTime | TyTs | TyTsNs), PLong z => PLong <$> shift 64 z lower
  | _, _ => None
  end.
(** pruning.rs:580-595 [transform_bound_literal] *)
Definition bound_literal (ty : ptype) (p : prim) (lower incl : bool) : prim :=
  if incl then p else match adjust_exclusive ty p lower with Some q => q | None => p end.
Definition transform_bound (t : transform) (ty : ptype) (lower : bool) (b : option (prim * bool))
  : option (option (prim * bool)) :=
  match b with
  | None => Some None
  | Some (p, incl) =>
      match transform_literal t ty (bound_literal ty p lower incl) with
      | None => None
      | Some None => Some None
      | Some (Some q) => Some (Some (q, true))
      end
  end.
(** spec/transform.rs:216-221 *)
Definition preserves_order (t : transform) : bool :=
  match t with Void | Bucket _ | Unknown => false | _ => true end.
(** pruning.rs:553-578 [transform_range_constraint] *)
Definition transform_range (t : transform) (ty : ptype) (r : range) : option (option range) :=
  if preserves_order t then
    match transform_bound t ty true (r_min r), transform_bound t ty false (r_max r) with
    | Some None, Some None => Some None
    | Some mn, Some mx => Some (Some (Range mn mx))
    | _, _ => None
    end
  else Some None.

Inductive constraint := CEq (p : prim) | CIn (ps : list prim) | CRange (r : range).
(** A constraint on the partition field with the given index. *)
Definition predicate : Type := nat * constraint.
Fixpoint dedup (seen l : list prim) : list prim :=
  match l with
  | [] => []
  | p :: l => if existsb (prim_eq p) seen then dedup seen l else p :: dedup (p :: seen) l
  end.
(** pruning.rs:482-538, the body of the loop *)
Definition field_constraints (sc : schema) (fs : list expr) (f : pfield) : option (list constraint) :=
  if ignored f.2 then Some []
  else match sc f.1 with
  | None => Some []
  | Some ty =>
      eqs ← mapM (transform_literal f.2 ty) (for_column f.1 (eq_filters sc fs));
      ins ← mapM (transform_literal f.2 ty) (for_column f.1 (in_filters sc fs));
      rng ← match column_range sc f.1 fs with None => Some None | Some r => transform_range f.2 ty r end;
      let vs := dedup [] (omap id ins) in
      Some (map CEq (omap id eqs) ++ (match vs with [] => [] | _ => [CIn vs] end)
            ++ match rng with Some r => [CRange r] | None => [] end)
  end.
(** pruning.rs:472-540 [partition_predicates_for_spec] *)
Fixpoint predicates_from (sc : schema) (fs : list expr) (i : nat) (spec : list pfield) : option (list predicate) :=
  match spec with
  | [] => Some []
  | f :: spec =>
      cs ← field_constraints sc fs f;
      ps ← predicates_from sc fs (S i) spec;
      Some (map (pair i) cs ++ ps)
  end.
Definition partition_predicates (sc : schema) (spec : list pfield) (fs : list expr) : option (list predicate) :=
  predicates_from sc fs 0 spec.

(** ** Matching *)
(** pruning.rs:702-716 [literal_may_match_range] *)
Definition value_in_range (v : prim) (r : range) : bool :=
  match r_min r with Some (m, incl) => negb (prim_lt v m || (prim_eq v m && negb incl)) | None => true end &&
  match r_max r with Some (m, incl) => negb (prim_gt v m || (prim_eq v m && negb incl)) | None => true end.
(** pruning.rs:647-660 [partition_predicate_may_match_value] *)
Definition may_match_value (c : constraint) (v : option prim) : bool :=
  match v with
  | None => true
  | Some v =>
      match c with
      | CEq p => prim_eq v p
      | CIn ps => existsb (prim_eq v) ps
      | CRange r => value_in_range v r
      end
  end.
(** pruning.rs:662-680 [literal_may_match_bounds] *)
Definition literal_in_bounds (p : prim) (lo hi : option prim) : bool :=
  match lo with Some l => negb (prim_lt p l) | None => true end &&
  match hi with Some h => negb (prim_gt p h) | None => true end.
(** pruning.rs:682-700 [range_may_match_bounds] *)
Definition range_in_bounds (r : range) (lo hi : option prim) : bool :=
  match r_min r, hi with
  | Some (m, incl), Some h => negb (prim_gt m h || (prim_eq m h && negb incl))
  | _, _ => true
  end &&
  match r_max r, lo with
  | Some (m, incl), Some l => negb (prim_lt m l || (prim_eq m l && negb incl))
  | _, _ => true
  end.
(** pruning.rs:631-645 [partition_predicate_may_match_bounds] *)
Definition may_match_bounds (c : constraint) (lo hi : option prim) : bool :=
  match c with
  | CEq p => literal_in_bounds p lo hi
  | CIn ps => existsb (fun p => literal_in_bounds p lo hi) ps
  | CRange r => range_in_bounds r lo hi
  end.

(** ** Data files and manifests *)
(** The fields of a data file that matter to the scan, with the rows it holds.  Bounds and
    counts are kept per column. *)
Definition row : Type := nat -> option prim.
Record data_file := DataFile {
  d_spec : nat; d_partition : list (option prim); d_count : N;
  d_lower : list (nat * prim); d_upper : list (nat * prim); d_nulls : list (nat * N);
  d_rows : list row }.
(** A data manifest: spec id, the decoded bounds of the partition summaries
    ([None] where a bound is missing or cannot be decoded), and its live files. *)
Record manifest := Manifest {
  m_spec : nat; m_summaries : option (list (option prim * option prim)); m_files : list data_file }.

(** pruning.rs:307-327 [prune_data_files_by_partition_values] for one file *)
Definition file_may_match (ps : list predicate) (f : data_file) : bool :=
  forallb (fun p : predicate =>
    match d_partition f !! p.1 with None => true | Some v => may_match_value p.2 v end) ps.
(** pruning.rs:262-305 [prune_manifests_by_partition_summaries] for one manifest; the
    partition type is taken to exist. *)
Definition manifest_may_match (ps : list predicate) (m : manifest) : bool :=
  match m_summaries m with
  | None => true
  | Some sums =>
      forallb (fun p : predicate =>
        match sums !! p.1 with None => true | Some b => may_match_bounds p.2 b.1 b.2 end) ps
  end.

(** ** Pruning by column statistics *)
Fixpoint stat {A} (c : nat) (l : list (nat * A)) : option A :=
  match l with [] => None | (c', a) :: l => if decide (c = c') then Some a else stat c l end.
(** pruning.rs:171-206 [IcebergPruningStats::contained] for one file *)
Definition contained (f : data_file) (c : nat) (vs : list prim) : bool :=
  match stat c (d_lower f), stat c (d_upper f) with
  | Some lo, Some hi => existsb (fun v => bool_decide (lo = v) && bool_decide (hi = v)) vs
  | _, _ => true
  end.
(** pruning.rs:138-153 [null_counts]: a missing count is zero. *)
Definition null_count (f : data_file) (c : nat) : N := default 0%N (stat c (d_nulls f)).

(** DataFusion's [PruningPredicate] for the filters used here: a column that is all null
    cannot match, an equality or a list must be contained, and the bounds must admit the
    filter.  Filters with a cast or an alias around the column are kept, which is less
    than DataFusion prunes. *)
Definition all_null (f : data_file) (c : nat) : bool := (null_count f c =? d_count f)%N.
Definition admits (o : binop) (lo hi : option prim) (p : prim) : bool :=
  match o with
  | OEq => literal_in_bounds p lo hi
  | OGt => match hi with Some h => prim_gt h p | None => true end
  | OGe => match hi with Some h => negb (prim_lt h p) | None => true end
  | OLt => match lo with Some l => prim_lt l p | None => true end
  | OLe => match lo with Some l => negb (prim_gt l p) | None => true end
  | _ => true
  end.
Definition flip (o : binop) : binop :=
  match o with OGt => OLt | OGe => OLe | OLt => OGt | OLe => OGe | _ => o end.
Definition stats_admit (f : data_file) (e : expr) : bool :=
  match e with
  | EBin o l r =>
      match l, r with
      | ECol c, ELit (Some p) =>
          negb (all_null f c) && admits o (stat c (d_lower f)) (stat c (d_upper f)) p &&
          match o with OEq => contained f c [p] | _ => true end
      | ELit (Some p), ECol c =>
          negb (all_null f c) && admits (flip o) (stat c (d_lower f)) (stat c (d_upper f)) p &&
          match o with OEq => contained f c [p] | _ => true end
      | _, _ => true
      end
  | EIn (ECol c) false items =>
      negb (all_null f c) &&
      existsb (admits OEq (stat c (d_lower f)) (stat c (d_upper f))) (literal_items items) &&
      contained f c (literal_items items)
  | _ => true
  end.

(** pruning.rs:238-257, the loop of [prune_files] over the surviving files *)
Fixpoint limit_files (lim : N) (rows : N) (files : list data_file) : list data_file :=
  match files with
  | [] => []
  | f :: files =>
      if (rows <=? lim)%N then
        let rows := (rows + d_count f)%N in
        f :: (if (lim <? rows)%N then [] else limit_files lim rows files)
      else []
  end.
(** pruning.rs:209-260 [prune_files] *)
Definition prune_files (fs : list expr) (limit : option N) (files : list data_file) : list data_file :=
  let kept := filter (fun f => forallb (stats_admit f) fs = true) files in
  match limit with None => kept | Some lim => limit_files lim 0 kept end.

(** provider.rs:322-405 [load_data_files_with_seq]; the sequence numbers are left out. *)
Fixpoint load_files (sc : schema) (specs : list (list pfield)) (fs : list expr) (ms : list manifest)
  : option (list data_file) :=
  match ms with
  | [] => Some []
  | m :: ms =>
      here ←
        match specs !! m_spec m with
        | None => Some (match fs with [] => m_files m | _ => prune_files fs None (m_files m) end)
        | Some spec =>
            ps ← partition_predicates sc spec fs;
            if manifest_may_match ps m then
              Some (match fs with [] => m_files m
                    | _ => prune_files fs None (filter (fun f => file_may_match ps f = true) (m_files m)) end)
            else Some []
        end;
      rest ← load_files sc specs fs ms;
      Some (here ++ rest)
  end.
(** provider.rs:843-890, the files a scan reads *)
Definition scan_files (sc : schema) (specs : list (list pfield)) (filters : list expr) (limit : option N)
  (ms : list manifest) : option (list data_file) :=
  let fs := pruning_filters specs filters in
  files ← load_files sc specs fs ms;
  Some (match fs, limit with [], None => files | _, _ => prune_files fs limit files end).

(** ** The rows of a scan and of a query *)
(** [keep e r] tells whether DataFusion evaluates the filter [e] to true for [r];
    [live f] are the rows left by the delete files that match [f], if any do.
    [reader] is the option [parquet.pushdown_filters]: only if it is set does the Parquet
    reader drop the rows that do not satisfy the predicate it is given; by default it
    uses the predicate to skip row groups only (sail-common
    src/config/application.yaml:467-474).  That skipping is not modelled.
    provider.rs:815-1058 [scan] *)
Definition scan (sc : schema) (specs : list (list pfield)) (keep : expr -> row -> bool) (reader : bool)
  (live : data_file -> option (list row)) (filters : list expr) (limit : option N) (ms : list manifest)
  : option (list row) :=
  files ← scan_files sc specs filters limit ms;
  let exact := exact_filters specs filters in
  let satisfying := filter (fun r => forallb (fun e => keep e r) exact = true) in
  let rows :=
    if forallb (fun f => match live f with None => true | Some _ => false end) files then
      (if reader then satisfying (flat_map d_rows files) else flat_map d_rows files)
    else satisfying (flat_map (fun f => default (d_rows f) (live f)) files) in
  Some (match limit with None => rows | Some n => take (N.to_nat n) rows end).

(** A query [SELECT * ... WHERE filters LIMIT n]: DataFusion applies the filters that the
    scan does not report as exact above the scan, and hands the limit to the scan only
    if there are none (provider.rs:1060-1076 [supports_filters_pushdown]). *)
Definition query (sc : schema) (specs : list (list pfield)) (keep : expr -> row -> bool) (reader : bool)
  (live : data_file -> option (list row)) (filters : list expr) (limit : option N) (ms : list manifest)
  : option (list row) :=
  let rest := filter (fun e => classify specs e <> Exact) filters in
  rows ← scan sc specs keep reader live filters (match rest with [] => limit | _ => None end) ms;
  let rows := filter (fun r => forallb (fun e => keep e r) rest = true) rows in
  Some (match limit with None => rows | Some n => take (N.to_nat n) rows end).
