(** Specification for pruning: what filters mean, and which row belongs to which
    partition. *)
From Coq Require Import NArith ZArith Lia.
From stdpp Require Import prelude list.
From Verif.Lib Require Import Text.
From Verif.Iceberg Require Import ValueModel TransformModel TransformSpec PruneModel.
Local Open Scope Z_scope.

(** ** Evaluation of filters, with SQL's three-valued logic.  What casts, other operators
    and other expressions do is arbitrary. *)
Record world := World {
  w_cmp : prim -> prim -> comparison;
  w_cast : nat -> option prim -> option prim;
  w_op : nat -> option prim -> option prim -> option prim;
  w_other : nat -> row -> option prim }.
(** Values are compared as in Iceberg, except that the engine may distinguish floats
    which [OrderedFloat] takes to be equal (zeros and NaNs). *)
Definition world_ok (w : world) : Prop := forall a b, kind a = kind b ->
  match a with
  | PFloat _ | PDouble _ =>
      match w_cmp w a b with Lt => prim_cmp a b <> Gt | Eq => prim_cmp a b = Eq | Gt => prim_cmp a b <> Lt end
  | _ => w_cmp w a b = prim_cmp a b
  end.
Definition comparison_holds (o : binop) (c : comparison) : bool :=
  match o, c with
  | OEq, Eq | OGt, Gt | OGe, (Gt | Eq) | OLt, Lt | OLe, (Lt | Eq) => true
  | _, _ => false
  end.
(** Values of different kinds cannot be compared. *)
Definition compare_values (w : world) (o : binop) (a b : option prim) : option bool :=
  match a, b with
  | Some a, Some b => if decide (kind a = kind b) then Some (comparison_holds o (w_cmp w a b)) else None
  | _, _ => None
  end.
Definition truth (v : option prim) : option bool := match v with Some (PBool b) => Some b | _ => None end.
Definition and3 (a b : option bool) : option bool :=
  match a, b with
  | Some false, _ | _, Some false => Some false
  | Some true, Some true => Some true
  | _, _ => None
  end.
Definition or3 (a b : option bool) : option bool :=
  match a, b with
  | Some true, _ | _, Some true => Some true
  | Some false, Some false => Some false
  | _, _ => None
  end.
Fixpoint eval (w : world) (r : row) (e : expr) : option prim :=
  match e with
  | ECol c => r c
  | ELit v => v
  | ECast k e => w_cast w k (eval w r e)
  | EAlias e => eval w r e
  | EBin o a b =>
      let a := eval w r a in let b := eval w r b in
      match o with
      | OAnd => PBool <$> and3 (truth a) (truth b)
      | OOther k => w_op w k a b
      | _ => PBool <$> compare_values w o a b
      end
  | EIn e negated items =>
      let v := eval w r e in
      let found := foldr (fun i acc => or3 (compare_values w OEq v (eval w r i)) acc) (Some false) items in
      PBool <$> (if negated then negb <$> found else found)
  | EOther k => w_other w k r
  end.
(** A row passes a filter that evaluates to true. *)
Definition matches (w : world) (r : row) (e : expr) : Prop := eval w r e = Some (PBool true).
Global Instance matches_dec w r e : Decision (matches w r e).
Proof. unfold matches. apply _. Defined.
Definition keeps (w : world) (e : expr) (r : row) : bool := bool_decide (matches w r e).

(** ** Types *)
Definition typed (ty : ptype) (p : prim) : Prop :=
  prim_ok p /\
  match ty, p with
  | TyBool, PBool _ | TyInt, PInt _ | TyLong, PLong _ | TyFloat, PFloat _ | TyDouble, PDouble _
  | TyDecimal, PInt128 _ | TyDate, PInt _ | TyTime, PLong _ | TyTs, PLong _ | TyTsNs, PLong _
  | TyString, PString _ | TyUuid, PUInt128 _ | TyFixed, PBinary _ | TyBinary, PBinary _ => True
  | _, _ => False
  end.
Definition typed_row (sc : schema) (r : row) : Prop :=
  forall c ty p, sc c = Some ty -> r c = Some p -> typed ty p.

(** ** Partitions *)
(** A row belongs to a partition if every value of the partition is the transformed value
    of its source column.  Nothing is required of ignored transforms. *)
Definition in_partition (sc : schema) (spec : list pfield) (r : row) (part : list (option prim)) : Prop :=
  Forall2 (fun (f : pfield) v =>
    ignored f.2 = true \/ exists ty, sc f.1 = Some ty /\ apply_transform f.2 ty (r f.1) = Ret v) spec part.
(** The partition summaries of a manifest bound the partition values of its files. *)
Definition below (a b : prim) : Prop := prim_cmp a b <> Gt.
Definition summarised (sums : list (option prim * option prim)) (part : list (option prim)) : Prop :=
  forall i b p, sums !! i = Some b -> part !! i = Some (Some p) ->
    (forall lo, b.1 = Some lo -> below lo p) /\ (forall hi, b.2 = Some hi -> below p hi).
(** A manifest is well formed if its files are written in its spec and summarised by it. *)
Definition manifest_ok (sc : schema) (specs : list (list pfield)) (m : manifest) : Prop :=
  forall f, f ∈ m_files m ->
    d_spec f = m_spec m /\
    (forall sums, m_summaries m = Some sums -> summarised sums (d_partition f)) /\
    forall spec, specs !! m_spec m = Some spec -> Forall (fun r => in_partition sc spec r (d_partition f)) (d_rows f).
(** The bounds of a file bound its values, its counts are the counts of its rows. *)
Definition stats_ok (f : data_file) : Prop :=
  d_count f = N.of_nat (length (d_rows f)) /\
  forall c,
    (forall n, stat c (d_nulls f) = Some n -> n = N.of_nat (length (filter (fun r : row => r c = None) (d_rows f)))) /\
    forall r p, r ∈ d_rows f -> r c = Some p ->
      (forall lo, stat c (d_lower f) = Some lo -> below lo p) /\
      (forall hi, stat c (d_upper f) = Some hi -> below p hi).

(** ** Filters for which pruning is proved safe *)
(** No cast around the compared operands. *)
Fixpoint uncast (e : expr) : Prop :=
  match e with ECast _ _ => False | EAlias e => uncast e | _ => True end.
Definition uncast_filter (e : expr) : Prop :=
  match e with EBin _ l r => uncast l /\ uncast r | EIn e _ _ => uncast e | _ => True end.
Fixpoint unalias (e : expr) : expr := match e with EAlias e => unalias e | _ => e end.
(** The literals a filter compares a column with; the flag marks strict comparisons. *)
Definition strict (o : binop) : bool := match o with OGt | OLt => true | _ => false end.
Definition compared (e : expr) : list (nat * prim * bool) :=
  match e with
  | EBin o l r =>
      match unalias l, unalias r with
      | ECol c, ELit (Some p) | ELit (Some p), ECol c => [(c, p, strict o)]
      | _, _ => []
      end
  | EIn e _ items =>
      match unalias e with
      | ECol c => map (fun p => (c, p, false)) (literal_items items)
      | _ => []
      end
  | _ => []
  end.
(** The values on which a transform neither panics nor breaks the order. *)
Definition orderly (t : transform) (ty : ptype) (p : prim) : Prop :=
  match t, p with
  | Bucket n, _ => (0 < n < 2 ^ 31)%N
  | Truncate w, (PInt _ | PLong _ | PString _) => (0 < w < 2 ^ 31)%N /\ truncate_plain w p
  | Hour, PLong _ => ty ∈ [TyTs; TyTsNs] -> hour_plain ty p
  | (Year | Month), (PInt _ | PLong _) => ty ∈ [TyDate; TyTs; TyTsNs] ->
      forall start, calendar start -> date_plain start ty p
  | _, _ => True
  end.
(** The next smaller and the next larger integer. *)
Definition neighbour (p q : prim) : Prop :=
  match p, q with
  | PInt a, PInt b | PLong a, PLong b => b = a + 1 \/ b = a - 1
  | _, _ => False
  end.
(** Every literal a partition source column is compared with has the type of the column
    and is orderly for the transform, as are the values of the row. *)
Definition orderly_filters (sc : schema) (spec : list pfield) (fs : list expr) : Prop :=
  forall f ty c p s e, f ∈ spec -> sc f.1 = Some ty -> e ∈ fs -> (c, p, s) ∈ compared e -> c = f.1 ->
    typed ty p /\ orderly f.2 ty p /\ (s = true -> forall q, neighbour p q -> prim_ok q -> orderly f.2 ty q).
Definition orderly_row (sc : schema) (spec : list pfield) (r : row) : Prop :=
  forall f ty p, f ∈ spec -> sc f.1 = Some ty -> r f.1 = Some p -> orderly f.2 ty p.

(** Files whose bounds for the columns tested by equality or a list are missing or equal:
    the only ones for which the membership test is right. *)
Definition equality_columns (e : expr) : list nat :=
  match e with
  | EBin OEq (ECol c) (ELit _) | EBin OEq (ELit _) (ECol c) | EIn (ECol c) _ _ => [c]
  | _ => []
  end.
Definition single_valued (filters : list expr) (f : data_file) : Prop :=
  forall e c lo hi, e ∈ filters -> c ∈ equality_columns e ->
    stat c (d_lower f) = Some lo -> stat c (d_upper f) = Some hi -> lo = hi.
(** The compared columns are not of a floating-point type. *)
Definition no_floats (filters : list expr) : Prop :=
  forall e c p s, e ∈ filters -> (c, p, s) ∈ compared e ->
    match p with PFloat _ | PDouble _ => False | _ => True end.
(** A well formed table: what is assumed of its manifests and data files. *)
Record table_ok (sc : schema) (specs : list (list pfield)) (ms : list manifest) : Prop := {
  ok_manifest m : m ∈ ms -> manifest_ok sc specs m;
  ok_stats m f : m ∈ ms -> f ∈ m_files m -> stats_ok f;
  ok_typed m f r : m ∈ ms -> f ∈ m_files m -> r ∈ d_rows f -> typed_row sc r;
  ok_orderly m f r spec : m ∈ ms -> f ∈ m_files m -> r ∈ d_rows f -> specs !! m_spec m = Some spec -> orderly_row sc spec r }.
(** The files of a table, and the rows that are live: [live f] are the rows left by the
    delete files that apply to [f], if any do. *)
Definition table_files (ms : list manifest) : list data_file := flat_map m_files ms.
Definition live_rows (live : data_file -> option (list row)) (f : data_file) : list row := default (d_rows f) (live f).
Definition live_ok (live : data_file -> option (list row)) : Prop :=
  forall f rs r, live f = Some rs -> r ∈ rs -> r ∈ d_rows f.
(** The answer to a query without a limit. *)
Definition answer (w : world) (live : data_file -> option (list row)) (filters : list expr) (ms : list manifest) : list row :=
  filter (fun r => Forall (matches w r) filters) (flat_map (live_rows live) (table_files ms)).

(** Comparisons of a column with an integer literal that has neighbours. *)
Definition integer_comparison (ty : ptype) (c : nat) (e : expr) : Prop :=
  exists o p, (e = EBin o (ECol c) (ELit (Some p)) \/ e = EBin o (ELit (Some p)) (ECol c)) /\
    o ∈ [OEq; OGt; OGe; OLt; OLe] /\ typed ty p /\ (forall q, neighbour p q -> prim_ok q).

(** Every file is written in a spec that partitions by the column itself, holds a value
    for it that is neither null nor a float, and only rows with that value. *)
Definition partitioned_by (specs : list (list pfield)) (ms : list manifest) (c : nat) : Prop :=
  forall m f, m ∈ ms -> f ∈ m_files m -> exists spec i v,
    specs !! m_spec m = Some spec /\ spec !! i = Some (c, Identity) /\ d_partition f !! i = Some (Some v) /\
    match v with PFloat _ | PDouble _ => False | _ => True end /\
    Forall (fun r : row => r c = Some v) (d_rows f).
Definition is_list (e : expr) : bool := match e with EIn _ _ _ => true | _ => false end.
