(** Array functions over columns of arrays: [array_position],
    [array_intersect], [arrays_zip], [array_compact], [filter], [transform],
    [exists], [forall] and [aggregate].

    A column of arrays is stored flat: all elements one after the other, the
    offsets at which the arrays begin and end, and which rows are not NULL.
    A column can be a slice of a longer one, so that the first offset is not
    zero and there are elements before and behind; and the range of a NULL
    row need not be empty.  The functions below compute on this layout.

    The element type is a parameter; an element is [None] if it is NULL.
    A computation that can raise an error returns [None] if it does. *)

From stdpp Require Import list numbers.

Section model.
Context {A : Type}.

(** A column of arrays: Arrow's [GenericListArray] with its offsets, the
    flat values and the validity of the rows (used throughout
    crates/sail-function/src/scalar/array).  A column without a null buffer
    has [true] for every row.  Offsets are natural numbers; 32 and 64 bits
    are not told apart. *)
Record lists (B : Type) := Lists {
  offs : list nat;
  vals : list (option B);
  valid : list bool
}.
Arguments Lists {B}.
Arguments offs {B}.
Arguments vals {B}.
Arguments valid {B}.

(** [values.slice(start, end - start)] *)
Definition sub {B} (l : list B) (s e : nat) : list B := take (e - s) (drop s l).

(** [offsets.array_windows::<2>()]: where each row begins and ends
    (array_position.rs:217; elsewhere [offsets[i]] and [offsets[i + 1]]). *)
Fixpoint windows (o : list nat) : list (nat * nat) :=
  match o with
  | s :: o' => match o' with e :: _ => (s, e) :: windows o' | [] => [] end
  | [] => []
  end.

(** Arrow's [compute::filter]: keeps the values whose entry in the mask is
    set.  A mask that is shorter than the values selects among the first of
    them (used in spark_array_compact.rs:121 and spark_array_filter.rs:277). *)
Fixpoint filter_mask {B} (mask : list bool) (l : list B) : list B :=
  match mask, l with
  | b :: mask', x :: l' => if b then x :: filter_mask mask' l' else filter_mask mask' l'
  | _, _ => []
  end.

(** The number of set entries of a mask. *)
Definition count (mask : list bool) : nat := length (filter (fun b => b = true) mask).

(** *** array_position *)

(** The loop over the elements of one row
    (crates/sail-function/src/scalar/array/array_position.rs:224-229; the
    paths for the other types, 259-267, 299-304, 330-335, 360-365 and 389-397,
    differ in the comparison only, which is the parameter [eq]). *)
Fixpoint position_loop (eq : A -> A -> bool) (l : list (option A)) (x : A)
    (start : nat) (idx : list nat) : nat :=
  match idx with
  | [] => 0
  | i :: idx' =>
      match l !! i with
      | Some (Some v) => if eq v x then i - start + 1 else position_loop eq l x start idx'
      | _ => position_loop eq l x start idx'
      end
  end.

(** [position_primitive] and its siblings: a row is NULL if its array or its
    element is NULL (array_position.rs:189-234). *)
Definition array_position (eq : A -> A -> bool) (c : lists A) (x : list (option A))
    : list (option nat) :=
  zip_with (fun '((s, e), v) y =>
    match (v : bool), y with
    | true, Some y => Some (position_loop eq (vals c) y s (seq s (e - s)))
    | _, _ => None
    end) (zip (windows (offs c)) (valid c)) x.

(** *** array_compact *)

(** The loop of [array_compact_generic]: the mask over the elements and the
    offsets of the result
    (crates/sail-function/src/scalar/array/spark_array_compact.rs:90-118). *)
Fixpoint compact_loop (l : list (option A)) (spans : list ((nat * nat) * bool)) (total : nat)
    : list bool * list nat :=
  match spans with
  | [] => ([], [])
  | ((s, e), true) :: spans' =>
      let keep := (fun j => match l !! j with Some (Some _) => true | _ => false end)
                    <$> seq s (e - s) in
      let total' := total + count keep in
      let r := compact_loop l spans' total' in
      (keep ++ r.1, total' :: r.2)
  | ((s, e), false) :: spans' =>
      let r := compact_loop l spans' total in
      (replicate (e - s) false ++ r.1, total :: r.2)
  end.

(** [array_compact_generic] (spark_array_compact.rs:85-134): the mask is
    applied to the values from their start, wherever the first offset is. *)
Definition array_compact (c : lists A) : lists A :=
  let r := compact_loop (vals c) (zip (windows (offs c)) (valid c)) 0 in
  Lists (0 :: r.2) (filter_mask r.1 (vals c)) (valid c).

(** *** array_intersect *)

Section intersect.
Context `{EqDecision A}.

(** The probe of the left array of one row: the indices of the elements that
    the right array has and that did not occur before, and the set of these
    (crates/sail-function/src/scalar/array/array_intersect.rs:280-285).  Hash
    sets are lists, of which only membership and size are used. *)
Fixpoint probe_loop (ll rl : list (option A)) (idx : list nat) (seen : list (option A))
    : list nat * list (option A) :=
  match idx with
  | [] => ([], seen)
  | i :: idx' =>
      let x := ll !!! i in
      if decide (x ∈ rl ∧ x ∉ seen) then
        let r := probe_loop ll rl idx' (x :: seen) in (i :: r.1, r.2)
      else probe_loop ll rl idx' seen
  end.

(** [generic_set_loop] (array_intersect.rs:231-309): [l_first] and [r_first]
    are subtracted, since the rows to compare are those of the slices. *)
Fixpoint set_loop (ll rl : list (option A)) (lf rf : nat)
    (spans : list (((nat * nat) * bool) * ((nat * nat) * bool))) (last : nat)
    : list nat * list nat :=
  match spans with
  | [] => ([], [])
  | (((ls, le), true), ((rs, re), true)) :: spans' =>
      let p := probe_loop ll (sub rl (rs - rf) (re - rf))
                 (seq (ls - lf) ((le - lf) - (ls - lf))) [] in
      let last' := last + length p.2 in
      let r := set_loop ll rl lf rf spans' last' in
      (p.1 ++ r.1, last' :: r.2)
  | _ :: spans' =>
      let r := set_loop ll rl lf rf spans' last in
      (r.1, last :: r.2)
  end.

(** The first offset, and the last. *)
Definition first_off {B} (c : lists B) : nat := hd 0 (offs c).
Definition last_off {B} (c : lists B) : nat := default 0 (list.last (offs c)).

(** The values in the range of the offsets: [l.values().slice(l_first, l_len)]
    (array_intersect.rs:218-226), and DataFusion's [list_values], which the
    functions with lambdas use. *)
Definition list_values {B} (c : lists B) : list (option B) :=
  sub (vals c) (first_off c) (last_off c).

(** [generic_set_lists] for element types other than NULL
    (array_intersect.rs:200-229).  Elements are compared as encoded rows, so
    that NULL equals NULL. *)
Definition array_intersect (l r : lists A) : lists A :=
  let p := set_loop (list_values l) (list_values r) (first_off l) (first_off r)
             (zip (zip (windows (offs l)) (valid l)) (zip (windows (offs r)) (valid r))) 0 in
  Lists (0 :: p.2) ((fun i => list_values l !!! i) <$> p.1)
    (zip_with andb (valid l) (valid r)).

End intersect.

(** Whether a row has NULL among its elements (array_intersect.rs:343-355).
    The elements of an array of type NULL are stored as NULL in [vals], so
    [l_end > l_start] is the same question there. *)
Definition has_null {B} (null_type : bool) (vs : list (option B)) (s e : nat) : bool :=
  if null_type then s <? e
  else existsb (fun i => match vs !!! i : option B with None => true | Some _ => false end)
         (seq s (e - s)).

(** The loop of [null_element_intersection] (array_intersect.rs:326-363): the
    offsets and the number of NULLs. *)
Fixpoint null_loop {B} (ln rn : bool) (lv rv : list (option B))
    (spans : list (((nat * nat) * bool) * ((nat * nat) * bool))) (last : nat)
    : list nat * nat :=
  match spans with
  | [] => ([], 0)
  | (((ls, le), true), ((rs, re), true)) :: spans' =>
      if has_null ln lv ls le && has_null rn rv rs re then
        let r := null_loop ln rn lv rv spans' (last + 1) in (last + 1 :: r.1, S r.2)
      else let r := null_loop ln rn lv rv spans' last in (last :: r.1, r.2)
  | _ :: spans' => let r := null_loop ln rn lv rv spans' last in (last :: r.1, r.2)
  end.

(** [null_element_intersection] (array_intersect.rs:311-373), which is used if
    the elements of one side have type NULL (205-207); [ln] and [rn] say which.
    Both sides have the same type here, since NULL is in every type. *)
Definition null_intersect {B} (ln rn : bool) (l r : lists B) : lists B :=
  let p := null_loop ln rn (vals l) (vals r)
             (zip (zip (windows (offs l)) (valid l)) (zip (windows (offs r)) (valid r))) 0 in
  Lists (0 :: p.1) (replicate p.2 None) (zip_with andb (valid l) (valid r)).

(** *** arrays_zip *)

(** One row: for every position up to the greatest length and every array
    the index of the element, [None] behind the end
    (crates/sail-function/src/scalar/array/arrays_zip.rs:363-375; here the
    indices of all arrays at a position stand together). *)
Definition zip_row (spans : list (nat * nat)) : list (list (option nat)) :=
  let max_len := foldr Nat.max 0 ((fun '(s, e) => e - s) <$> spans) in
  (fun k => (fun '(s, e) => if k <? e - s then Some (s + k) else None) <$> spans)
    <$> seq 0 max_len.

(** The loop over the rows (arrays_zip.rs:354-379); a row is NULL if one of
    the arrays is. *)
Fixpoint zip_loop (rows : list (list (nat * nat) * bool)) (last : nat)
    : list (list (option nat)) * list nat :=
  match rows with
  | [] => ([], [])
  | (spans, true) :: rows' =>
      let z := zip_row spans in
      let last' := last + length z in
      let r := zip_loop rows' last' in
      (z ++ r.1, last' :: r.2)
  | (_, false) :: rows' =>
      let r := zip_loop rows' last in (r.1, last :: r.2)
  end.

(** [arrays_zip_generic] (arrays_zip.rs:293-398) for at least one argument:
    the structures are lists of the fields' values, the columns have one
    element type.  [take] with no index gives NULL. *)
Definition arrays_zip (n : nat) (cs : list (lists A)) : lists (list (option A)) :=
  let rows := (fun i => ((fun c => windows (offs c) !!! i) <$> cs,
                         forallb (fun c => valid c !!! i) cs)) <$> seq 0 n in
  let r := zip_loop rows 0 in
  Lists (0 :: r.2)
    ((fun ixs => Some (zip_with (fun c (ix : option nat) =>
         match ix with Some j => vals c !!! j | None => None end) cs ixs)) <$> r.1)
    (snd <$> rows).

(** *** Functions with lambdas *)

(** What a lambda gives: a constant if its body uses neither the element nor
    the index, or a value for every row (for the columns it uses), element
    and position, where it can raise an error. *)
Inductive lambda (B : Type) :=
  | Constant (b : B)
  | Each (f : nat -> option A -> nat -> option B).
Arguments Constant {B}.
Arguments Each {B}.

(** DataFusion's [adjust_offsets_for_slice]. *)
Definition adjusted {B} (c : lists B) : list nat :=
  (fun o => o - first_off c) <$> offs c.

(** DataFusion's [list_values_row_number]: the row of each flat value. *)
Fixpoint row_numbers (row : nat) (w : list (nat * nat)) : list nat :=
  match w with
  | [] => []
  | (s, e) :: w' => replicate (e - s) row ++ row_numbers (S row) w'
  end.

(** [offsets_to_indices]: the position of each flat value in its array
    (crates/sail-function/src/scalar/array/lambda_utils.rs:214-231). *)
Fixpoint positions (w : list (nat * nat)) : list nat :=
  match w with
  | [] => []
  | (s, e) :: w' => seq 0 (e - s) ++ positions w'
  end.

(** [lambda.evaluate] on all flat values at once: an error of one of them is
    an error of the whole (spark_array_filter.rs:153-156). *)
Definition evaluate {B} (f : nat -> option A -> nat -> option B) (c : lists A)
    : option (list B) :=
  mapM (fun '((r, x), k) => f r x k)
    (zip (zip (row_numbers 0 (windows (adjusted c))) (list_values c))
         (positions (windows (adjusted c)))).

(** A result is one value for all rows, or a column. *)
Inductive columnar (B : Type) :=
  | Scalar (x : option (list (option B)))
  | Column (c : lists B).
Arguments Scalar {B}.
Arguments Column {B}.

(** [extract_list_values] (lambda_utils.rs:81-103) for a list result: a
    result for columns that have only NULL rows, or only empty arrays. *)
Definition extract {B} (c : lists A) : option (columnar B) :=
  if forallb negb (valid c) then Some (Scalar None)
  else if (length (list_values c) =? 0) && forallb id (valid c) then Some (Scalar (Some []))
  else None.

(** The offsets from the number of kept elements of each row, [OffsetBufferBuilder]
    (spark_array_filter.rs:254-270).  NULL counts as false. *)
Fixpoint counted (mask : list (option bool)) (w : list (nat * nat)) (total : nat) : list nat :=
  match w with
  | [] => []
  | (s, e) :: w' =>
      let total' := total
        + length (filter (fun b => b = Some true) ((fun j => mask !!! j) <$> seq s (e - s))) in
      total' :: counted mask w' total'
  end.

(** [filter_list_values] (spark_array_filter.rs:245-279): nothing is copied if
    as many elements are kept as there are. *)
Definition filter_list_values (l : list (option A)) (mask : list (option bool)) (o : list nat)
    : list (option A) * list nat :=
  let o' := 0 :: counted mask (windows o) 0 in
  if decide (list.last o' = list.last o) then (l, o)
  else (filter_mask ((fun b => bool_decide (b = Some true)) <$> mask) l, o').

(** [filter] (spark_array_filter.rs:126-208 and 217-241). *)
Definition array_filter (c : lists A) (f : lambda (option bool)) : option (columnar A) :=
  match extract c with
  | Some r => Some r
  | None =>
      match f with
      | Constant (Some true) => Some (Column c)
      | Constant _ => Some (Column (Lists (replicate (S (length (valid c))) 0) [] (valid c)))
      | Each f =>
          mask ← evaluate f c;
          let r := filter_list_values (list_values c) mask (adjusted c) in
          Some (Column (Lists r.2 r.1 (valid c)))
      end
  end.

(** [transform] (crates/sail-function/src/scalar/array/spark_array_transform.rs:135-202). *)
Definition array_transform {B} (c : lists A) (f : lambda (option B)) : option (columnar B) :=
  match extract c with
  | Some r => Some r
  | None =>
      match f with
      | Constant b =>
          Some (Column (Lists (adjusted c) (replicate (length (list_values c)) b) (valid c)))
      | Each f =>
          r ← evaluate f c;
          Some (Column (Lists (adjusted c) r (valid c)))
      end
  end.

(** The loop over the elements of one row in [exists_reduce]: whether one is
    true, and whether one before it is NULL
    (crates/sail-function/src/scalar/array/spark_array_exists.rs:186-193). *)
Fixpoint exists_loop (mask : list (option bool)) (idx : list nat) (any_null : bool)
    : bool * bool :=
  match idx with
  | [] => (false, any_null)
  | j :: idx' =>
      match mask !!! j with
      | None => exists_loop mask idx' true
      | Some true => (true, any_null)
      | Some false => exists_loop mask idx' any_null
      end
  end.

(** [exists_reduce] (spark_array_exists.rs:141-203). *)
Definition exists_reduce (spans : list ((nat * nat) * bool)) (p : option bool + list (option bool))
    : list (option bool) :=
  (fun '((s, e), v) =>
     if (v : bool) then
       match p with
       | inl b => if e - s =? 0 then Some false else b
       | inr mask =>
           match exists_loop mask (seq s (e - s)) false with
           | (true, _) => Some true
           | (false, true) => None
           | (false, false) => Some false
           end
       end
     else None) <$> spans.

(** The same loop in [forall_reduce]
    (crates/sail-function/src/scalar/array/spark_array_forall.rs:185-192). *)
Fixpoint forall_loop (mask : list (option bool)) (idx : list nat) (any_null : bool)
    : bool * bool :=
  match idx with
  | [] => (false, any_null)
  | j :: idx' =>
      match mask !!! j with
      | None => forall_loop mask idx' true
      | Some false => (true, any_null)
      | Some true => forall_loop mask idx' any_null
      end
  end.

(** [forall_reduce] (spark_array_forall.rs:140-202). *)
Definition forall_reduce (spans : list ((nat * nat) * bool)) (p : option bool + list (option bool))
    : list (option bool) :=
  (fun '((s, e), v) =>
     if (v : bool) then
       match p with
       | inl b => if e - s =? 0 then Some true else b
       | inr mask =>
           match forall_loop mask (seq s (e - s)) false with
           | (true, _) => Some false
           | (false, true) => None
           | (false, false) => Some true
           end
       end
     else None) <$> spans.

(** One row of [short_circuit_boolean_reduce]: the elements are evaluated one
    by one up to the first [stop_on]; an error ends the whole evaluation
    (lambda_utils.rs:149-173). *)
Fixpoint short_circuit_row (f : nat -> option A -> option (option bool)) (stop_on : bool)
    (row : nat) (l : list (option A)) (idx : list nat) (any_null : bool) : option (option bool) :=
  match idx with
  | [] => Some (if any_null then None else Some (negb stop_on))
  | j :: idx' =>
      match f row (l !!! j) with
      | None => None
      | Some (Some b) =>
          if Bool.eqb b stop_on then Some (Some stop_on)
          else short_circuit_row f stop_on row l idx' any_null
      | Some None => short_circuit_row f stop_on row l idx' true
      end
  end.

(** [short_circuit_boolean_reduce] (lambda_utils.rs:115-177). *)
Fixpoint short_circuit (f : nat -> option A -> option (option bool)) (stop_on : bool)
    (l : list (option A)) (row : nat) (spans : list ((nat * nat) * bool))
    : option (list (option bool)) :=
  match spans with
  | [] => Some []
  | ((s, e), v) :: spans' =>
      b ← (if (v : bool) then short_circuit_row f stop_on row l (seq s (e - s)) false
           else Some None);
      bs ← short_circuit f stop_on l (S row) spans';
      Some (b :: bs)
  end.

(** [exists] (spark_array_exists.rs:82-130) and [forall]
    (spark_array_forall.rs:81-129): all elements at once, and if that fails
    one by one.  A lambda of these has no index. *)
Definition array_exists (c : lists A) (p : option bool + (nat -> option A -> option (option bool)))
    : option (list (option bool)) :=
  let spans := zip (windows (adjusted c)) (valid c) in
  match p with
  | inl b => Some (exists_reduce spans (inl b))
  | inr f =>
      match evaluate (fun r x _ => f r x) c with
      | Some mask => Some (exists_reduce spans (inr mask))
      | None => short_circuit f true (list_values c) 0 spans
      end
  end.

Definition array_forall (c : lists A) (p : option bool + (nat -> option A -> option (option bool)))
    : option (list (option bool)) :=
  let spans := zip (windows (adjusted c)) (valid c) in
  match p with
  | inl b => Some (forall_reduce spans (inl b))
  | inr f =>
      match evaluate (fun r x _ => f r x) c with
      | Some mask => Some (forall_reduce spans (inr mask))
      | None => short_circuit f false (list_values c) 0 spans
      end
  end.

(** *** aggregate *)

(** [scatter_updates]: the values of [base] with those at the given rows
    replaced; [start] is [base_start]
    (crates/sail-function/src/scalar/array/spark_array_aggregate.rs:360-407).
    The types are those of the accumulator. *)
Fixpoint scatter {S} (base updates : list (option S)) (rows : list nat) (start : nat)
    : option (list (option S)) :=
  match rows, updates with
  | [], [] => Some (sub base start (length base))
  | r :: rows', u :: updates' =>
      if (r <? start) || (length base <=? r) then None
      else
        t ← scatter base updates' rows' (1 + r);
        Some (sub base start r ++ u :: t)
  | _, _ => None
  end.

(** Whether a row is not NULL and has an element at a position
    (spark_array_aggregate.rs:285-293). *)
Definition has_element (spans : list ((nat * nat) * bool)) (depth row : nat) : bool :=
  match spans !!! row with ((s, e), v) => v && (s + depth <? e) end.

(** One round of [aggregate_offsets]: the elements at one position are merged
    in all rows that have one (spark_array_aggregate.rs:281-317).  The lambda
    gets the row, the accumulator and the element. *)
Definition merge_step {S} (merge : nat -> option S -> option A -> option (option S))
    (l : list (option A)) (spans : list ((nat * nat) * bool)) (acc : list (option S)) (depth : nat)
    : option (list (option S)) :=
  let rows := filter (fun r => has_element spans depth r = true) (seq 0 (length spans)) in
  if length rows =? 0 then Some acc
  else
    next ← mapM (fun r => merge r (acc !!! r) (l !!! ((spans !!! r).1.1 + depth))) rows;
    scatter acc next rows 0.

Fixpoint merge_loop {S} (merge : nat -> option S -> option A -> option (option S))
    (l : list (option A)) (spans : list ((nat * nat) * bool)) (depths : list nat)
    (acc : list (option S)) : option (list (option S)) :=
  match depths with
  | [] => Some acc
  | d :: depths' => acc' ← merge_step merge l spans acc d; merge_loop merge l spans depths' acc'
  end.

(** [aggregate_offsets] (spark_array_aggregate.rs:258-338) and
    [invoke_with_args] (140-185): as many rounds as the longest array has
    elements, then the second lambda in the rows that are not NULL. *)
Definition array_aggregate {S T} (merge : nat -> option S -> option A -> option (option S))
    (finish : nat -> option S -> option (option T)) (c : lists A) (zero : list (option S))
    : option (list (option T)) :=
  let spans := zip (windows (adjusted c)) (valid c) in
  let n := length spans in
  let max_len := foldr Nat.max 0
    ((fun '((s, e), v) => if (v : bool) then e - s else 0) <$> spans) in
  acc ← merge_loop merge (list_values c) spans (seq 0 max_len) zero;
  let rows := filter (fun r => (spans !!! r).2 = true) (seq 0 n) in
  if length rows =? 0 then Some (replicate n None)
  else if length rows =? n then mapM (fun r => finish r (acc !!! r)) (seq 0 n)
  else
    done ← mapM (fun r => finish r (acc !!! r)) rows;
    scatter (replicate n None) done rows 0.

End model.

Arguments Lists {B}.
Arguments offs {B}.
Arguments vals {B}.
Arguments valid {B}.
Arguments Constant {A B}.
Arguments Each {A B}.
Arguments Scalar {B}.
Arguments Column {B}.
