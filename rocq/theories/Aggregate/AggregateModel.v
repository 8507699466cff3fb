(** Aggregate functions over rows in many partitions. *)
From Coq Require Import ZArith NArith ZifyN Lia.
From stdpp Require Import prelude list gmap.
From Verif.Functions Require Import IntModel.
Local Open Scope Z_scope.

(** Partial aggregation gives one state for each partition; the final aggregation merges the states in the
    order in which they arrive.  Rows and states come in batches, of any size: rows and states that are
    handled one by one are modelled as one list. *)
Definition distributed {S R} (init : S) (update : S -> R -> S) (merge : S -> S -> S) (parts : list (list R)) : S :=
  foldl merge init (map (foldl update init) parts).

(** ** mode *)
(** crates/sail-function/src/aggregate/mode.rs:198-207 *)
Inductive tie_break := Any | Lowest | Highest.
#[global] Instance tie_break_eq : EqDecision tie_break.
Proof. solve_decision. Defined.
Section Mode.
Context {V : Type} `{Countable V} (ltb : V -> V -> bool).
(** How often each value occurs: mode.rs:241-249. *)
Definition add_count (m : gmap V Z) (v : V) (c : Z) : gmap V Z := <[v := default 0 (m !! v) + c]> m.
(** mode.rs:270-282 and 531-543: NULL is skipped. *)
Definition mode_update (m : gmap V Z) (r : option V) : gmap V Z :=
  match r with Some v => add_count m v 1 | None => m end.
(** mode.rs:324-370: the state is the list of values and the list of counts, which are added one by one. *)
Definition mode_merge (m : gmap V Z) (s : gmap V Z) : gmap V Z := foldl (fun m '(v, c) => add_count m v c) m (map_to_list s).
(** mode.rs:284-317 for numbers, dates and times: entries are visited in the order of the hash map, which is the
    argument here.  Floating-point values are not modelled. *)
Definition mode_step (tb : tie_break) (st : option V * Z) (e : V * Z) : option V * Z :=
  let '(best, max) := st in
  let '(v, c) := e in
  match c ?= max with
  | Gt => (Some v, c)
  | Eq =>
    (match best with
     | Some b =>
       if bool_decide (tb = Lowest) && ltb v b then Some v
       else if bool_decide (tb <> Lowest) && ltb b v then Some v
       else Some b
     | None => Some v
     end, max)
  | Lt => st
  end.
Definition mode_primitive (tb : tie_break) (entries : list (V * Z)) : option V := fst (foldl (mode_step tb) (None, 0) entries).
(** mode.rs:566-599 for strings: [max_by], which returns the last greatest entry. *)
Definition compare_entries (tb : tie_break) (a b : V * Z) : comparison :=
  match snd a ?= snd b with
  | Eq =>
    let cmp x y := if ltb x y then Lt else if ltb y x then Gt else Eq in
    match tb with Highest => cmp (fst a) (fst b) | _ => cmp (fst b) (fst a) end
  | c => c
  end.
Definition max_by_step (tb : tie_break) (best : option (V * Z)) (e : V * Z) : option (V * Z) :=
  match best with
  | None => Some e
  | Some b => match compare_entries tb b e with Gt => Some b | _ => Some e end
  end.
Definition mode_string (tb : tie_break) (entries : list (V * Z)) : option V := fst <$> foldl (max_by_step tb) None entries.
End Mode.

(** ** max_by and min_by *)
(** crates/sail-function/src/aggregate/max_min_by.rs:39-64: the value and the ordering so far; no ordering at first.
    Orderings are integers here.  Used where the function is not replaced by last_value, as in windows. *)
Definition by_state (V : Type) : Type := option V * option Z.
Definition by_update {V} (is_max : bool) (st : by_state V) (row : option V * option Z) : by_state V :=
  match snd row with
  | None => st
  | Some o =>
    let update := match snd st with
      | None => true
      | Some cur => match o ?= cur with Gt => is_max | Lt => negb is_max | Eq => false end
      end in
    if update then row else st
  end.
(** max_min_by.rs:70-76: states are merged like rows. *)
Definition by_merge {V} (is_max : bool) (st s : by_state V) : by_state V := by_update is_max st s.

(** ** try_avg *)
(** crates/sail-function/src/aggregate/try_avg.rs:46-54, for decimals and year-month intervals.  [fits] says which
    sums are allowed: 10 ^ p for decimals (try_avg.rs:435-450; it implies that i128 does not overflow), 32 bits for
    intervals (try_avg.rs:257-259). *)
Record avg_state := Avg { sum : option Z; count : Z; failed : bool }.
Definition avg_init : avg_state := Avg None 0 false.
(** try_avg.rs:78-88, 125-183 *)
Definition avg_update (fits : Z -> bool) (st : avg_state) (row : option Z) : avg_state :=
  match row with
  | None => st
  | Some v =>
    if failed st then st
    else
      let next := default 0 (sum st) + v in
      if fits next then
        match checked 64 (count st + 1) with
        | Some n => Avg (Some next) n false
        | None => Avg (Some next) 0 true
        end
      else Avg (Some next) (count st) true
  end.
(** try_avg.rs:305-329 [state]: no sum and no count after a failure. *)
Definition avg_emit (st : avg_state) : option Z * option Z * bool :=
  if failed st then (None, None, true) else (sum st, Some (count st), false).
(** try_avg.rs:331-430 [merge_batch] with a batch of states: first the failures, then the counts, then the sums. *)
Fixpoint merge_counts (n : Z) (l : list Z) : option Z :=
  match l with [] => Some n | c :: l => n ← checked 64 (n + c); merge_counts n l end.
Fixpoint merge_sums (fits : Z -> bool) (s : option Z) (l : list Z) : option (option Z) :=
  match l with
  | [] => Some s
  | v :: l => let next := default 0 s + v in if fits next then merge_sums fits (Some next) l else None
  end.
Definition avg_merge_batch (fits : Z -> bool) (st : avg_state) (batch : list (option Z * option Z * bool)) : avg_state :=
  if existsb snd batch then Avg (sum st) (count st) true
  else
    match merge_counts (count st) (omap (fun x => snd (fst x)) batch) with
    | None => Avg (sum st) (count st) true
    | Some n =>
      match merge_sums fits (sum st) (omap (fun x => fst (fst x)) batch) with
      | None => Avg (sum st) n true
      | Some s => Avg s n (failed st)
      end
    end.
Definition avg_final (fits : Z -> bool) (batches : list (list (list (option Z)))) : avg_state :=
  foldl (avg_merge_batch fits) avg_init (map (map (fun part => avg_emit (foldl (avg_update fits) avg_init part))) batches).
(** try_avg.rs:185-254 [avg_scalar] *)
Definition avg_decimal (fits : Z -> bool) (st : avg_state) : option Z :=
  if failed st || (count st =? 0) then None
  else s ← sum st; let q := Z.quot s (count st) in if fits q then Some q else None.
Definition avg_interval (fits : Z -> bool) (st : avg_state) : option Z :=
  if failed st || (count st =? 0) then None
  else
    s ← sum st;
    let half := Z.quot (count st) 2 in
    adjusted ← checked 64 (if 0 <=? s then s + half else s - half);
    let q := Z.quot adjusted (count st) in if fits q then Some q else None.
Definition fits_decimal (p : Z) (s : Z) : bool := (s <=? 10 ^ p - 1) && (- (10 ^ p - 1) <=? s).
Definition fits_i32 (s : Z) : bool := fits 32 s.

(** ** Bitmaps *)
(** crates/sail-function/src/aggregate/bitmap_construct_agg.rs: 4096 bytes *)
Definition BYTES : nat := N.to_nat 4096.
Definition BITS : Z := 32768.
(** bitmap_construct_agg.rs:104-110 [set_bit] and 114-120 *)
Definition set_bit (b : list N) (r : option Z) : list N :=
  match r with
  | None => b
  | Some position =>
    let pos := position mod BITS in
    alter (fun x => N.lor x (N.shiftl 1 (Z.to_N (pos mod 8)))) (Z.to_nat (pos / 8)) b
  end.
(** bitmap_or_agg.rs:79-83 [or_bytes]; the bytes after the end of the other bitmap are kept. *)
Fixpoint or_bytes (dst src : list N) : list N :=
  match dst, src with
  | x :: dst, y :: src => N.lor x y :: or_bytes dst src
  | _, _ => dst
  end.
(** bitmap_and_agg.rs:85-93 [and_input_bytes]; the bytes after the end of the other bitmap become 0. *)
Fixpoint and_input_bytes (dst src : list N) : list N :=
  match dst, src with
  | x :: dst, y :: src => N.land x y :: and_input_bytes dst src
  | dst, [] => map (fun _ => 0%N) dst
  | [], _ => []
  end.
(** bitmap_and_agg.rs:98-102 [and_state_bytes] *)
Fixpoint and_state_bytes (dst src : list N) : list N :=
  match dst, src with
  | x :: dst, y :: src => N.land x y :: and_state_bytes dst src
  | _, _ => dst
  end.
Definition construct_final : list (list (option Z)) -> list N :=
  distributed (replicate BYTES 0%N) set_bit or_bytes.
(** bitmap_or_agg.rs:87-110, bitmap_and_agg.rs:106-129: a bitmap that is too long is an error. *)
Definition row_update (f : list N -> list N -> list N) (b : option (list N)) (r : option (list N)) : option (list N) :=
  b ← b; match r with
  | None => Some b
  | Some x => if bool_decide (BYTES < length x)%nat then None else Some (f b x)
  end.
(** bitmap_or_agg.rs:124-146, bitmap_and_agg.rs:143-166: an error in a partition ends the query. *)
Definition state_merge (f : list N -> list N -> list N) (b s : option (list N)) : option (list N) :=
  b ← b; s ← s; if bool_decide (length s = length b) then Some (f b s) else None.
Definition or_final : list (list (option (list N))) -> option (list N) :=
  distributed (Some (replicate BYTES 0%N)) (row_update or_bytes) (state_merge or_bytes).
Definition and_final : list (list (option (list N))) -> option (list N) :=
  distributed (Some (replicate BYTES 255%N)) (row_update and_input_bytes) (state_merge and_state_bytes).
