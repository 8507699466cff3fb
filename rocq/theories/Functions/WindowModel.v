(** The time window function: window(time, duration [, slide [, start]]) and window_time. *)
From Coq Require Import ZArith Lia.
From stdpp Require Import prelude list numbers.
From Verif Require Import Functions.IntModel.
#[local] Open Scope Z_scope.

(** WindowSpec (crates/sail-plan/src/function/scalar/datetime.rs:1104-1108), the three durations in
    microseconds. *)
Record spec := Spec { window_duration : Z; slide_duration : Z; start_time : Z }.

(** MAX_OVERLAPPING_WINDOWS (datetime.rs:1111). *)
Definition max_overlapping : Z := 1000000.

(** (window + slide - 1) / slide in i64 (datetime.rs:1153 and
    crates/sail-function/src/scalar/datetime/spark_window_buckets.rs:93). Rust's / truncates. *)
Definition overlapping (w s : Z) : Z := Z.quot (wrap 64 (wrap 64 (w + s) - 1)) s.

(** parse_window_spec (datetime.rs:1116-1164). Its arguments are the values of the two to four literals
    already turned into microseconds by window_interval_micros (datetime.rs:1067-1101); parsing the
    interval text is not modelled. *)
Definition parse_window_spec (w : Z) (slide start : option Z) : option spec :=
  let s := default w slide in
  let st := default 0 start in
  if w <=? 0 then None
  else if s <=? 0 then None
  else if w <? s then None
  else if (s <=? st) || (st <=? - s) then None
  else if max_overlapping <? overlapping w s then None
  else Some (Spec w s st).

(** The body of the loop over j for one timestamp (spark_window_buckets.rs:101-112). *)
Definition candidate (sp : spec) (ts last_start j : Z) : option (Z * Z) :=
  let ws := wrap 64 (last_start - wrap 64 (j * slide_duration sp)) in
  let we := wrap 64 (ws + window_duration sp) in
  if (ws <=? ts) && (ts <? we) then Some (ws, we) else None.

(** The buckets of one timestamp that is not NULL. rem_euclid of a positive divisor is Coq's mod. *)
Definition buckets (sp : spec) (ts : Z) : list (Z * Z) :=
  let offset_us := wrap 64 (ts - start_time sp) mod slide_duration sp in
  let last_start := wrap 64 (ts - offset_us) in
  omap (candidate sp ts last_start)
       (seqZ 0 (overlapping (window_duration sp) (slide_duration sp))).

(** SparkWindowBuckets::invoke_with_args (spark_window_buckets.rs:68-136): the flat list of buckets and
    the offsets of the rows in it. NULL timestamps add nothing. The cast of the offsets to i32 is not
    modelled: a batch with 2^31 buckets does not fit in memory. *)
Definition invoke_step (sp : spec) (acc : list (Z * Z) * list nat) (t : option Z) :
    list (Z * Z) * list nat :=
  let '(flat, offsets) := acc in
  let flat := match t with Some ts => flat ++ buckets sp ts | None => flat end in
  (flat, offsets ++ [length flat]).
Definition invoke (sp : spec) (times : list (option Z)) : list (Z * Z) * list nat :=
  foldl (invoke_step sp) ([], [0%nat]) times.

(** Explode over that list column (datetime.rs:1210; the operator itself comes from DataFusion): one
    output row per bucket, holding the number of the input row and the bucket. *)
Definition explode (col : list (Z * Z) * list nat) : list (nat * (Z * Z)) :=
  let '(flat, offsets) := col in
  concat (imap (fun i lo => match offsets !! S i with
                            | Some hi => (fun b => (i, b)) <$> take (hi - lo)%nat (drop lo flat)
                            | None => []
                            end) offsets).

(** window in a query (datetime.rs:1193-1211): planning fails, or one row per input row and window. *)
Definition window_rows (w : Z) (slide start : option Z) (times : list (option Z)) :
    option (list (nat * (Z * Z))) :=
  sp ← parse_window_spec w slide start; Some (explode (invoke sp times)).

(** window_time (datetime.rs:1216-1245): the end of the window less one microsecond. *)
Definition window_time (win : Z * Z) : Z := wrap 64 (win.2 - 1).
