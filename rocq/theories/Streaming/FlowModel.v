(** Streaming queries: flow events, their encoding as rows, and the operators of a rewritten plan. *)
From stdpp Require Import prelude list.

Section flow.
Context {R M : Type}.

(** FlowEvent (crates/sail-common-datafusion/src/streaming/event/mod.rs:17-27): data rows with
    their retraction flags, or a marker.  Markers are kept as they are: their protobuf encoding
    is not modelled. *)
Inductive event := Data (rows : list (bool * R)) | Marker (m : M).

(** A row of an encoded batch (event/encoding.rs:20-27): marker, retraction flag, data. *)
Record enc := Enc { e_marker : option M; e_retracted : bool; e_data : R }.

(** EncodedFlowEventStream::encode (encoding.rs:43-75): a marker becomes one row whose data
    columns hold NULL or a placeholder value; [ph] is that row for the schema at hand. *)
Definition encode (ph : R) (e : event) : list enc :=
  match e with
  | Data rows => map (fun '(ret, r) => Enc None ret r) rows
  | Marker m => [Enc (Some m) false ph]
  end.

(** DecodedMultiFlowEventStream::decode (encoding.rs:142-178): a batch is split into markers and
    runs of data rows.  [acc] is the run that has been started. *)
Definition flush (acc : list (bool * R)) : list event :=
  match acc with [] => [] | _ => [Data acc] end.
Fixpoint decode_from (acc : list (bool * R)) (batch : list enc) : list event :=
  match batch with
  | [] => flush acc
  | e :: rest =>
    match e_marker e with
    | Some m => flush acc ++ Marker m :: decode_from [] rest
    | None => decode_from (acc ++ [(e_retracted e, e_data e)]) rest
    end
  end.
Definition decode (batch : list enc) : list event := decode_from [] batch.

(** A stream of batches; [None] is an error item. *)
Notation stream := (list (option (list enc))).

(** A projection of the rewritten plan (crates/sail-plan/src/streaming/rewriter.rs:71-80): the
    two special columns are kept and the expressions are evaluated on every row of the batch,
    markers included; one failing row fails the batch. *)
Definition project_row (f : R -> option R) (e : enc) : option enc :=
  d ← f (e_data e); Some (Enc (e_marker e) (e_retracted e) d).
Definition project_batch (f : R -> option R) (b : list enc) : option (list enc) :=
  mapM (project_row f) b.

(** A filter (rewriter.rs:81-88): the predicate becomes [predicate OR marker IS NOT NULL].  The
    predicate gives an error ([None]) or true, false or NULL. *)
Definition or3 (a b : option bool) : option bool :=
  match a, b with
  | Some true, _ | _, Some true => Some true
  | Some false, Some false => Some false
  | _, _ => None
  end.
Definition filter_row (p : R -> option (option bool)) (e : enc) : option (option bool) :=
  v ← p (e_data e); Some (or3 v (Some (bool_decide (is_Some (e_marker e))))).
Definition filter_batch (p : R -> option (option bool)) (b : list enc) : option (list enc) :=
  vs ← mapM (filter_row p) b;
  Some (omap (fun '(e, v) => if decide (v = Some true) then Some e else None) (zip b vs)).

(** Applying an operator batch by batch; an error stays an error. *)
Definition map_batches (op : list enc -> option (list enc)) (s : stream) : stream :=
  map (fun item => b ← item; op b) s.

(** StreamLimitState (crates/sail-physical-plan/src/streaming/limit.rs:151-236). *)
Record limit_state := LimitState { l_skip : nat; l_fetch : option nat }.
(** skip_batch_if_needed (limit.rs:158-175) *)
Definition skip_rows (st : limit_state) (rows : list (bool * R))
  : option (list (bool * R)) * limit_state :=
  if decide (l_skip st = 0) then (Some rows, st)
  else if decide (length rows <= l_skip st) then
    (None, LimitState (l_skip st - length rows) (l_fetch st))
  else (Some (drop (l_skip st) rows), LimitState 0 (l_fetch st)).
(** fetch_batch (limit.rs:177-199) *)
Definition fetch_rows (st : limit_state) (rows : list (bool * R))
  : option (list (bool * R)) * limit_state :=
  match l_fetch st with
  | None => (Some rows, st)
  | Some n =>
    if decide (length rows <= n) then (Some rows, LimitState (l_skip st) (Some (n - length rows)))
    else if decide (0 < n) then (Some (take n rows), LimitState (l_skip st) (Some 0))
    else (None, st)
  end.
(** step (limit.rs:201-235), until the stream ends: reaching the limit closes the stream. *)
Fixpoint run_limit (st : limit_state) (items : list (option event)) : list (option event) :=
  match items with
  | [] => []
  | Some (Marker m) :: rest => Some (Marker m) :: run_limit st rest
  | Some (Data rows) :: rest =>
    match skip_rows st rows with
    | (Some rows1, st1) =>
      match fetch_rows st1 rows1 with
      | (Some rows2, st2) => Some (Data rows2) :: run_limit st2 rest
      | (None, _) => []
      end
    | (None, st1) => run_limit st1 rest
    end
  | None :: rest => None :: run_limit st rest
  end.

(** DecodedFlowEventStream (encoding.rs:203-214): batches are decoded and flattened. *)
Definition decode_stream (s : stream) : list (option event) :=
  concat (map (fun item => match item with Some b => map Some (decode b) | None => [None] end) s).
Definition encode_stream (ph : R) (items : list (option event)) : stream :=
  map (fun item => e ← item; Some (encode ph e)) items.

(** Partitions merged into one by DataFusion: any interleaving of the items. *)
Inductive merged {A} : list (list A) -> list A -> Prop :=
| merged_nil ls : Forall (fun l => l = []) ls -> merged ls []
| merged_cons ls1 x l ls2 out :
    merged (ls1 ++ l :: ls2) out -> merged (ls1 ++ (x :: l) :: ls2) (x :: out).

(** The rows and errors of a stream, without batch boundaries. *)
Definition flat (s : stream) : list (option enc) :=
  concat (map (fun item => match item with Some b => map Some b | None => [None] end) s).

(** The nodes that StreamingRewriter accepts (rewriter.rs:66-185).  A source is a table, values
    or range behind StreamSourceAdapterExec, or a stream source: in both cases each partition is
    a list of events.  Aliases change nothing.  [Regroup] stands for DataFusion nodes that only
    change batch boundaries. *)
Inductive plan :=
| Source (ph : R) (parts : list (list event))
| Project (f : R -> option R) (p : plan)
| Filter (c : R -> option (option bool)) (p : plan)
| Union (p q : plan)
| Limit (ph : R) (skip : nat) (fetch : option nat) (p : plan)
| Regroup (p : plan).

(** StreamSourceAdapterExec::execute (crates/sail-physical-plan/src/streaming/source_adapter.rs:
    74-90): the batches of a partition as append-only data, then the end-of-data marker. *)
Definition adapter_events (end_of_data : M) (batches : list (list R)) : list event :=
  map (fun b => Data (map (fun r => (false, r)) b)) batches ++ [Marker end_of_data].

(** The streams of all partitions of a plan. *)
Inductive executes : plan -> list stream -> Prop :=
| ex_source ph parts : executes (Source ph parts) (map (map (fun e => Some (encode ph e))) parts)
| ex_project f p ss :
    executes p ss -> executes (Project f p) (map (map_batches (project_batch f)) ss)
| ex_filter c p ss :
    executes p ss -> executes (Filter c p) (map (map_batches (filter_batch c)) ss)
| ex_union p q ss ts : executes p ss -> executes q ts -> executes (Union p q) (ss ++ ts)
| ex_limit ph skip fetch p ss s :
    executes p ss -> merged ss s ->
    executes (Limit ph skip fetch p)
      [encode_stream ph (run_limit (LimitState skip fetch) (decode_stream s))]
| ex_regroup p ss ts :
    executes p ss -> Forall2 (fun s t => flat s = flat t) ss ts -> executes (Regroup p) ts.

(** StreamCollectorExec::execute (crates/sail-physical-plan/src/streaming/collector.rs:93-122):
    markers are dropped and the retraction flags are not looked at.  The query fails with the
    first error. *)
Definition collect_item (item : option event) : option (list R) :=
  match item with
  | None => None
  | Some (Marker _) => Some []
  | Some (Data rows) => Some (map snd rows)
  end.
Definition collect (s : stream) : option (list R) :=
  ls ← mapM collect_item (decode_stream s); Some (concat ls).

Inductive query : plan -> option (list R) -> Prop :=
| query_intro p ss s : executes p ss -> merged ss s -> query p (collect s).
End flow.
Arguments event : clear implicits. Arguments enc : clear implicits. Arguments plan : clear implicits.
