(** Properties of streaming queries. *)
From Coq Require Import Lia.
From stdpp Require Import prelude list.
From Verif.Streaming Require Import FlowModel FlowSpec FlowProofs.

(** C62. Whatever the timing of the partitions and the batch boundaries, a streaming query over
    sources that only add rows returns a result of the query: markers never show up as rows, never
    hide rows, and are not counted by limits. *)
Theorem C62_streaming_rows {R M} (p : plan R M) out :
  append_only p -> query p (Some out) -> result p (map Some out).
Proof. exact (query_sound p out). Qed.
Print Assumptions C62_streaming_rows.

(** The query does not fail if no expression fails on a row of data or on the placeholder row of a
    marker.  Missing from the full property: failures caused by placeholder rows alone (see
    [C62_placeholder_failure_refuted]). *)
Theorem C62_streaming_succeeds_partial {R M} (p : plan R M) res :
  append_only p -> data_safe p -> marker_safe p -> query p res ->
  exists out, res = Some out /\ result p (map Some out).
Proof. exact (query_safe p res). Qed.
Print Assumptions C62_streaming_succeeds_partial.

(** Without limits every marker of every source reaches the sink, once. *)
Theorem C62_markers_partial {R M} (p : plan R M) ss s :
  append_only p -> data_safe p -> marker_safe p -> no_limit p -> executes p ss -> merged ss s ->
  omap (fun o => e ← o; e_marker e) (flat s) ≡ₚ source_markers p.
Proof.
  intros Ha Hd Hm Hn He Hmg.
  exact (transitivity (merged_markers ss s Hmg) (executes_markers p ss Ha Hd Hm Hn He)).
Qed.
Print Assumptions C62_markers_partial.

(** Tables and ranges read by a streaming query only add rows. *)
Theorem C62_adapter_append_only {R M} (ph : R) (m : M) (parts : list (list (list R))) :
  append_only (Source ph (map (adapter_events m) parts)) /\
  source_rows false (map (adapter_events m) parts) = concat (concat parts).
Proof.
  assert (Ha : append_only (Source ph (map (adapter_events m) parts))).
  { cbn [append_only]. apply Forall_fmap. apply list.Forall_forall. intros bs _. cbn.
    unfold adapter_events. apply Forall_app. split; [|by repeat constructor].
    apply Forall_fmap. apply list.Forall_forall. intros b _. cbn. apply Forall_fmap.
    by apply list.Forall_forall. }
  split; [done|]. destruct (source_rows_append _ _ Ha) as [-> _]. clear Ha.
  induction parts as [|bs parts IH]; [done|]. cbn [map concat]. rewrite concat_app, IH. f_equal.
  unfold adapter_events. rewrite map_app, concat_app. cbn [map concat ev_rows app].
  rewrite app_nil_r, map_map. induction bs as [|b bs IHb]; [done|]. cbn [map concat].
  rewrite IHb. f_equal. cbn [ev_rows]. rewrite map_map. apply map_id.
Qed.
Print Assumptions C62_adapter_append_only.

(** Rows, retraction flags and markers survive the encoding as rows, in their order and wherever the
    batches are cut. *)
Theorem C62_encoding {R M} (ph : R) (events : list (event R M)) (batches : list (list (enc R M))) :
  concat batches = concat (map (encode ph) events) ->
  concat (map event_items (omap id (decode_stream (map Some batches)))) = concat (map event_items events).
Proof.
  intros Hb.
  assert (Hd : forall (b : list (enc R M)) acc,
    concat (map event_items (decode_from acc b)) =
    map inl acc ++ map (fun e => match e_marker e with Some m => inr m | None => inl (e_retracted e, e_data e) end) b).
  { induction b as [|e b IH]; intros acc; cbn [decode_from map].
    - rewrite app_nil_r. destruct acc; [done|]. cbn. by rewrite app_nil_r.
    - destruct (e_marker e) as [m|] eqn:Em.
      + rewrite map_app, concat_app. cbn [map concat event_items]. rewrite IH.
        destruct acc; [done|]. cbn. by rewrite app_nil_r.
      + rewrite IH, map_app. by rewrite <- app_assoc. }
  assert (Hs : concat (map event_items (omap id (decode_stream (map Some batches)))) =
    map (fun e => match e_marker e with Some m => inr m | None => inl (e_retracted e, e_data e) end) (concat batches)).
  { clear Hb. unfold decode_stream. induction batches as [|b bs IH]; [done|]. cbn [map concat].
    rewrite omap_app, !map_app, concat_app, IH. f_equal. transitivity (concat (map event_items (decode b))).
    - f_equal. f_equal. induction (decode b) as [|x l IHl]; [done|]. cbn. by rewrite <- IHl at 2.
    - unfold decode. by rewrite Hd. }
  rewrite Hs, Hb. clear. induction events as [|e es IH]; [done|]. cbn [map concat]. rewrite map_app, IH. f_equal.
  destruct e as [rows|m]; [|done]. cbn. rewrite map_map. apply map_ext. by intros [ret r].
Qed.
Print Assumptions C62_encoding.
(** A row, one taken back and a marker, in two batches that do not follow the events. *)
Example C62_encoding_example :
  concat [[Enc None false 1]; [Enc None true 1; Enc (Some tt) false 0]] =
    concat (map (encode 0) [Data [(false, 1); (true, 1)]; Marker tt]) /\
  concat (map event_items (omap id (decode_stream (map Some [[Enc None false 1]; [Enc None true 1; Enc (Some tt) false 0]])))) =
    [inl (false, 1); inl (true, 1); inr tt].
Proof. done. Qed.

(** A streaming query: SELECT x + 1 FROM range WHERE x <> 2 OFFSET 1 LIMIT 1, two partitions. *)
Definition example_plan : plan nat unit :=
  Limit 0 1 (Some 1)
    (Project (fun x => Some (S x))
       (Filter (fun x => Some (Some (negb (Nat.eqb x 2))))
          (Source 0 (map (adapter_events tt) [[[1; 2]]; [[3]; [4]]])))).
Example C62_example :
  append_only example_plan /\ data_safe example_plan /\ marker_safe example_plan /\
  query example_plan (Some [4]).
Proof.
  split_and!.
  - apply (C62_adapter_append_only 0 tt [[[1; 2]]; [[3]; [4]]]).
  - cbn. split_and!; intros; eauto.
  - cbn. split_and!; intros; eauto.
  - assert (Hex : executes example_plan
      [encode_stream 0 (run_limit (LimitState 1 (Some 1)) (decode_stream
        [Some [Enc None false 2]; Some [Enc None false 4]; Some [Enc (Some tt) false 1];
         Some [Enc None false 5]; Some [Enc (Some tt) false 1]]))]).
    { apply ex_limit with (ss := [[Some [Enc None false 2]; Some [Enc (Some tt) false 1]];
        [Some [Enc None false 4]; Some [Enc None false 5]; Some [Enc (Some tt) false 1]]]).
      - apply (ex_project (fun x => Some (S x)) _
          [[Some [Enc None false 1]; Some [Enc (Some tt) false 0]];
           [Some [Enc None false 3]; Some [Enc None false 4]; Some [Enc (Some tt) false 0]]]).
        exact (ex_filter (fun x => Some (Some (negb (Nat.eqb x 2)))) _ _
          (ex_source 0 (map (adapter_events tt) [[[1; 2]]; [[3]; [4]]]))).
      - apply (merged_cons [] _ _ _). apply (merged_cons [_] _ _ []).
        apply (merged_cons [] _ _ _). apply (merged_cons [_] _ _ []).
        apply (merged_cons [_] _ _ []). apply merged_nil. repeat constructor. }
    refine (query_intro _ _ [Some [Enc None false 4]; Some [Enc (Some tt) false 0]] Hex _).
    apply (merged_cons [] _ _ []). apply (merged_cons [] _ _ []). apply merged_nil.
    repeat constructor.
Qed.

(** The full property is false: expressions are also evaluated on the placeholder rows of markers,
    so that SELECT 10 / x fails although x is never 0. *)
Theorem C62_placeholder_failure_refuted :
  exists p : plan nat unit, append_only p /\ data_safe p /\ query p None.
Proof.
  set (f := fun x : nat => if decide (x = 0) then None else Some (10 / x)).
  exists (Project f (Source 0 (map (adapter_events tt) [[[1; 2]]]))). split_and!.
  - apply (C62_adapter_append_only 0 tt [[[1; 2]]]).
  - cbn [data_safe]. split; [done|]. intros rows r Hr Hin. inversion Hr as [? ? l Hl Eph Er| | | | |].
    subst. assert (Hp : [1; 2] ≡ₚ l) by exact Hl. clear Hl.
    change (map Some l) with (Some <$> l) in Hin. apply elem_of_list_fmap in Hin as (x & [= ->] & Hx).
    rewrite <- Hp in Hx. unfold f. rewrite decide_False; [eauto|]. intros ->.
    by apply elem_of_cons in Hx as [?|[?|?%elem_of_nil]%elem_of_cons].
  - assert (Hex : executes (Project f (Source 0 (map (adapter_events tt) [[[1; 2]]])))
      [[Some [Enc None false 10; Enc None false 5]; None]])
      by exact (ex_project f _ _ (ex_source 0 _)).
    refine (query_intro _ _ [Some [Enc None false 10; Enc None false 5]; None] Hex _).
    apply (merged_cons [] _ _ []). apply (merged_cons [] _ _ []). apply merged_nil.
    repeat constructor.
Qed.
Print Assumptions C62_placeholder_failure_refuted.

(** The collector ignores retractions: a source that took back a row would still return it. *)
Theorem C62_retraction_refuted :
  exists (p : plan nat unit) out, query p (Some out) /\ ~ result p (map Some out).
Proof.
  exists (Source 0 [[Data [(false, 1); (true, 1)]]]), [1; 1]. split.
  - refine (query_intro _ _ [Some [Enc None false 1; Enc None true 1]] (ex_source 0 _) _).
    apply (merged_cons [] _ _ []). apply merged_nil. repeat constructor.
  - intros Hr. inversion Hr as [? ? l Hl Eph Er| | | | |]. subst.
    assert (Hp : [1] ≡ₚ [1] ++ l) by exact Hl.
    apply Permutation_length in Hp. cbn in Hp. destruct l; [done|]. cbn in Hp. lia.
Qed.
Print Assumptions C62_retraction_refuted.

(** A limit that is reached swallows the markers that follow, the end of data among them. *)
Theorem C62_limit_drops_markers_refuted :
  exists (p : plan nat unit) ss,
    append_only p /\ data_safe p /\ marker_safe p /\ executes p ss /\
    source_markers p = [tt] /\ Forall (fun s => omap (fun o => e ← o; e_marker e) (flat s) = []) ss.
Proof.
  exists (Limit 0 0 (Some 1) (Source 0 (map (adapter_events tt) [[[1]; [2]]]))).
  eexists. split_and!; [|done|done| |done|].
  - apply (C62_adapter_append_only 0 tt [[[1]; [2]]]).
  - eapply ex_limit; [apply ex_source|]. cbn.
    apply (merged_cons [] _ _ []). apply (merged_cons [] _ _ []). apply (merged_cons [] _ _ []).
    apply merged_nil. repeat constructor.
  - vm_compute. repeat constructor.
Qed.
Print Assumptions C62_limit_drops_markers_refuted.
