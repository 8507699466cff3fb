(** Theorems for C30 (partition pruning), C31 (statistics pruning), C32 (limits) and
    C54 (filters the scan reports as exact). *)
From Coq Require Import NArith ZArith Lia.
From stdpp Require Import prelude list.
From Verif.Lib Require Import Text.
From Verif.Iceberg Require Import ValueModel TransformModel TransformSpec PruneModel PruneSpec PruneProofs.
Local Open Scope Z_scope.

(** ** Witnesses *)
(** A world in which cast 0 turns an [INT] into a [BIGINT]. *)
Definition std_world : world := World prim_cmp
  (fun _ v => match v with Some (PInt z) => Some (PLong z) | _ => v end) (fun _ _ _ => None) (fun _ _ => None).
Lemma std_world_ok : world_ok std_world.
Proof. intros a b _. cbn [std_world w_cmp]. destruct a; try done; destruct (prim_cmp _ b); done. Qed.
(** Rows with one column. *)
Definition row1 (v : option prim) : row := fun c => match c with 0%nat => v | _ => None end.
Definition int_row (z : Z) : row := row1 (Some (PInt z)).
Definition schema1 (ty : ptype) : schema := fun c => match c with 0%nat => Some ty | _ => None end.
Definition col_op (o : binop) (p : prim) : expr := EBin o (ECol 0) (ELit (Some p)).
Definition col_in (ps : list prim) : expr := EIn (ECol 0) false (map (fun p => ELit (Some p)) ps).
Definition no_deletes : data_file -> option (list row) := fun _ => None.
Definition column (rows : option (list row)) : option (list (option prim)) := map (fun r : row => r 0%nat) <$> rows.
Ltac rows_cases H := repeat (apply elem_of_cons in H as [->|H]); [..|by apply elem_of_nil in H].

Lemma one_field sc c t ty rows v : sc c = Some ty ->
  forallb (fun r : row => match apply_transform t ty (r c) with Ret v' => bool_decide (v' = v) | Panic => false end) rows = true ->
  Forall (fun r => in_partition sc [(c, t)] r [v]) rows.
Proof.
  intros Hsc. rewrite forallb_forall. intros H. rewrite Forall_forall. intros r Hr%elem_of_list_In%H.
  constructor; [|constructor]. right. exists ty. split; [done|]. cbn [fst snd].
  destruct (apply_transform t ty (r c)); [done|]. by apply bool_decide_eq_true in Hr as ->.
Qed.

(** ** C30 *)

(** If a row of a file satisfies all the filters of a query, then neither the manifest
    that lists the file nor the file is pruned by its partition, whatever the filters, the
    partition spec, and the number of specs the table has had.  Missing are filters with
    a cast around the column or the literal, and values for which a transform overflows,
    which are refuted below. *)
Theorem C30_partition_pruning_partial : forall w sc specs spec filters m f r,
  world_ok w -> specs !! m_spec m = Some spec -> manifest_ok sc specs m -> f ∈ m_files m -> r ∈ d_rows f ->
  typed_row sc r -> Forall uncast_filter filters -> Forall (matches w r) filters ->
  orderly_filters sc spec filters -> orderly_row sc spec r ->
  exists ps, partition_predicates sc spec (pruning_filters specs filters) = Some ps /\
    manifest_may_match ps m = true /\ file_may_match ps f = true.
Proof. exact partition_pruning_ok. Qed.
Print Assumptions C30_partition_pruning_partial.

(** The files are found without a panic for filters that meet the same conditions. *)
Theorem C30_planning_succeeds_partial : forall sc specs filters ms, Forall uncast_filter filters ->
  (forall spec, spec ∈ specs -> orderly_filters sc spec filters) ->
  is_Some (load_files sc specs (pruning_filters specs filters) ms).
Proof. exact load_total. Qed.
Print Assumptions C30_planning_succeeds_partial.

(** Pruning by an identity partition of an integer, date or time column is exact for
    comparisons: a file survives if and only if its value satisfies every filter. *)
Theorem C30_identity_exact : forall w sc c ty filters f v r,
  world_ok w -> sc c = Some ty -> ty ∈ [TyInt; TyLong; TyDate; TyTime; TyTs; TyTsNs] ->
  Forall (integer_comparison ty c) filters -> typed ty v -> d_partition f = [Some v] -> r c = Some v ->
  exists ps, partition_predicates sc [(c, Identity)] filters = Some ps /\
    (file_may_match ps f = true <-> Forall (matches w r) filters).
Proof. exact identity_exact. Qed.
Print Assumptions C30_identity_exact.

(** A table truncated to tens, with two manifests, and the query [c > 15 AND c <= 22]. *)
Definition tens_file (p : Z) (zs : list Z) : data_file :=
  DataFile 0 [Some (PInt p)] (N.of_nat (length zs)) [] [] [] (map int_row zs).
Definition tens_manifest : manifest :=
  Manifest 0 (Some [(Some (PInt 0), Some (PInt 20))]) [tens_file 0 [3; 9]; tens_file 10 [12; 17]; tens_file 20 [20; 25]].
Definition tens_filters : list expr := [col_op OGt (PInt 15); col_op OLe (PInt 22)].
Example tens_hypotheses : world_ok std_world /\ manifest_ok (schema1 TyInt) [[(0%nat, Truncate 10)]] tens_manifest /\
  Forall uncast_filter tens_filters /\ Forall (matches std_world (int_row 17)) tens_filters /\
  orderly_filters (schema1 TyInt) [(0%nat, Truncate 10)] tens_filters /\
  orderly_row (schema1 TyInt) [(0%nat, Truncate 10)] (int_row 17).
Proof.
  split; [exact std_world_ok|]. split; [|split; [|split; [|split]]].
  - intros f Hf. cbn [m_files tens_manifest] in Hf. rows_cases Hf; (split; [done|]); (split;
      [intros sums [= <-] [|[|i]] b p Hb Hp; [|done..]; cbn in Hb, Hp; injection Hb as <-; injection Hp as <-;
       split; intros ? [= <-]; vm_compute; discriminate
      |intros spec Hs; injection Hs as <-; apply (one_field _ _ _ TyInt); [done|by vm_compute]]).
  - by repeat constructor.
  - by repeat constructor.
  - intros f ty c p s e Hf Hsc He Hc ->. apply elem_of_list_singleton in Hf as ->. cbn in Hsc. injection Hsc as <-.
    rows_cases He; apply elem_of_list_singleton in Hc; injection Hc as -> ->.
    + split; [by split; [cbn; lia|]|]. split; [split; [lia|]; cbn; lia|]. intros _ [] Hn Hok; try done.
      cbn [orderly truncate_plain snd]. split; [lia|]. cbn in Hn. lia.
    + split; [by split; [cbn; lia|]|]. split; [split; [lia|]; cbn; lia|]. done.
  - intros f ty p Hf Hsc Hp. apply elem_of_list_singleton in Hf as ->. cbn in Hsc, Hp. injection Hsc as <-. injection Hp as <-.
    cbn [orderly truncate_plain snd]. lia.
Qed.
Example tens_pruned :
  map (fun f => file_may_match [(0%nat, CRange (Range (Some (PInt 10, true)) (Some (PInt 20, true))))] f) (m_files tens_manifest)
    = [false; true; true] /\
  partition_predicates (schema1 TyInt) [(0%nat, Truncate 10)] tens_filters =
    Some [(0%nat, CRange (Range (Some (PInt 10, true)) (Some (PInt 20, true))))] /\
  column (query (schema1 TyInt) [[(0%nat, Truncate 10)]] (keeps std_world) false no_deletes tens_filters None [tens_manifest]) =
    Some [Some (PInt 17); Some (PInt 20)].
Proof. by vm_compute. Qed.
(** An identity partition: the file with value 16 survives, the one with value 15 does not. *)
Example identity_pruned :
  let f z := DataFile 0 [Some (PInt z)] 1 [] [] [] [int_row z] in
  match partition_predicates (schema1 TyInt) [(0%nat, Identity)] tens_filters with
  | Some ps => map (fun z => file_may_match ps (f z)) [15; 16; 22; 23] = [false; true; true; false]
  | None => False
  end /\ Forall (integer_comparison TyInt 0) tens_filters.
Proof.
  split; [by vm_compute|]. repeat constructor.
  - exists OGt, (PInt 15). split; [by left|]. split; [by apply (bool_decide_unpack _)|]. split; [by split; [cbn; lia|]|].
    intros [] Hq; try done. cbn in Hq |- *. lia.
  - exists OLe, (PInt 22). split; [by left|]. split; [by apply (bool_decide_unpack _)|]. split; [by split; [cbn; lia|]|].
    intros [] Hq; try done. cbn in Hq |- *. lia.
Qed.

(** The full statement is false: a cast around the column is ignored, and the literal,
    which has the type of the cast, never equals a partition value. *)
Theorem C30_cast_refuted : exists w sc specs spec filters m f r,
  world_ok w /\ specs !! m_spec m = Some spec /\ manifest_ok sc specs m /\ f ∈ m_files m /\ r ∈ d_rows f /\
  typed_row sc r /\ Forall (matches w r) filters /\
  exists ps, partition_predicates sc spec (pruning_filters specs filters) = Some ps /\ file_may_match ps f = false.
Proof.
  exists std_world, (schema1 TyInt), [[(0%nat, Identity)]], [(0%nat, Identity)].
  exists [EBin OEq (ECast 0 (ECol 0)) (ELit (Some (PLong 5)))].
  exists (Manifest 0 None [tens_file 5 [5]]), (tens_file 5 [5]), (int_row 5).
  split; [exact std_world_ok|]. split; [done|]. split; [|split; [|split; [|split; [|split]]]].
  - intros f Hf. cbn [m_files] in Hf. apply elem_of_list_singleton in Hf as ->. split; [done|]. split; [done|].
    intros spec Hs. injection Hs as <-. apply (one_field _ _ _ TyInt); [done|by vm_compute].
  - by apply elem_of_list_singleton.
  - by apply elem_of_list_singleton.
  - intros [|c] ty p Hsc Hp; [|done]. injection Hsc as <-. injection Hp as <-. by split; [cbn; lia|].
  - by repeat constructor.
  - eexists. split; [by vm_compute|]. by vm_compute.
Qed.
Print Assumptions C30_cast_refuted.

(** The row with the least integer wraps around when it is truncated, so its file lies
    in a partition above all others and is dropped by [c <= 0]. *)
Theorem C30_truncate_refuted : exists w sc specs spec filters m f r,
  world_ok w /\ specs !! m_spec m = Some spec /\ manifest_ok sc specs m /\ f ∈ m_files m /\ r ∈ d_rows f /\
  typed_row sc r /\ Forall uncast_filter filters /\ Forall (matches w r) filters /\ orderly_filters sc spec filters /\
  exists ps, partition_predicates sc spec (pruning_filters specs filters) = Some ps /\ file_may_match ps f = false.
Proof.
  exists std_world, (schema1 TyInt), [[(0%nat, Truncate 10)]], [(0%nat, Truncate 10)].
  exists [col_op OLe (PInt 0)].
  exists (Manifest 0 None [tens_file 2147483646 [- 2 ^ 31]]), (tens_file 2147483646 [- 2 ^ 31]), (int_row (- 2 ^ 31)).
  split; [exact std_world_ok|]. split; [done|]. split; [|split; [|split; [|split; [|split; [|split; [|split]]]]]].
  - intros f Hf. cbn [m_files] in Hf. apply elem_of_list_singleton in Hf as ->. split; [done|]. split; [done|].
    intros spec Hs. injection Hs as <-. apply (one_field _ _ _ TyInt); [done|by vm_compute].
  - by apply elem_of_list_singleton.
  - by apply elem_of_list_singleton.
  - intros [|c] ty p Hsc Hp; [|done]. injection Hsc as <-. injection Hp as <-. by split; [cbn; lia|].
  - by repeat constructor.
  - by repeat constructor.
  - intros f ty c p s e Hf Hsc He Hc ->. apply elem_of_list_singleton in Hf as ->. cbn in Hsc. injection Hsc as <-.
    apply elem_of_list_singleton in He as ->. apply elem_of_list_singleton in Hc. injection Hc as -> ->.
    split; [by split; [cbn; lia|]|]. split; [|done]. cbn [orderly truncate_plain snd]. lia.
  - eexists. split; [by vm_compute|]. by vm_compute.
Qed.
Print Assumptions C30_truncate_refuted.

(** A date before 1970 makes planning panic on a table partitioned by year. *)
Theorem C30_planning_refuted : exists sc specs filters ms, Forall uncast_filter filters /\
  (forall e c p s, e ∈ filters -> (c, p, s) ∈ compared e -> exists ty, sc c = Some ty /\ typed ty p) /\
  load_files sc specs (pruning_filters specs filters) ms = None.
Proof.
  exists (schema1 TyDate), [[(0%nat, Year)]], [col_op OGe (PInt (-1))], [Manifest 0 None []].
  split; [by repeat constructor|]. split; [|by vm_compute].
  intros e c p s ->%elem_of_list_singleton Hc. apply elem_of_list_singleton in Hc. injection Hc as -> -> ->.
  exists TyDate. split; [done|]. by split; [cbn; lia|].
Qed.
Print Assumptions C30_planning_refuted.

(** ** C31 *)

(** The membership test rejects a value that a file holds, unless it is the only value of
    the column in the file. *)
Theorem C31_membership_refuted : exists f r c v,
  stats_ok f /\ r ∈ d_rows f /\ r c = Some v /\ contained f c [v] = false.
Proof.
  exists (DataFile 0 [] 2 [(0%nat, PInt 11)] [(0%nat, PInt 12)] [(0%nat, 0%N)] [int_row 11; int_row 12]), (int_row 12), 0%nat, (PInt 12).
  split; [|split; [by right; left|by vm_compute]]. split; [done|]. intros [|c].
  - split; [by intros n [= <-]|]. intros r p Hr Hp. cbn [d_rows] in Hr.
    rows_cases Hr; injection Hp as <-; split; intros ? [= <-]; vm_compute; discriminate.
  - split; [done|]. intros r p Hr Hp. cbn [d_rows] in Hr. by rows_cases Hr.
Qed.
Print Assumptions C31_membership_refuted.

(** The query [c = 12] then loses the row of a well formed table. *)
Definition two_values : data_file :=
  DataFile 0 [Some (PInt 10)] 2 [(0%nat, PInt 11)] [(0%nat, PInt 12)] [(0%nat, 0%N)] [int_row 11; int_row 12].
Theorem C31_query_refuted : exists w sc specs live filters ms rows,
  world_ok w /\ table_ok sc specs ms /\ Forall uncast_filter filters /\
  (forall spec, spec ∈ specs -> orderly_filters sc spec filters) /\ no_floats filters /\ live_ok live /\
  query sc specs (keeps w) true live filters None ms = Some rows /\ rows <> answer w live filters ms.
Proof.
  exists std_world, (schema1 TyInt), [[(0%nat, Truncate 10)]], no_deletes, [col_op OEq (PInt 12)], [Manifest 0 None [two_values]], [].
  split; [exact std_world_ok|]. split; [|split; [by repeat constructor|split; [|split; [|split; [done|split; [by vm_compute|]]]]]].
  - split.
    + intros m ->%elem_of_list_singleton f ->%elem_of_list_singleton. split; [done|]. split; [done|].
      intros spec Hs. injection Hs as <-. apply (one_field _ _ _ TyInt); [done|by vm_compute].
    + intros m f ->%elem_of_list_singleton ->%elem_of_list_singleton. split; [done|]. intros [|c].
      * split; [by intros n [= <-]|]. intros r p Hr Hp. cbn [d_rows two_values] in Hr.
        rows_cases Hr; injection Hp as <-; split; intros ? [= <-]; vm_compute; discriminate.
      * split; [done|]. intros r p Hr Hp. cbn [d_rows two_values] in Hr. by rows_cases Hr.
    + intros m f r ->%elem_of_list_singleton ->%elem_of_list_singleton Hr [|c] ty p Hsc Hp; [|done]. injection Hsc as <-.
      cbn [d_rows two_values] in Hr. rows_cases Hr; injection Hp as <-; by split; [cbn; lia|].
    + intros m f r spec ->%elem_of_list_singleton ->%elem_of_list_singleton Hr Hs. injection Hs as <-.
      intros fld ty p ->%elem_of_list_singleton Hsc Hp. cbn in Hsc. injection Hsc as <-.
      cbn [d_rows two_values] in Hr. rows_cases Hr; injection Hp as <-; cbn [orderly truncate_plain snd]; lia.
  - intros spec ->%elem_of_list_singleton f ty c p s e ->%elem_of_list_singleton Hsc ->%elem_of_list_singleton Hc ->.
    cbn in Hsc. injection Hsc as <-. apply elem_of_list_singleton in Hc. injection Hc as -> ->.
    split; [by split; [cbn; lia|]|]. split; [|done]. cbn [orderly truncate_plain snd]. lia.
  - intros e c p s ->%elem_of_list_singleton Hc. apply elem_of_list_singleton in Hc. by injection Hc as -> -> ->.
  - intros H. apply (f_equal length) in H. vm_compute in H. discriminate.
Qed.
Print Assumptions C31_query_refuted.

(** Statistics never drop a file with a row that satisfies the filter if the bounds of the
    columns tested by equality or a list are equal.  Also missing are floats, whose bounds
    the engine and Iceberg compare differently. *)
Theorem C31_statistics_partial : forall w f r e, world_ok w -> stats_ok f -> r ∈ d_rows f -> matches w r e ->
  no_floats [e] -> single_valued [e] f ->
  (forall o l r', e = EBin o l r' -> match o with OAnd | OOther _ => False | _ => True end) ->
  (forall e' items, e = EIn e' false items -> forallb is_literal items = true) ->
  stats_admit f e = true.
Proof. exact stats_admit_ok. Qed.
Print Assumptions C31_statistics_partial.

(** A query without a limit returns exactly the live rows that satisfy all its filters,
    in order, from any number of manifests, partition specs, data files and delete files:
    classification, both prunings, the reader and the filter above the scan together.
    Missing: the cases refuted above, and the default setting of the Parquet reader, for
    which see C54. *)
Theorem C31_query_partial : forall w sc specs filters live ms,
  world_ok w -> table_ok sc specs ms -> Forall uncast_filter filters ->
  (forall spec, spec ∈ specs -> orderly_filters sc spec filters) -> no_floats filters ->
  (forall f, f ∈ table_files ms -> single_valued filters f) -> live_ok live ->
  query sc specs (keeps w) true live filters None ms = Some (answer w live filters ms).
Proof. exact query_ok. Qed.
Print Assumptions C31_query_partial.

(** Two specs, statistics and deletes: the answer is found with files pruned. *)
Definition old_file : data_file := DataFile 0 [] 2 [(0%nat, PInt 1)] [(0%nat, PInt 2)] [(0%nat, 0%N)] [int_row 1; int_row 2].
Definition new_file (z : Z) : data_file := DataFile 1 [Some (PInt z)] 2 [] [] [] [int_row z; int_row z].
Definition two_specs : list (list pfield) := [[]; [(0%nat, Identity)]].
Definition two_manifests : list manifest :=
  [Manifest 0 None [old_file]; Manifest 1 (Some [(Some (PInt 1), Some (PInt 3))]) [new_file 1; new_file 2; new_file 3]].
Example two_specs_query :
  column (query (schema1 TyInt) two_specs (keeps std_world) true
    (fun f => if decide (d_partition f = [Some (PInt 2)]) then Some [int_row 2] else None)
    [col_op OGe (PInt 2)] None two_manifests) = Some [Some (PInt 2); Some (PInt 2); Some (PInt 3); Some (PInt 3)] /\
  (fun fs => map d_partition fs) <$> scan_files (schema1 TyInt) two_specs [col_op OGe (PInt 2)] None two_manifests =
    Some [[]; [Some (PInt 2)]; [Some (PInt 3)]].
Proof. by vm_compute. Qed.

(** ** C32 *)

(** A limit counts the rows of the files before deletes are applied. *)
Theorem C32_limit_refuted : exists sc specs keep reader live n ms rows,
  (forall f, f ∈ table_files ms -> stats_ok f) /\ live_ok live /\
  query sc specs keep reader live [] (Some n) ms = Some rows /\
  (length rows < N.to_nat n)%nat /\ (length rows < length (flat_map (live_rows live) (table_files ms)))%nat.
Proof.
  set (g z := DataFile 0 [] 2 [] [] [] [int_row z; int_row z]).
  exists (schema1 TyInt), [[]], (keeps std_world), false,
    (fun f => match d_rows f with r :: _ => if decide (r 0%nat = Some (PInt 1)) then Some [] else None | [] => None end),
    1%N, [Manifest 0 None [g 1; g 2]], [].
  split; [|split; [|split; [by vm_compute|split; vm_compute; lia]]].
  - intros f Hf. cbn [table_files flat_map m_files app] in Hf. rows_cases Hf; (split; [done|]); intros c; (split; [done|]);
      intros r p _ _; split; done.
  - intros f rs r Hl Hr. destruct (d_rows f) as [|r0 rest]; [done|]. destruct (decide _); [|done]. injection Hl as <-. by apply elem_of_nil in Hr.
Qed.
Print Assumptions C32_limit_refuted.

(** Without filters and deletes a limit returns the first rows, as many as there are. *)
Theorem C32_limit_partial : forall sc specs keep reader live n ms,
  (forall f, f ∈ table_files ms -> d_count f = N.of_nat (length (d_rows f)) /\ live f = None) ->
  query sc specs keep reader live [] (Some n) ms = Some (take (N.to_nat n) (flat_map d_rows (table_files ms))).
Proof. exact limit_ok. Qed.
Print Assumptions C32_limit_partial.
Example limit_stops :
  (fun fs => map d_partition fs) <$> scan_files (schema1 TyInt) two_specs [] (Some 3%N) two_manifests = Some [[]; [Some (PInt 1)]] /\
  column (query (schema1 TyInt) two_specs (keeps std_world) false no_deletes [] (Some 3%N) two_manifests) =
    Some [Some (PInt 1); Some (PInt 2); Some (PInt 1)].
Proof. by vm_compute. Qed.

(** ** C54 *)

(** A filter that the scan reports as exact is not applied by anyone else.  With the
    default options the scan returns a row that does not satisfy it: from a file written
    before the table was partitioned by the column, *)
Theorem C54_old_spec_refuted : exists w sc specs filters ms rows r e,
  world_ok w /\ table_ok sc specs ms /\ e ∈ filters /\ classify specs e = Exact /\
  query sc specs (keeps w) false no_deletes filters None ms = Some rows /\ r ∈ rows /\ ~ matches w r e.
Proof.
  exists std_world, (schema1 TyInt), two_specs, [col_op OEq (PInt 1)],
    [Manifest 0 None [DataFile 0 [] 2 [] [] [] [int_row 1; int_row 2]]], [int_row 1; int_row 2], (int_row 2), (col_op OEq (PInt 1)).
  split; [exact std_world_ok|]. split; [|split; [by left|split; [by vm_compute|split; [by vm_compute|split; [by right; left|by vm_compute]]]]].
  split.
  - intros m ->%elem_of_list_singleton f ->%elem_of_list_singleton. split; [done|]. split; [done|].
    intros spec Hs. injection Hs as <-. by repeat constructor.
  - intros m f ->%elem_of_list_singleton ->%elem_of_list_singleton. split; [done|]. intros c. split; [done|]. intros r p _ _. split; done.
  - intros m f r ->%elem_of_list_singleton ->%elem_of_list_singleton Hr [|c] ty p Hsc Hp; [|done]. injection Hsc as <-.
    cbn [d_rows] in Hr. rows_cases Hr; injection Hp as <-; by split; [cbn; lia|].
  - intros m f r spec ->%elem_of_list_singleton ->%elem_of_list_singleton Hr Hs. injection Hs as <-. by intros fld ty p ?%elem_of_nil.
Qed.
Print Assumptions C54_old_spec_refuted.

(** from a file of the null partition, *)
Theorem C54_null_partition_refuted : exists w sc spec filters ms rows r e,
  world_ok w /\ table_ok sc [spec] ms /\ e ∈ filters /\ classify [spec] e = Exact /\
  query sc [spec] (keeps w) false no_deletes filters None ms = Some rows /\ r ∈ rows /\ ~ matches w r e.
Proof.
  exists std_world, (schema1 TyInt), [(0%nat, Identity)], [col_op OEq (PInt 1)],
    [Manifest 0 None [DataFile 0 [None] 1 [] [] [] [row1 None]]], [row1 None], (row1 None), (col_op OEq (PInt 1)).
  split; [exact std_world_ok|]. split; [|split; [by left|split; [by vm_compute|split; [by vm_compute|split; [by left|by vm_compute]]]]].
  split.
  - intros m ->%elem_of_list_singleton f ->%elem_of_list_singleton. split; [done|]. split; [done|].
    intros spec Hs. injection Hs as <-. apply (one_field _ _ _ TyInt); [done|by vm_compute].
  - intros m f ->%elem_of_list_singleton ->%elem_of_list_singleton. split; [done|]. intros c. split; [done|]. intros r p _ _. split; done.
  - intros m f r ->%elem_of_list_singleton ->%elem_of_list_singleton Hr [|c] ty p Hsc Hp; [|done].
    cbn [d_rows] in Hr. rows_cases Hr. done.
  - intros m f r spec ->%elem_of_list_singleton ->%elem_of_list_singleton Hr Hs. injection Hs as <-.
    intros fld ty p ->%elem_of_list_singleton Hsc Hp. done.
Qed.
Print Assumptions C54_null_partition_refuted.

(** and for two lists for one column, of which the union is taken. *)
Theorem C54_two_lists_refuted : exists w sc spec filters ms rows r e,
  world_ok w /\ table_ok sc [spec] ms /\ e ∈ filters /\ classify [spec] e = Exact /\
  query sc [spec] (keeps w) false no_deletes filters None ms = Some rows /\ r ∈ rows /\ ~ matches w r e.
Proof.
  exists std_world, (schema1 TyInt), [(0%nat, Identity)], [col_in [PInt 1; PInt 2]; col_in [PInt 2; PInt 3]],
    [Manifest 0 None [DataFile 0 [Some (PInt 1)] 1 [] [] [] [int_row 1]]], [int_row 1], (int_row 1), (col_in [PInt 2; PInt 3]).
  split; [exact std_world_ok|]. split; [|split; [by right; left|split; [by vm_compute|split; [by vm_compute|split; [by left|by vm_compute]]]]].
  split.
  - intros m ->%elem_of_list_singleton f ->%elem_of_list_singleton. split; [done|]. split; [done|].
    intros spec Hs. injection Hs as <-. apply (one_field _ _ _ TyInt); [done|by vm_compute].
  - intros m f ->%elem_of_list_singleton ->%elem_of_list_singleton. split; [done|]. intros c. split; [done|]. intros r p _ _. split; done.
  - intros m f r ->%elem_of_list_singleton ->%elem_of_list_singleton Hr [|c] ty p Hsc Hp; [|done]. injection Hsc as <-.
    cbn [d_rows] in Hr. rows_cases Hr; injection Hp as <-; by split; [cbn; lia|].
  - intros m f r spec ->%elem_of_list_singleton ->%elem_of_list_singleton Hr Hs. injection Hs as <-.
    intros fld ty p ->%elem_of_list_singleton Hsc Hp. done.
Qed.
Print Assumptions C54_two_lists_refuted.

(** They hold if the Parquet reader is set to apply them. *)
Theorem C54_reader_partial : forall w sc specs filters ms live limit rows r e,
  scan sc specs (keeps w) true live filters limit ms = Some rows -> r ∈ rows ->
  e ∈ filters -> classify specs e = Exact -> matches w r e.
Proof. exact exact_applied. Qed.
Print Assumptions C54_reader_partial.
Example old_spec_reader :
  column (scan (schema1 TyInt) two_specs (keeps std_world) true no_deletes [col_op OEq (PInt 1)] None
    [Manifest 0 None [DataFile 0 [] 2 [] [] [] [int_row 1; int_row 2]]]) = Some [Some (PInt 1)].
Proof. by vm_compute. Qed.

(** Exact filters do hold, with the default options, for all rows returned from a table
    of which every file is partitioned by the column itself and holds no null partition,
    if only one of the filters is a list. *)
Theorem C54_identity_partial : forall w sc specs filters ms reader live limit rows r e,
  world_ok w -> scan sc specs (keeps w) reader live filters limit ms = Some rows -> r ∈ rows ->
  e ∈ filters -> classify specs e = Exact -> Forall uncast_filter filters ->
  (forall c p s, (c, p, s) ∈ compared e -> sc c <> None /\ partitioned_by specs ms c) -> compared e <> [] ->
  (forall e', e' ∈ filters -> is_list e = true -> is_list e' = true -> e' = e) ->
  matches w r e.
Proof. exact exact_identity. Qed.
Print Assumptions C54_identity_partial.

(** Only columns that every partition spec either leaves alone or partitions by their values get a filter
    reported as exact. *)
Theorem C54_exact_columns : forall specs e c p s,
  classify specs e = Exact -> uncast_filter e -> (c, p, s) ∈ compared e ->
  (exists spec, spec ∈ specs /\ (c, Identity) ∈ spec) /\
  forall spec t, spec ∈ specs -> (c, t) ∈ spec -> t = Identity \/ t = Void \/ t = Unknown.
Proof. exact exact_columns. Qed.
Print Assumptions C54_exact_columns.
Example identity_list :
  let ms := [Manifest 1 None [new_file 1; new_file 2; new_file 3]] in
  classify two_specs (col_in [PInt 1; PInt 3]) = Exact /\
  column (scan (schema1 TyInt) two_specs (keeps std_world) false no_deletes [col_in [PInt 1; PInt 3]] None ms) =
    Some [Some (PInt 1); Some (PInt 1); Some (PInt 3); Some (PInt 3)] /\
  partitioned_by two_specs ms 0.
Proof.
  split; [by vm_compute|]. split; [by vm_compute|]. intros m f ->%elem_of_list_singleton Hf. cbn [m_files] in Hf.
  rows_cases Hf; eexists [(0%nat, Identity)], 0%nat, _; (split; [done|]); (split; [done|]); (split; [done|]); (split; [done|]); by repeat constructor.
Qed.
