(** Checkpoints of DataFrames: what is read is what was written (C80); attempts, failures and the
    end of the session (C81). *)
From Coq Require Import NArith ZifyN Ascii String Lia.
From stdpp Require Import prelude list gmap.
From Verif Require Import Lib.Text Checkpoint.CheckpointModel Checkpoint.CheckpointSpec
  Checkpoint.CheckpointProofs Checkpoint.CheckpointRunProofs Checkpoint.CheckpointSessionProofs.
Local Open Scope N_scope.

(** ** Data for the examples *)
Definition ex_size (rows : list N) : N := 12 + N.of_nat (length rows).
Definition ex_uuid (u : text) : bool := negb (bool_decide (u = [])).
Definition ex_root : path := [str "checkpoints"].
Definition ex_session : text := str "s1".
Definition ex_prefix : path := relation_prefix ex_root ex_session (str "r").
(** Three partitions; the second has no rows. *)
Definition ex_attempts : attempts N :=
  [(str "aa", [[1; 2]; []; [3]]); (str "bb", [[]]); (str "cc", [[]; [4]])].
Definition ex_hash (k r : N) : N := r + k.

(** ** C80: what is read is what was written *)

(** A task that writes a partition fails if its input does. Otherwise it stores all the rows in a
    file of its own, unless there is nothing to store, and its metadata says so. *)
Theorem C80_partition {Row : Type} (psize : list Row -> N) (no_columns : bool) (pre : path) (p : N)
    (uuid : text) (bs : list (option (list Row))) :
  (None ∈ bs -> write_partition psize no_columns pre p uuid bs = None) /\
  (forall bl, bs = map Some bl -> count_rows bl <= u64_max ->
     exists f m, write_partition psize no_columns pre p uuid bs = Some (f, m) /\
       m_partition m = p /\ m_rows m = count_rows bl /\
       (f = None <-> no_columns = true \/ concat bl = []) /\
       match f with
       | None => m_location m = None /\ m_size m = 0
       | Some (loc, rows) =>
         loc = pre ++ [str "part-" ++ pad5 p ++ str "-" ++ uuid ++ str ".parquet"] /\
         rows = concat bl /\ m_location m = Some loc /\ m_size m = psize rows
       end).
Proof.
  split; [apply write_error|]. intros bl -> Hb. rewrite write_ok by done.
  unfold written. destruct (no_columns || (length (concat bl) =? 0)%nat) eqn:E.
  - eexists _, _. split; [done|]. split; [done|]. split; [done|]. split; [|done]. split; [|done].
    intros _. destruct no_columns; [by left|]. right. cbn [orb] in E. apply Nat.eqb_eq in E.
    by destruct (concat bl).
  - apply orb_false_iff in E as [-> E]. apply Nat.eqb_neq in E.
    eexists _, _. split; [done|]. split; [done|]. split; [done|]. split.
    + split; [done|]. intros [?|H]; [done|]. by rewrite H in E.
    + split; [|done]. unfold part_name, part_start. by rewrite <- !(assoc_L app).
Qed.
Print Assumptions C80_partition.

Example C80_partition_ex :
  write_partition ex_size false ex_prefix 7 (str "aa") [Some [1; 2]; Some []; Some [3]] =
  Some (Some (ex_prefix ++ [str "part-00007-aa.parquet"], [1; 2; 3]),
        Meta 7 (Some (ex_prefix ++ [str "part-00007-aa.parquet"])) 15 3) /\
  write_partition ex_size true ex_prefix 7 (str "aa") [Some [0; 0]; Some [0]] =
  Some (None, Meta 7 None 0 3) /\
  write_partition ex_size false ex_prefix 7 (str "aa") [Some [1; 2]; None] = None.
Proof. vm_compute. done. Qed.

(** The commit accepts the metadata of the partitions 0, 1, ..., n-1, each once and in whatever
    order they arrive, and refuses everything else: errors, partitions twice, gaps, files of another
    partition or in another place. The published partitions are in the order of their numbers. *)
Theorem C80_accepts (uuid_ok : text -> bool) (no_columns : bool) (pre : path)
    (ms : list (option meta)) (parts : list part) :
  collect uuid_ok no_columns pre ms = Some parts <->
  exists l, ms ≡ₚ map Some l /\ l <> [] /\ Forall (acceptable uuid_ok no_columns pre) l /\
    map m_partition l = numbers (length l) /\ parts = map entry l.
Proof. apply collect_iff. Qed.
Print Assumptions C80_accepts.

Example C80_accepts_ex :
  let m i n := Some (Meta i (Some (ex_prefix ++ [n])) 15 3) in
  let e := Some (Meta 1 None 0 0) in
  (exists parts, collect ex_uuid false ex_prefix
     [m 2 (str "part-00002-cc.parquet"); m 0 (str "part-00000-aa.parquet"); e] = Some parts /\
     map p_index parts = [0; 1; 2]) /\
  collect ex_uuid false ex_prefix [m 0 (str "part-00000-aa.parquet"); e; None] = None /\
  collect ex_uuid false ex_prefix [m 0 (str "part-00000-aa.parquet"); e; e] = None /\
  collect ex_uuid false ex_prefix [m 2 (str "part-00002-cc.parquet"); e] = None /\
  collect ex_uuid false ex_prefix [m 0 (str "part-00001-aa.parquet")] = None.
Proof. cbv zeta. split; [eexists; split; vm_compute; reflexivity|]. vm_compute. done. Qed.

(** A file belongs to one partition only. *)
Theorem C80_one_partition (uuid_ok : text -> bool) (pre : path) (p q : N) (loc : path) :
  valid_location uuid_ok pre p loc = true -> valid_location uuid_ok pre q loc = true -> p = q.
Proof. rewrite !valid_location_iff. apply well_placed_one. Qed.
Print Assumptions C80_one_partition.

Example C80_one_partition_ex :
  valid_location ex_uuid ex_prefix 100000 (ex_prefix ++ [str "part-100000-aa.parquet"]) = true /\
  valid_location ex_uuid ex_prefix 10000 (ex_prefix ++ [str "part-100000-aa.parquet"]) = false.
Proof. vm_compute. done. Qed.

(** Whatever the order in which the metadata of the partitions arrives, the commit accepts it, and
    as long as the files are there the checkpoint gives back each partition, with its rows in their
    order. *)
Theorem C80_round_trip {Row : Type} (psize : list Row -> N) (uuid_ok : text -> bool) (blank : Row)
    (no_columns : bool) (pre : path) (l : attempts Row) (store : gmap path (list Row))
    (ms : list (option meta)) :
  (forall rows, psize rows <> 0) ->
  l <> [] -> sound_attempts uuid_ok l -> blank_rows no_columns blank l ->
  (forall i a loc rows m, l !! i = Some a ->
     write_partition psize no_columns pre (N.of_nat i) a.1 (map Some a.2)
       = Some (Some (loc, rows), m) -> store !! loc = Some rows) ->
  ms ≡ₚ metadata psize no_columns pre l ->
  exists parts, collect uuid_ok no_columns pre ms = Some parts /\
    map (read_part psize blank no_columns store) parts = map (fun a => Some (concat a.2)) l.
Proof.
  intros Hp Hne Hs Hb Hst Hms.
  destruct (round_trip psize uuid_ok Hp no_columns pre l blank store ms Hne Hs Hb Hst Hms)
    as (parts & H1 & _ & H2). by exists parts.
Qed.
Print Assumptions C80_round_trip.

Example C80_round_trip_ex :
  ex_attempts <> [] /\ sound_attempts ex_uuid ex_attempts /\ blank_rows false 0 ex_attempts /\
  metadata ex_size false ex_prefix ex_attempts =
    [Some (Meta 0 (Some (ex_prefix ++ [str "part-00000-aa.parquet"])) 15 3);
     Some (Meta 1 None 0 0);
     Some (Meta 2 (Some (ex_prefix ++ [str "part-00002-cc.parquet"])) 13 1)].
Proof.
  split; [done|]. split; [repeat constructor; vm_compute; done|]. split; [done|]. vm_compute. done.
Qed.

(** The partitioning that is recorded: it counts the partitions that there are; and if what was
    known of the input was true of it, what is recorded is true of the checkpoint. *)
Theorem C80_partitioning {Row K : Type} (hash : K -> Row -> N) (t : partitioning K)
    (rows : list (list Row)) :
  (partition_count t = N.of_nat (length rows) -> claim_holds hash t rows) ->
  let t' := with_count t (N.of_nat (length rows)) in
  partition_count t' = N.of_nat (length rows) /\ claim_holds hash t' rows /\
  (partition_count t = N.of_nat (length rows) -> t' = t).
Proof.
  intros H. cbv zeta. destruct t as [n|k n|n]; cbn [with_count partition_count] in *.
  - split; [done|]. split; [done|]. by intros ->.
  - destruct (N.eqb_spec n (N.of_nat (length rows))) as [->|Hne].
    + split; [done|]. split; [by apply H|done].
    + split; [done|]. split; [done|]. by intros.
  - split; [done|]. split; [done|]. by intros ->.
Qed.
Print Assumptions C80_partitioning.

Example C80_partitioning_ex :
  claim_holds ex_hash (HashP 0 2) [[4; 2]; [3]] /\
  with_count (HashP 0 2) 2 = HashP (0 : N) 2 /\ with_count (HashP 0 2) 3 = UnknownP (K := N) 3.
Proof.
  split; [|by vm_compute]. intros [|[|i]] l r Hl Hr; cbn in Hl.
  - apply (inj Some) in Hl as <-. apply elem_of_list_In in Hr as [<-|[<-|[]]]; by vm_compute.
  - apply (inj Some) in Hl as <-. apply elem_of_list_In in Hr as [<-|[]]; by vm_compute.
  - done.
Qed.

(** ** C81: attempts, failures and the end of the session *)

(** A checkpoint that was committed once, from one complete set of attempts, gives back the rows of
    these attempts as long as the session lasts. Other attempts at its partitions, and whatever
    happens to other relations of the session, make no difference. *)
Theorem C81_readable {Row K : Type} (psize : list Row -> N) (uuid_ok : text -> bool) (blank : Row)
    (root : path) (session : text) (before after : list (op Row K)) (id : text) (no_columns : bool)
    (t : partitioning K) (l : attempts Row) (ms : list (option meta)) :
  (forall rows, psize rows <> 0) ->
  l <> [] -> sound_attempts uuid_ok l -> blank_rows no_columns blank l ->
  (forall i a, l !! i = Some a -> OWrite id no_columns (N.of_nat i) a.1 (map Some a.2) ∈ before) ->
  ms ≡ₚ metadata psize no_columns (relation_prefix root session id) l ->
  Forall (fun o => ~ commits id o) (before ++ after) ->
  OClose ∉ before ++ after -> NoDup (uuids (before ++ after)) ->
  let s1 := run psize uuid_ok root session init before in
  let s2 := run psize uuid_ok root session s1 (OCommit id no_columns t ms :: after) in
  (step psize uuid_ok root session s1 (OCommit id no_columns t ms)).2 = true /\
  exists d, st_relations s2 !! id = Some d /\
    read psize blank (st_store s2) d = map (fun a => Some (concat a.2)) l /\
    d_partitioning d = with_count t (N.of_nat (length l)).
Proof. intros Hp. by apply readable. Qed.
Print Assumptions C81_readable.

Definition ex_write (a : nat) (id : text) : op N N :=
  match ex_attempts !! a with
  | Some x => OWrite id false (N.of_nat a) x.1 (map Some x.2)
  | None => OClose
  end.
Definition ex_before : list (op N N) :=
  [OWrite (str "r") false 2 (str "dd") [Some [4]]; ex_write 2 (str "r");
   OWrite (str "q") false 0 (str "ee") [Some [9]]; ex_write 0 (str "r");
   OCommit (str "q") false (UnknownP 1) [None]; ex_write 1 (str "r")].
Definition ex_after : list (op N N) :=
  [OList (str "q");
   ODelete (relation_prefix ex_root ex_session (str "q") ++ [str "part-00000-ee.parquet"])].

Example C81_readable_ex :
  (forall i a, ex_attempts !! i = Some a ->
     OWrite (str "r") false (N.of_nat i) a.1 (map Some a.2) ∈ ex_before) /\
  Forall (fun o => ~ commits (str "r") o) (ex_before ++ ex_after) /\
  OClose ∉ ex_before ++ ex_after /\ NoDup (uuids (ex_before ++ ex_after)).
Proof.
  split; [|split; [|split]].
  - intros [|[|[|i]]] a Ha; [..|by destruct i]; apply (inj Some) in Ha as <-;
      apply elem_of_list_In; cbn; tauto.
  - repeat constructor; cbn [commits]; intros H; done.
  - intros H. apply elem_of_list_In in H. cbn in H. repeat destruct H as [H|H]; done.
  - apply (bool_decide_unpack _). by vm_compute.
Qed.

(** A published checkpoint is never replaced, as long as the session is not cleared. *)
Theorem C81_unchanged {Row K : Type} (psize : list Row -> N) (uuid_ok : text -> bool) (root : path)
    (session : text) (s : state Row K) (os : list (op Row K)) (id : text) (d : descriptor K) :
  st_relations s !! id = Some d -> OClear ∉ os ->
  st_relations (run psize uuid_ok root session s os) !! id = Some d.
Proof. apply run_relation. Qed.
Print Assumptions C81_unchanged.

Example C81_unchanged_ex :
  is_Some (st_relations (run ex_size ex_uuid ex_root ex_session init
    (ex_before ++ [OCommit (str "r") false (UnknownP 3)
                     (metadata ex_size false ex_prefix ex_attempts)])) !! str "r").
Proof. apply (bool_decide_unpack _). by vm_compute. Qed.

(** After a failed commit and its clean-up nothing of the relation is left in the store, provided
    that no task still writes. *)
Theorem C81_failed_leaves_nothing {Row K : Type} (psize : list Row -> N) (uuid_ok : text -> bool)
    (root : path) (session : text) (s : state Row K) (id : text) (no_columns : bool)
    (t : partitioning K) (ms : list (option meta)) (os : list (op Row K)) :
  let '(s1, committed) := step psize uuid_ok root session s (OCommit id no_columns t ms) in
  let s2 := run psize uuid_ok root session s1 os in
  committed = false -> OList id ∈ os -> Forall (fun o => ~ writes id o) os ->
  Forall (fun loc => under (relation_prefix root session id) loc = false) (st_doomed s2) ->
  forall loc, under (relation_prefix root session id) loc = true -> st_store s2 !! loc = None.
Proof.
  destruct (step psize uuid_ok root session s (OCommit id no_columns t ms)) as [s1 c] eqn:E.
  cbv zeta. intros -> Hl Ho Hd loc Hu.
  pose proof (failed_leaves_nothing psize uuid_ok root session s id no_columns t ms os) as G.
  rewrite E in G. cbn [fst snd] in G. by apply G.
Qed.
Print Assumptions C81_failed_leaves_nothing.

Example C81_failed_leaves_nothing_ex :
  let s := run ex_size ex_uuid ex_root ex_session init (take 3 ex_before) in
  let os := [OList (str "r"); ODelete (ex_prefix ++ [str "part-00002-cc.parquet"]);
             ODelete (ex_prefix ++ [str "part-00002-dd.parquet"])] in
  let '(s1, committed) :=
    step ex_size ex_uuid ex_root ex_session s (OCommit (str "r") false (UnknownP 3) [None]) in
  let s2 := run ex_size ex_uuid ex_root ex_session s1 os in
  committed = false /\ st_doomed s2 = [] /\ size (st_store s) = 3%nat /\ size (st_store s2) = 1%nat.
Proof. vm_compute. done. Qed.

(** When a session ends, nothing of it is left, provided that no task still writes; and nothing can
    be published any more. *)
Theorem C81_closed_leaves_nothing {Row K : Type} (psize : list Row -> N) (uuid_ok : text -> bool)
    (root : path) (session : text) (s : state Row K) (a b c : list (op Row K)) :
  let s' := run psize uuid_ok root session s (OClose :: a ++ OListAll :: b ++ OClear :: c) in
  Forall (fun o => ~ writes_any o) (b ++ c) ->
  Forall (fun loc => under (root ++ [session]) loc = false) (st_doomed s') ->
  st_relations s' = ∅ /\
  forall loc, under (root ++ [session]) loc = true -> st_store s' !! loc = None.
Proof. apply closed_leaves_nothing. Qed.
Print Assumptions C81_closed_leaves_nothing.

Example C81_closed_leaves_nothing_ex :
  let os := [OClose; OListAll; ODelete (ex_prefix ++ [str "part-00002-cc.parquet"]);
             ODelete (ex_prefix ++ [str "part-00002-dd.parquet"]);
             ODelete (relation_prefix ex_root ex_session (str "q") ++ [str "part-00000-ee.parquet"]);
             OClear; OCommit (str "r") false (UnknownP 1) [Some (Meta 0 None 0 0)]] in
  let s := run ex_size ex_uuid ex_root ex_session init (take 3 ex_before ++ os) in
  st_doomed s = [] /\ map_to_list (st_store s) = [] /\ map_to_list (st_relations s) = [].
Proof. vm_compute. done. Qed.

(** A session touches no file outside of its own directory: not those of other sessions that keep
    their checkpoints under the same root, nor anything else. [others] are the files found there. *)
Theorem C81_other_files {Row K : Type} (psize : list Row -> N) (uuid_ok : text -> bool)
    (root : path) (session : text) (others : gmap path (list Row)) (os : list (op Row K)) (loc : path) :
  under (root ++ [session]) loc = false ->
  st_store (run psize uuid_ok root session (State others ∅ false [] []) os) !! loc = others !! loc.
Proof. intros Hu. apply outside_run; [constructor|done]. Qed.
Print Assumptions C81_other_files.

Example C81_other_files_ex :
  let loc := relation_prefix ex_root (str "s2") (str "q") ++ [str "part-00000-ee.parquet"] in
  under (ex_root ++ [ex_session]) loc = false /\
  (st_store (run ex_size ex_uuid ex_root ex_session (State {[loc := [7]]} ∅ false [] [])
     (ex_before ++ [OClose; OListAll; ODelete loc; OClear]))) !! loc = Some [7].
Proof. vm_compute. done. Qed.

(** A second attempt at a commit that has succeeded destroys the checkpoint: it fails because the
    relation is there, and its clean-up deletes the files that the published checkpoint names. *)
Theorem C81_retry_refuted :
  exists (l : attempts N) (before after : list (op N N)) id t ms d,
    sound_attempts ex_uuid l /\
    (forall i a, l !! i = Some a -> OWrite id false (N.of_nat i) a.1 (map Some a.2) ∈ before) /\
    ms ≡ₚ metadata ex_size false (relation_prefix ex_root ex_session id) l /\
    OClose ∉ before ++ after /\ NoDup (uuids (before ++ after)) /\
    let s1 := run ex_size ex_uuid ex_root ex_session init before in
    let s2 := run ex_size ex_uuid ex_root ex_session s1 (OCommit id false t ms :: after) in
    (step ex_size ex_uuid ex_root ex_session s1 (OCommit id false t ms)).2 = true /\
    st_relations s2 !! id = Some d /\ read ex_size 0 (st_store s2) d = [None].
Proof.
  exists [(str "aa", [[1; 2]])], [OWrite (str "r") false 0 (str "aa") [Some [1; 2]]].
  exists [OCommit (str "r") false (UnknownP 1)
            [Some (Meta 0 (Some (ex_prefix ++ [str "part-00000-aa.parquet"])) 14 2)];
          OList (str "r"); ODelete (ex_prefix ++ [str "part-00000-aa.parquet"])].
  exists (str "r"), (UnknownP 1),
    [Some (Meta 0 (Some (ex_prefix ++ [str "part-00000-aa.parquet"])) 14 2)].
  eexists. split; [repeat constructor; vm_compute; done|]. split.
  { intros [|i] a Ha; [|by destruct i]. apply (inj Some) in Ha as <-. left. }
  split; [by vm_compute|]. split.
  { intros H. apply elem_of_list_In in H. cbn in H. repeat destruct H as [H|H]; done. }
  split; [apply (bool_decide_unpack _); by vm_compute|]. cbv zeta.
  split; [by vm_compute|]. split; vm_compute; reflexivity.
Qed.
Print Assumptions C81_retry_refuted.

(** The clean-up of a failed attempt does not wait for anything: it can delete the files that the
    next attempt has already written. The next commit succeeds and the checkpoint cannot be read. *)
Theorem C81_overlap_refuted :
  exists (l : attempts N) (before : list (op N N)) id t ms d,
    sound_attempts ex_uuid l /\
    (forall i a, l !! i = Some a -> OWrite id false (N.of_nat i) a.1 (map Some a.2) ∈ before) /\
    ms ≡ₚ metadata ex_size false (relation_prefix ex_root ex_session id) l /\
    OClose ∉ before /\ NoDup (uuids before) /\
    let s1 := run ex_size ex_uuid ex_root ex_session init before in
    let '(s2, committed) := step ex_size ex_uuid ex_root ex_session s1 (OCommit id false t ms) in
    committed = true /\ st_relations s2 !! id = Some d /\ read ex_size 0 (st_store s2) d = [None].
Proof.
  exists [(str "bb", [[1; 2]])].
  exists [OCommit (str "r") false (UnknownP 1) [None];
          OWrite (str "r") false 0 (str "bb") [Some [1; 2]];
          OList (str "r"); ODelete (ex_prefix ++ [str "part-00000-bb.parquet"])].
  exists (str "r"), (UnknownP 1),
    [Some (Meta 0 (Some (ex_prefix ++ [str "part-00000-bb.parquet"])) 14 2)].
  eexists. split; [repeat constructor; vm_compute; done|]. split.
  { intros [|i] a Ha; [|by destruct i]. apply (inj Some) in Ha as <-. right. left. }
  split; [by vm_compute|]. split.
  { intros H. apply elem_of_list_In in H. cbn in H. repeat destruct H as [H|H]; done. }
  split; [apply (bool_decide_unpack _); by vm_compute|]. cbv zeta.
  split; [by vm_compute|]. split; vm_compute; reflexivity.
Qed.
Print Assumptions C81_overlap_refuted.
