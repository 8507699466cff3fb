(** C38: the in-memory catalog behaves like a map from names to objects.
    C42: catalog-managed metadata updates are compare-and-swap. *)
From Coq Require Import NArith ZifyN Ascii String Lia.
From stdpp Require Import prelude gmap list strings.
From Verif.Lib Require Import Text.
From Verif.Catalog Require Import MemoryModel MemorySpec MemoryProofs.

(** A state to try things on. *)
Definition db : namespace := (str "db", []).
Definition col (n : text) (t : dtype) : new_column := mkNewColumn n t true None None None None.
Definition plain (m : mode) (ps : list (text * text)) : create_table :=
  mkCreateTable [col (str "a") (Prim 1);
                 col (str "s") (Struct [(str "x", Prim 2, true, 0%N); (str "y", Prim 3, true, 0%N)])]
    None [] None (str "parquet") [] [] None m ps false.
Definition sample : list op :=
  [CreateTable db (str "t") (plain Create [(str "p", str "1")]);
   CreateView db (str "t") (mkCreateView [] (str "SELECT 1") false false None []);
   CreateDatabase (str "db", [str "sub"]) (mkCreateDb None None false [])].
Definition sample_state : catalog := (run (initial (str "c") db None) sample).1.
Lemma sample_reachable : reachable sample_state.
Proof. by eexists _, _, _, sample. Qed.

(** From every state a catalog can get into, every operation has exactly the
    effect and the answer of the map in MemorySpec.v: creation, replacement,
    IF NOT EXISTS, IF EXISTS and CASCADE, lookups, listings, alterations, and
    nothing at all for operations that fail.  Left out: unsetting several
    properties without IF EXISTS, see [C38_unset] and [C38_failed_unset_refuted]. *)
Theorem C38_map_partial s o :
  reachable s -> ¬ may_stop_half_way o ->
  expected (cat_name s) (holds s) o (holds (step s o).1) (step s o).2.
Proof. intros Hr. exact (step_expected s o (reachable_named s Hr)). Qed.
Print Assumptions C38_map_partial.

Example C38_map_example :
  reachable sample_state /\
  is_Some (w_table (holds sample_state) db (str "t")) /\ is_Some (w_view (holds sample_state) db (str "t")) /\
  (step sample_state (DropDatabase db false false)).2 = Error (DatabaseNotEmpty db) /\
  (step sample_state (CreateTable db (str "t") (plain Create []))).2 = Error (TableExists (str "t")) /\
  (exists x, (step sample_state (CreateTable db (str "t") (plain CreateOrReplace []))).2 = Table x) /\
  (step sample_state (AlterTable db (str "t") (AlterColumnType [str "s"; str "y"] (Prim 9)))).2 = Done /\
  (step sample_state (AlterTable db (str "t") (AlterColumnType [str "s"; str "z"] (Prim 9)))).2 = Error InvalidColumn.
Proof.
  split; [exact sample_reachable|].
  repeat split; try (by eexists); by vm_compute.
Qed.

(** The columns of a table that was created: as asked for, in order, and marked
    as partition or bucket columns if they are named as such, whatever the case
    of the letters. *)
Theorem C38_columns s ns t c x :
  w_table (holds s) ns t = None \/ ct_mode c <> CreateIfNotExists ->
  (step s (CreateTable ns t c)).2 = Table x ->
  Forall2 (column_as_asked c) (ct_columns c) (tbl_columns x).
Proof.
  intros Hn. cbn in *. destruct (create_table_ok c); [|done].
  destruct (cat_dbs s !! ns) as [d|]; [|done]. cbn in Hn.
  destruct (db_tables d !! t) as [old|]; destruct (ct_mode c); cbn; intros H; simplify_eq; cbn;
    try (destruct Hn; done);
    (induction (ct_columns c) as [|k l IH]; cbn; constructor; [apply table_column_as_asked|exact IH]).
Qed.
Print Assumptions C38_columns.
Example C38_columns_example :
  let c := mkCreateTable [col (str "Day") (Prim 1); col (str "id") (Prim 2)] None [] None (str "parquet")
             [(str "day", None)] [] (Some ([str "ID"], 4%N)) Create [] false in
  exists x, (step sample_state (CreateTable db (str "u") c)).2 = Table x /\
    map col_partition (tbl_columns x) = [true; false] /\ map col_bucket (tbl_columns x) = [false; true] /\
    same_name (str "day") (str "Day") /\ w_table (holds sample_state) db (str "u") = None.
Proof.
  eexists. split; [by vm_compute|]. split_and!; [by vm_compute|by vm_compute| |by vm_compute].
  apply eq_ci_same_name. by vm_compute.
Qed.

(** Unsetting properties, in every case: the properties named before the first
    missing one are removed, and nothing else changes. *)
Theorem C38_unset s ns t keys if_exists x :
  w_table (holds s) ns t = Some x ->
  let '(s', r) := step s (AlterTable ns t (UnsetProperties keys if_exists)) in
  exists removed x',
    w_table (holds s') ns t = Some x' /\ same_but_properties x x' /\ only_table (holds s) (holds s') ns t /\
    removed `prefix_of` keys /\
    (forall k, property (tbl_properties x') k =
       if decide (k ∈ removed) then None else property (tbl_properties x) k) /\
    (r = Done /\ removed = keys \/
     exists k rest, r = Error (NoProperty k (tbl_name x)) /\ keys = removed ++ k :: rest /\
       if_exists = false /\ property (tbl_properties x') k = None).
Proof. exact (unset_step s ns t keys if_exists x). Qed.
Print Assumptions C38_unset.

(** An operation that fails can change the catalog: a failed
    ALTER TABLE ... UNSET TBLPROPERTIES has removed some of the properties. *)
Theorem C38_failed_unset_refuted :
  exists s o e, reachable s /\ (step s o).2 = Error e /\ ¬ unchanged (holds s) (holds (step s o).1).
Proof.
  exists sample_state, (AlterTable db (str "t") (UnsetProperties [str "p"; str "q"] false)), (NoProperty (str "q") (str "t")).
  split; [exact sample_reachable|]. split; [by vm_compute|].
  intros (_ & H & _). specialize (H db (str "t") ltac:(by intros [])). by vm_compute in H.
Qed.
Print Assumptions C38_failed_unset_refuted.

(** Whatever is done to one database, failing or not, leaves every other
    database and all its objects as they were, nested databases included. *)
Theorem C38_other_databases s o ns :
  about o <> Some ns ->
  w_db (holds (step s o).1) ns = w_db (holds s) ns /\
  (forall t, w_table (holds (step s o).1) ns t = w_table (holds s) ns t) /\
  (forall v, w_view (holds (step s o).1) ns v = w_view (holds s) ns v).
Proof. intros H. cbn. by rewrite (step_elsewhere s o ns H). Qed.
Print Assumptions C38_other_databases.
Example C38_other_databases_example :
  (step sample_state (DropDatabase db false true)).2 = Done /\
  is_Some (w_db (holds (step sample_state (DropDatabase db false true)).1) (str "db", [str "sub"])).
Proof. split; [by vm_compute|]. vm_compute. by eexists. Qed.

(** ** C42 *)
(** An update that states the location it was based on succeeds exactly when
    that is the location of the table at that moment. *)
Theorem C42_base s ns t new b :
  based_on new b ->
  (step s (AlterTable ns t (SetProperties new))).2 = Done <->
  exists x, w_table (holds s) ns t = Some x /\ location x = Some b.
Proof.
  intros Hb. split; [exact (update_needs_base s ns t new b Hb)|].
  intros (x & Hx & Hl). exact (update_with_base s ns t new b x Hb Hx Hl).
Qed.
Print Assumptions C42_base.

(** However the operations of all sessions interleave, at most one update with
    a given base succeeds, as long as the table's location is kept under one
    property key and nobody moves the location back to that base.
    The condition on the key is needed: [C42_two_keys_refuted]. *)
Theorem C42_one_winner_partial ns t k b s os :
  one_location_key (holds s) ns t k -> Forall (keeps_to_key ns t k b) os ->
  winners ns t b os (run s os).2 <= 1.
Proof. exact (winners_one ns t k b s os). Qed.
Print Assumptions C42_one_winner_partial.

(** A table with a location, and writers racing for it. *)
Definition managed (ps : list (text * text)) : catalog :=
  (run (initial (str "c") db None) [CreateTable db (str "t") (plain Create ps)]).1.
Definition race (ps : list (text * text)) (b n1 n2 : text) : list op :=
  [AlterTable db (str "t") (SetProperties (writer_update ps b n1));
   AlterTable db (str "t") (SetProperties (writer_update ps b n2))].
Example C42_one_winner_example :
  let ps := [(str "metadata_location", str "m0")] in
  one_location_key (holds (managed ps)) db (str "t") (str "metadata_location") /\
  Forall (keeps_to_key db (str "t") (str "metadata_location") (str "m0")) (race ps (str "m0") (str "m1") (str "m2")) /\
  winners db (str "t") (str "m0") (race ps (str "m0") (str "m1") (str "m2"))
    (run (managed ps) (race ps (str "m0") (str "m1") (str "m2"))).2 = 1.
Proof.
  cbn zeta. split_and!.
  - intros x p Hx Hp _. vm_compute in Hx. injection Hx as <-. cbn in Hp.
    apply elem_of_list_singleton in Hp as ->. done.
  - unfold race. rewrite !Forall_cons, Forall_nil. split_and!; [..|done];
      cbn [keeps_to_key]; intros _ _ p Hp Hl;
      (apply elem_of_cons in Hp as [->|Hp]; [by vm_compute|]); apply elem_of_list_singleton in Hp as ->;
      by vm_compute in Hl.
  - by vm_compute.
Qed.

(** Two updates with the same base can both succeed: when a table carries its
    location under both spellings, an Iceberg writer updates the first of them
    while the catalog compares with the other, so the location never moves and
    both commits are accepted. *)
Theorem C42_two_keys_refuted :
  exists s ns t x b n1 n2,
    reachable s /\ w_table (holds s) ns t = Some x /\ location x = Some b /\ n1 <> b /\ n2 <> b /\ n1 <> n2 /\
    let u n := AlterTable ns t (SetProperties (writer_update (tbl_properties x) b n)) in
    winners ns t b [u n1; u n2] (run s [u n1; u n2]).2 = 2.
Proof.
  pose (ps := [(str "metadata_location", str "m0"); (str "metadata-location", str "m0")]).
  exists (managed ps), db, (str "t"), (new_table (str "c") db (str "t") (plain Create ps)), (str "m0"), (str "m1"), (str "m2").
  split; [by eexists _, _, _, [CreateTable db (str "t") (plain Create ps)]|].
  repeat split; by vm_compute.
Qed.
Print Assumptions C42_two_keys_refuted.
