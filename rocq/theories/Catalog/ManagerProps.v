(** C39: temporary views change only on request.
    C56: a name means one object, whatever the session did before. *)
From Coq Require Import NArith ZifyN Ascii String Lia.
From stdpp Require Import prelude gmap list strings.
From Verif.Lib Require Import Text.
From Verif.Catalog Require Import MemoryModel MemorySpec MemoryProps QuoteModel ManagerModel ManagerSpec ManagerProofs.

(** A server with one session, its current catalog "c" and another one, "d". *)
Definition any (n : text) (p : option text) : bool := true.
Definition sub : list op :=
  [CreateDatabase (str "x", []) (mkCreateDb None None false []);
   CreateDatabase (str "x", [str "y"]) (mkCreateDb None None false [])].
Definition session0 : session :=
  mkSession {[ str "c" := sample_state; str "d" := (run (initial (str "d") db None) sub).1 ]}
    (str "c") db (str "global_temp", []) ∅.
Definition server0 : server := mkServer {[ 1%N := session0; 2%N := session0 ]} ∅.
Definition input : plan := mkPlan 7 [(str "a", Prim 1, true); (str "b", Prim 2, false)].
Definition temp (if_not_exists replace : bool) : create_temp :=
  mkCreateTemp input [Some (str "first"); None] if_not_exists replace None [] None.

(** ** C39 *)
(** Every request of every session changes the temporary view [n] of session
    [i] as [temp_change] says if it is about that view, and otherwise not at
    all. *)
Theorem C39_session matches sv j q i n :
  let sv' := (serve matches sv j q).1 in
  if about_temp i n j q
  then forall r, (serve matches sv j q).2 = Some r -> temp_change n q (temp_of sv i n) (temp_of sv' i n) r
  else temp_of sv' i n = temp_of sv i n.
Proof. exact (serve_temp matches sv j q i n). Qed.
Print Assumptions C39_session.

(** The same for the global temporary views, which all sessions share. *)
Theorem C39_global matches sv j q n ss r :
  sv_sessions sv !! j = Some ss -> (serve matches sv j q).2 = Some r ->
  if about_global (ss_global_database ss) n q
  then temp_change n q (sv_global sv !! n) (sv_global (serve matches sv j q).1 !! n) r
  else sv_global (serve matches sv j q).1 !! n = sv_global sv !! n.
Proof. exact (serve_global matches sv j q n ss r). Qed.
Print Assumptions C39_global.

(** So a lookup returns the last definition: the view is found as it was after
    the last request about it, whatever any session did since. *)
Theorem C39_last_definition matches sv h i n :
  is_Some (sv_sessions sv !! i) -> Forall (fun p => about_temp i n p.1 p.2 = false) h ->
  forall v, temp_of sv i n = Some v <->
    (serve matches (history matches sv h) i (Lookup [n])).2 = Some (MObject (OTemp n v)).
Proof.
  intros Hi Hf v. rewrite <- (history_temp matches h sv i n Hf).
  apply lookup_temp. by apply session_stays_history.
Qed.
Print Assumptions C39_last_definition.

(** Listings show each view once, under its name, if the pattern matches it. *)
Theorem C39_list matches sv i p :
  is_Some (sv_sessions sv !! i) ->
  exists os, (serve matches sv i (ListTemp false p)).2 = Some (MObjects os) /\
    NoDup os /\ forall o, o ∈ os <-> exists n v, o = OTemp n v /\ temp_of sv i n = Some v /\ matches n p = true.
Proof. exact (list_temp matches sv i p). Qed.
Print Assumptions C39_list.

Example C39_example :
  let sv1 := (serve any server0 1 (CreateTemp false (str "t") (temp false false))).1 in
  fitting (temp false false) /\
  (serve any server0 1 (CreateTemp false (str "t") (temp false false))).2 = Some MDone /\
  (exists v, (serve any sv1 1 (Lookup [str "t"])).2 = Some (MObject (OTemp (str "t") v)) /\ plan_id (tv_plan v) = 7%N) /\
  (exists x, (serve any sv1 2 (Lookup [str "t"])).2 = Some (MObject (OTable x))) /\
  (serve any sv1 1 (CreateTemp false (str "t") (temp false false))).2 = Some (MError (TempExists (str "t"))) /\
  (serve any (serve any sv1 1 (DropAnyView [str "t"] false)).1 1 (DropTemp false (str "t") false)).2 =
    Some (MError (TempNotFound (str "t"))) /\
  about_temp 1 (str "t") 2 (DropTemp false (str "t") false) = false /\
  about_global (str "global_temp", []) (str "g") (DropAnyView [str "global_temp"; str "g"] true) = true.
Proof.
  cbn zeta. split_and!; [by right|by vm_compute| | |by vm_compute|by vm_compute|by vm_compute|by vm_compute].
  - eexists. by vm_compute.
  - eexists. by vm_compute.
Qed.

(** ** C56 *)
(** What a query reads under a name: the session's temporary view, the global
    temporary view, the table, the view, in this order. *)
Theorem C56_meaning matches ss g parts o :
  (handle matches ss g (Lookup parts)).2 = MObject o <-> means ss g parts o.
Proof.
  cbn. rewrite <- get_object_means. destruct (get_object ss g parts); split; intros; by simplify_eq.
Qed.
Print Assumptions C56_meaning.

(** A name that starts with a catalog means the same whatever the session's
    current catalog and database and its temporary views are. *)
Theorem C56_full_names matches ss ss' g g' c parts :
  full_name ss c parts -> ss_catalogs ss' !! c = ss_catalogs ss !! c ->
  ¬ is_global_name ss parts -> ¬ is_global_name ss' parts ->
  (handle matches ss' g' (Lookup parts)).2 = (handle matches ss g (Lookup parts)).2.
Proof. intros. cbn. by rewrite (full_name_same ss ss' g g' c parts). Qed.
Print Assumptions C56_full_names.

(** A single name without a temporary view means the object of that name in
    the current catalog and database. *)
Theorem C56_current matches ss g t :
  is_Some (ss_catalogs ss !! ss_catalog ss) -> ss_temp ss !! t = None ->
  let full := ss_catalog ss :: (ss_database ss).1 :: (ss_database ss).2 ++ [t] in
  ¬ is_global_name ss full ->
  (handle matches ss g (Lookup [t])).2 = (handle matches ss g (Lookup full)).2.
Proof. intros H1 H2 full H3. cbn. by rewrite (current_same ss g t H1 H2 H3). Qed.
Print Assumptions C56_current.

(** USE makes a database of the current catalog the current database, if there
    is one of that name, and USE CATALOG a catalog the current one; they change
    nothing else, and fail without effect otherwise. *)
Theorem C56_use_database matches ss g h db cat :
  ss_catalogs ss !! ss_catalog ss = Some cat ->
  handle matches ss g (UseDatabase (h :: db)) =
  match w_db (holds cat) (h, db) with
  | Some _ => (mkSession (ss_catalogs ss) (ss_catalog ss) (h, db) (ss_global_database ss) (ss_temp ss), g, MDone)
  | None => (ss, g, MError (Provider (NoDatabase (h, db))))
  end.
Proof.
  intros Hc. cbn [handle to_namespace]. rewrite (use_database ss h db cat Hc).
  by destruct (w_db (holds cat) (h, db)).
Qed.
Print Assumptions C56_use_database.

Theorem C56_use_catalog matches ss g c :
  handle matches ss g (UseCatalog c) =
  match ss_catalogs ss !! c with
  | Some _ => (mkSession (ss_catalogs ss) c (ss_database ss) (ss_global_database ss) (ss_temp ss), g, MDone)
  | None => (ss, g, MError (NoCatalog c))
  end.
Proof.
  cbn [handle]. destruct (ss_catalogs ss !! c) eqn:E; [by rewrite bool_decide_true by eauto|].
  rewrite bool_decide_false; [done|]. by intros [].
Qed.
Print Assumptions C56_use_catalog.

(** So after USE a single name without a temporary view means what the longer
    name meant before. *)
Theorem C56_use_then_lookup matches ss g h db t :
  ss_temp ss !! t = None ->
  let full := ss_catalog ss :: h :: db ++ [t] in
  ¬ is_global_name ss full ->
  let '(ss', g', r) := handle matches ss g (UseDatabase (h :: db)) in
  r = MDone -> (handle matches ss' g' (Lookup [t])).2 = (handle matches ss g (Lookup full)).2.
Proof.
  intros Ht full Hg. destruct (ss_catalogs ss !! ss_catalog ss) as [cat|] eqn:Hc.
  - rewrite (C56_use_database matches ss g h db cat Hc). destruct (w_db (holds cat) (h, db)); [|done]. intros _.
    set (ss' := mkSession _ _ _ _ _).
    rewrite (C56_current matches ss' g t); [|cbn; by rewrite Hc|done|done].
    apply (C56_full_names matches ss ss' g g (ss_catalog ss)); [|done|done|done].
    split; [by rewrite Hc|]. by exists h, db, t.
  - cbn [handle to_namespace]. unfold ask. by rewrite Hc.
Qed.
Print Assumptions C56_use_then_lookup.

(** SHOW TABLES shows each table and view of the database, and each temporary
    view of the session, whose name matches the pattern, once; or it fails
    since there is no such database. *)
Theorem C56_show_tables matches ss g d p c cat ns :
  to_namespace d <> Some (ss_global_database ss) -> names_db ss d c ns -> ss_catalogs ss !! c = Some cat ->
  reachable cat ->
  match w_db (holds cat) ns with
  | None => (handle matches ss g (ShowTables d p)).2 = MError (Provider (NoDatabase ns))
  | Some _ => exists os, (handle matches ss g (ShowTables d p)).2 = MObjects os /\ shows os (shown matches ss cat ns p)
  end.
Proof.
  intros H1 H2 H3 H4. pose proof (show_tables_shown matches ss g d p c cat ns H1 H2 H3 H4) as H.
  cbn [handle snd]. destruct (w_db (holds cat) ns).
  - destruct H as (os & -> & H). by exists os.
  - by rewrite H.
Qed.
Print Assumptions C56_show_tables.

(** In the database of global temporary views it shows these. *)
Theorem C56_show_tables_global matches ss g d p :
  to_namespace d = Some (ss_global_database ss) ->
  exists os, (handle matches ss g (ShowTables d p)).2 = MObjects os /\
    shows os (fun o => exists n v, matches n p = true /\
      (o = OGlobal n v /\ g !! n = Some v \/ o = OTemp n v /\ ss_temp ss !! n = Some v)).
Proof.
  intros H. destruct (show_tables_global matches ss g d p H) as (os & Ho & Hs).
  exists os. cbn [handle snd]. by rewrite Ho.
Qed.
Print Assumptions C56_show_tables_global.

Example C56_show_tables_example :
  names_db session0 [] (str "c") db /\ names_db session0 [str "d"; str "x"] (str "d") (str "x", []) /\
  (exists os, (handle any session0 ∅ (ShowTables [] None)).2 = MObjects os /\ length os = 2) /\
  (handle any session0 ∅ (ShowTables [str "d"; str "x"] None)).2 = MObjects [] /\
  (handle any session0 ∅ (ShowTables [str "x"] None)).2 = MError (Provider (NoDatabase (str "x", []))) /\
  (handle any session0 ∅ (UseDatabase [str "db"; str "sub"])).2 = MDone.
Proof.
  split_and!; [by apply (names_db_current session0)| | |by vm_compute|by vm_compute|by vm_compute].
  - by apply names_db_catalog; eexists.
  - eexists. split; [by vm_compute|done].
Qed.

(** The current database need not be there, even if no database is ever
    dropped: USE CATALOG keeps the name of the current database, and the other
    catalog may not have it. *)
Theorem C56_use_catalog_refuted :
  exists ss g c cat other,
    ss_catalogs ss !! ss_catalog ss = Some cat /\ is_Some (w_db (holds cat) (ss_database ss)) /\
    ss_catalogs ss !! c = Some other /\
    let '(ss', g', r) := handle any ss g (UseCatalog c) in
    r = MDone /\ (handle any ss' g' (ShowTables [] None)).2 = MError (Provider (NoDatabase (ss_database ss'))).
Proof.
  exists (handle any session0 ∅ (UseDatabase [str "db"; str "sub"])).1.1, ∅, (str "d"). eexists _, _.
  split_and!; [by vm_compute|by eexists|by vm_compute|]. by vm_compute.
Qed.
Print Assumptions C56_use_catalog_refuted.

(** A table is found under the name it was created with. *)
Theorem C56_created_found matches ss g parts o x :
  ¬ is_temp_name ss parts -> ¬ is_global_name ss parts ->
  let '(ss', g', r) := handle matches ss g (OnObject parts (OpCreateTable o)) in
  r = MObject (OTable x) -> (handle matches ss' g' (Lookup parts)).2 = MObject (OTable x).
Proof.
  intros Ht Hg. cbn. pose proof (created_found ss g parts o x Ht Hg) as H.
  destruct (on_object ss parts (OpCreateTable o)) as [ss' r]. cbn in *. intros ->. by rewrite H.
Qed.
Print Assumptions C56_created_found.

(** No request changes what another session has, but for global temporary views. *)
Theorem C56_sessions_apart matches sv i j q :
  i <> j -> sv_sessions (serve matches sv j q).1 !! i = sv_sessions sv !! i.
Proof.
  intros Hij. unfold serve. destruct (sv_sessions sv !! j) as [ss|]; [|done].
  destruct (handle matches ss (sv_global sv) q) as [[ss' g'] r]. cbn. by rewrite lookup_insert_ne.
Qed.
Print Assumptions C56_sessions_apart.

Example C56_example :
  full_name session0 (str "c") [str "c"; str "db"; str "t"] /\
  ¬ is_global_name session0 [str "c"; str "db"; str "t"] /\
  (exists x, (handle any session0 ∅ (Lookup [str "c"; str "db"; str "t"])).2 = MObject (OTable x)) /\
  (exists x, (handle any session0 ∅ (OnObject [str "d"; str "x"; str "y"; str "u"] (OpCreateTable (plain Create [])))).2
     = MObject (OTable x)) /\
  (handle any session0 ∅ (UseDatabase [str "nowhere"])).2 = MError (Provider (NoDatabase (str "nowhere", []))).
Proof.
  split_and!.
  - split; [by eexists|]. by eexists _, [], _.
  - intros [n H]. by vm_compute in H.
  - eexists. by vm_compute.
  - eexists. by vm_compute.
  - by vm_compute.
Qed.

(** SHOW DATABASES IN a database named with its catalog looks for a database of
    that long name in the current catalog instead: the database is there and
    has a database in it, and nothing is listed. *)
Theorem C56_show_databases_refuted :
  exists ss g c d child cat x y,
    ss_catalogs ss !! c = Some cat /\
    (handle any ss g (InDatabase [c; d] OpGetDatabase)).2 = MDatabase x /\
    (handle any ss g (InDatabase [c; d; child] OpGetDatabase)).2 = MDatabase y /\
    (handle any ss g (ShowDatabases [c; d] None)).2 = MDatabases [].
Proof.
  exists session0, ∅, (str "d"), (str "x"), (str "y"). eexists _, _, _.
  split; [by vm_compute|]. split_and!; by vm_compute.
Qed.
Print Assumptions C56_show_databases_refuted.

(** ALTER TABLE under a name that means a temporary view is accepted, leaves
    what the name means alone, and changes the table behind it. *)
Theorem C56_alter_refuted :
  exists ss g n v a ss' x x',
    means ss g [n] (OTemp n v) /\
    handle any ss g (AlterTableCommand [n] false a) = (ss', g, MDone) /\
    means ss' g [n] (OTemp n v) /\
    (handle any ss g (OnObject [n] OpGetTable)).2 = MObject (OTable x) /\
    (handle any ss' g (OnObject [n] OpGetTable)).2 = MObject (OTable x') /\
    tbl_properties x <> tbl_properties x'.
Proof.
  set (ss := (handle any session0 ∅ (CreateTemp false (str "t") (temp false false))).1.1).
  set (a := SetProperties [(str "p", str "2")]).
  exists ss, ∅, (str "t"). eexists _, a, (handle any ss ∅ (AlterTableCommand [str "t"] false a)).1.1, _, _.
  split_and!.
  - apply means_temp; [done|]. by vm_compute.
  - by vm_compute.
  - apply means_temp; [done|]. by vm_compute.
  - by vm_compute.
  - by vm_compute.
  - by vm_compute.
Qed.
Print Assumptions C56_alter_refuted.

(** CREATE TABLE IF NOT EXISTS succeeds without there being a table, if a
    temporary view has the name; once that is dropped, nothing is found. *)
Theorem C56_create_if_not_exists_refuted :
  exists ss g n o ss1 ss2,
    handle any ss g (CreateTableCommand [n] o) = (ss1, g, MDone) /\
    handle any ss1 g (DropTemp false n false) = (ss2, g, MDone) /\
    (handle any ss2 g (Lookup [n])).2 = MError TableOrViewNotFound.
Proof.
  set (ss := (handle any session0 ∅ (CreateTemp false (str "u") (temp false false))).1.1).
  exists ss, ∅, (str "u"), (plain CreateIfNotExists []), ss, (handle any ss ∅ (DropTemp false (str "u") false)).1.1.
  split; [by vm_compute|].
  split; [reflexivity|].
  by vm_compute.
Qed.
Print Assumptions C56_create_if_not_exists_refuted.
