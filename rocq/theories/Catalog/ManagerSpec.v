(** What names of tables and views mean in a session, and how temporary views
    change. *)
From Coq Require Import NArith ZifyN Ascii String Lia.
From stdpp Require Import prelude gmap list strings.
From Verif.Lib Require Import Text.
From Verif.Catalog Require Import MemoryModel MemorySpec ManagerModel.

(** ** Temporary views *)
(** The view [v] is what the request [o] describes: one column for each field
    of its query, with the comments given for them, if any are. *)
Definition describes (o : create_temp) (v : tview) : Prop :=
  tv_plan v = tc_input o /\ tv_comment v = tc_comment o /\ tv_properties v = tc_properties o /\
  tv_source v = tc_source o /\
  map (fun c => (col_name c, col_type c, col_nullable c)) (tv_columns v) = plan_fields (tc_input o) /\
  map col_comment (tv_columns v) =
    (if bool_decide (tc_columns o = []) then map (fun _ => None) (plan_fields (tc_input o)) else tc_columns o) /\
  Forall (fun c => col_default c = None /\ col_generated c = None /\ col_identity c = None /\
                   col_partition c = false /\ col_bucket c = false /\ col_cluster c = false) (tv_columns v).
(** Comments are given for no column or for each. *)
Definition fitting (o : create_temp) : Prop :=
  tc_columns o = [] \/ length (tc_columns o) = length (plan_fields (tc_input o)).

(** What becomes of the view called [n] when it is to be created, and the answer. *)
Definition created (n : text) (o : create_temp) (v v' : option tview) (r : mout) : Prop :=
  match v with
  | Some _ =>
      (tc_if_not_exists o = true -> v' = v /\ r = MDone) /\
      (tc_if_not_exists o = false -> tc_replace o = false -> v' = v /\ r = MError (TempExists n)) /\
      (tc_if_not_exists o = false -> tc_replace o = true -> fitting o ->
         r = MDone /\ exists x, v' = Some x /\ describes o x) /\
      (tc_if_not_exists o = false -> tc_replace o = true -> ¬ fitting o -> v' = v /\ r = MError TempColumns)
  | None =>
      (fitting o -> r = MDone /\ exists x, v' = Some x /\ describes o x) /\
      (¬ fitting o -> v' = v /\ r = MError TempColumns)
  end.
Definition dropped (n : text) (if_exists : bool) (v v' : option tview) (r : mout) : Prop :=
  v' = None /\
  match v with
  | Some _ => r = MDone
  | None => r = if if_exists then MDone else MError (TempNotFound n)
  end.

(** The view of session [i] called [n]. *)
Definition temp_of (sv : server) (i : N) (n : text) : option tview :=
  match sv_sessions sv !! i with Some ss => ss_temp ss !! n | None => None end.
(** [q], asked by session [j], is about session [i]'s temporary view [n]. *)
Definition about_temp (i : N) (n : text) (j : N) (q : request) : bool :=
  bool_decide (i = j) &&
  match q with
  | CreateTemp false n' _ | DropTemp false n' _ => bool_decide (n' = n)
  | DropAnyView parts _ => bool_decide (parts = [n])
  | _ => false
  end.
(** ... about the global temporary view [n]; [g] is the name the session's
    configuration gives to the database of global temporary views. *)
Definition about_global (g : namespace) (n : text) (q : request) : bool :=
  match q with
  | CreateTemp true n' _ | DropTemp true n' _ => bool_decide (n' = n)
  | DropAnyView parts _ => bool_decide (parts = g.1 :: g.2 ++ [n])
  | _ => false
  end.

(** How a request changes the temporary view it is about. *)
Definition temp_change (n : text) (q : request) (v v' : option tview) (r : mout) : Prop :=
  match q with
  | CreateTemp _ _ o => created n o v v' r
  | DropTemp _ _ if_exists => dropped n if_exists v v' r
  | DropAnyView _ _ => v' = None /\ (is_Some v -> r = MDone)
  | _ => False
  end.

(** ** Names *)
(** The catalog, database and object that [parts] name, apart from temporary views. *)
Inductive names (ss : session) : list text -> text -> namespace -> text -> Prop :=
| names_current t : names ss [t] (ss_catalog ss) (ss_database ss) t
| names_database h db t :
    ss_catalogs ss !! h = None -> names ss (h :: db ++ [t]) (ss_catalog ss) (h, db) t
| names_catalog c h db t :
    is_Some (ss_catalogs ss !! c) -> names ss (c :: h :: db ++ [t]) c (h, db) t.

(** The catalog and database that [parts] name. *)
Inductive names_db (ss : session) : list text -> text -> namespace -> Prop :=
| names_db_current : names_db ss [] (ss_catalog ss) (ss_database ss)
| names_db_database h db : ss_catalogs ss !! h = None -> names_db ss (h :: db) (ss_catalog ss) (h, db)
| names_db_catalog c h db : is_Some (ss_catalogs ss !! c) -> names_db ss (c :: h :: db) c (h, db).
(** What SHOW TABLES shows of a database of the catalog [cat]: its tables and
    views, and the temporary views of the session. *)
Definition shown (matches : text -> option text -> bool) (ss : session) (cat : catalog) (ns : namespace)
    (pattern : option text) (o : object) : Prop :=
  exists n, matches n pattern = true /\
    ((exists x, o = OTable x /\ w_table (holds cat) ns n = Some x) \/
     (exists x, o = OView x /\ w_view (holds cat) ns n = Some x) \/
     (exists v, o = OTemp n v /\ ss_temp ss !! n = Some v)).

(** [parts] refer to the temporary or global temporary views. *)
Definition is_temp_name (ss : session) (parts : list text) : Prop :=
  exists n, parts = [n] /\ is_Some (ss_temp ss !! n).
Definition is_global_name (ss : session) (parts : list text) : Prop :=
  exists n, parts = (ss_global_database ss).1 :: (ss_global_database ss).2 ++ [n].

(** The object a query reads under a name. *)
Inductive means (ss : session) (g : gmap text tview) (parts : list text) : object -> Prop :=
| means_temp n v : parts = [n] -> ss_temp ss !! n = Some v -> means ss g parts (OTemp n v)
| means_global n v :
    parts = (ss_global_database ss).1 :: (ss_global_database ss).2 ++ [n] -> g !! n = Some v ->
    means ss g parts (OGlobal n v)
| means_table c cat ns t x :
    ¬ is_temp_name ss parts -> ¬ is_global_name ss parts -> names ss parts c ns t ->
    ss_catalogs ss !! c = Some cat -> w_table (holds cat) ns t = Some x -> means ss g parts (OTable x)
| means_view c cat ns t x :
    ¬ is_temp_name ss parts -> ¬ is_global_name ss parts -> names ss parts c ns t ->
    ss_catalogs ss !! c = Some cat -> w_table (holds cat) ns t = None -> w_view (holds cat) ns t = Some x ->
    means ss g parts (OView x).

(** What does not depend on the session: a name that starts with a catalog. *)
Definition full_name (ss : session) (c : text) (parts : list text) : Prop :=
  is_Some (ss_catalogs ss !! c) /\ exists h db t, parts = c :: h :: db ++ [t].

(** Two sessions agree on everything but the catalog [c]'s neighbours. *)
Definition lookup_of (matches : text -> option text -> bool) (ss : session) (g : gmap text tview) (parts : list text) : mout :=
  (handle matches ss g (Lookup parts)).2.
