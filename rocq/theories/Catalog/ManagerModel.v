(** Sessions naming catalog objects: temporary views, global temporary views,
    the current catalog and database, and how multi-part names are resolved.
    Source: crates/sail-catalog/src/temp_view.rs,
    crates/sail-catalog/src/manager/{mod,catalog,database,table,view}.rs and the
    create and alter commands of crates/sail-catalog/src/command.rs.

    Every catalog of a session is an in-memory one (MemoryModel.v), which is
    what [create_catalog_manager] (crates/sail-session/src/catalog.rs:25-50)
    makes for each session; caching and remote catalogs are not part of this
    model.  [matches name pattern] stands for [match_pattern] (utils.rs:47-49,
    regular expressions).  The storage side of the create and alter commands
    (lakehouse metadata) is left out. *)
From Coq Require Import NArith ZifyN Ascii String Lia.
From stdpp Require Import prelude gmap list strings.
From Verif.Lib Require Import Text.
From Verif.Catalog Require Import MemoryModel QuoteModel.

(** A logical plan: what it is and the fields it produces. *)
Record plan := mkPlan { plan_id : N; plan_fields : list (text * dtype * bool) }.
(** temp_view.rs:16-23 [TemporaryView]. *)
Record tview := mkTview {
  tv_plan : plan; tv_columns : list column; tv_comment : option text;
  tv_properties : list (text * text); tv_source : option N }.
(** options.rs [CreateTemporaryViewOptions]; a column is its comment. *)
Record create_temp := mkCreateTemp {
  tc_input : plan; tc_columns : list (option text); tc_if_not_exists : bool; tc_replace : bool;
  tc_comment : option text; tc_properties : list (text * text); tc_source : option N }.

Inductive merror :=
| TempExists (n : text) | TempNotFound (n : text) | TempColumns
| NoCatalog (n : text) | EmptyReference | TableOrViewNotFound | ExistsAlready
| Provider (e : error).
(** CatalogError::NotFound, whatever is not found. *)
Definition not_found (e : merror) : bool :=
  match e with
  | TempNotFound _ | NoCatalog _ | TableOrViewNotFound => true
  | Provider (NoDatabase _ | NoTable _ | NoView _ | NoProperty _ _) => true
  | _ => false
  end.

(** temp_view.rs:110-134: the columns of a temporary view. *)
Definition temp_columns (o : create_temp) : option (list column) :=
  let fields := plan_fields (tc_input o) in
  let comments := match tc_columns o with [] => Some (map (fun _ => None) fields)
                  | cs => if decide (length fields = length cs) then Some cs else None end in
  (fun cs => map (fun p => mkColumn p.1.1.1 p.1.1.2 p.1.2 p.2 None None None false false false) (zip fields cs))
  <$> comments.
(** temp_view.rs:83-152 [create_view]. *)
Definition temp_create (vs : gmap text tview) (n : text) (o : create_temp) : gmap text tview * option merror :=
  if bool_decide (is_Some (vs !! n)) && tc_if_not_exists o then (vs, None)
  else if bool_decide (is_Some (vs !! n)) && negb (tc_replace o) then (vs, Some (TempExists n))
  else
    match temp_columns o with
    | None => (vs, Some TempColumns)
    | Some cs => (<[n := mkTview (tc_input o) cs (tc_comment o) (tc_properties o) (tc_source o)]> vs, None)
    end.
(** temp_view.rs:154-164 [drop_view]. *)
Definition temp_drop (vs : gmap text tview) (n : text) (if_exists : bool) : gmap text tview * option merror :=
  if negb (bool_decide (is_Some (vs !! n))) && negb if_exists then (vs, Some (TempNotFound n))
  else (delete n vs, None).
(** temp_view.rs:174-187 [list_views]. *)
Definition temp_list (matches : text -> option text -> bool) (vs : gmap text tview) (pattern : option text) :
  list (text * tview) :=
  List.filter (fun p => matches p.1 pattern) (map_to_list vs).

(** manager/mod.rs:21-33 [CatalogManager], [CatalogManagerState]. *)
Record session := mkSession {
  ss_catalogs : gmap text catalog; ss_catalog : text; ss_database : namespace;
  ss_global_database : namespace; ss_temp : gmap text tview }.
(** All sessions of a server, and the global temporary views they share
    (temp_view.rs:12-15 [GLOBAL_TEMPORARY_VIEW_MANAGER]). *)
Record server := mkServer { sv_sessions : gmap N session; sv_global : gmap text tview }.

(** namespace.rs:41-54: a namespace from its parts. *)
Definition to_namespace (parts : list text) : option namespace :=
  match parts with [] => None | h :: t => Some (h, t) end.

(** manager/mod.rs:148-168 [resolve_database_reference]. *)
Definition resolve_database (ss : session) (parts : list text) : option (text * namespace) :=
  match parts with
  | [] => None
  | h :: t =>
      if bool_decide (is_Some (ss_catalogs ss !! h)) then pair h <$> to_namespace t
      else pair (ss_catalog ss) <$> to_namespace parts
  end.
(** manager/mod.rs:170-190 [resolve_optional_database_reference]. *)
Definition resolve_optional_database (ss : session) (parts : list text) : option (text * option namespace) :=
  match parts with
  | [] => Some (ss_catalog ss, None)
  | [h] =>
      if bool_decide (is_Some (ss_catalogs ss !! h)) then Some (h, None)
      else Some (ss_catalog ss, Some (h, []))
  | _ => (fun ns => (ss_catalog ss, Some ns)) <$> to_namespace parts
  end.
(** manager/mod.rs:192-213 [resolve_object_reference]; [rev] to split off the
    last part. *)
Definition resolve_object (ss : session) (parts : list text) : option (text * namespace * text) :=
  match rev parts with
  | [] => None
  | [n] => Some (ss_catalog ss, ss_database ss, n)
  | last :: front => (fun p => (p, last)) <$> resolve_database ss (rev front)
  end.
(** manager/mod.rs:215-220 [is_global_temporary_view_database]. *)
Definition is_global_database (ss : session) (parts : list text) : bool :=
  bool_decide (to_namespace parts = Some (ss_global_database ss)).

(** An object as [get_table_or_view] returns it. *)
Inductive object := OTemp (n : text) (v : tview) | OGlobal (n : text) (v : tview) | OTable (t : table) | OView (v : view).
Inductive mout :=
| MDone | MObject (o : object) | MObjects (os : list object) | MDatabase (d : dbstatus)
| MDatabases (ds : list dbstatus) | MError (e : merror).

(** Ask one of the session's catalogs. *)
Definition ask (ss : session) (c : text) (o : op) : session * (out + merror) :=
  match ss_catalogs ss !! c with
  | None => (ss, inr (NoCatalog c))
  | Some cat =>
      let '(cat', r) := step cat o in
      (mkSession (<[c := cat']> (ss_catalogs ss)) (ss_catalog ss) (ss_database ss) (ss_global_database ss) (ss_temp ss),
       match r with Error e => inr (Provider e) | _ => inl r end)
  end.
Definition with_temp (ss : session) (vs : gmap text tview) : session :=
  mkSession (ss_catalogs ss) (ss_catalog ss) (ss_database ss) (ss_global_database ss) vs.

(** Operations on a database and on a table or view that is named in full. *)
Inductive db_op := OpCreateDatabase (o : create_db) | OpGetDatabase | OpDropDatabase (if_exists cascade : bool).
Inductive obj_op :=
| OpCreateTable (o : create_table) | OpGetTable | OpDropTable (if_exists : bool) | OpAlterTable (a : alter)
| OpCreateView (o : create_view) | OpGetView | OpDropView (if_exists : bool).
Definition db_request (o : db_op) (ns : namespace) : op :=
  match o with
  | OpCreateDatabase c => CreateDatabase ns c
  | OpGetDatabase => GetDatabase ns
  | OpDropDatabase b c => DropDatabase ns b c
  end.
Definition obj_request (o : obj_op) (ns : namespace) (t : text) : op :=
  match o with
  | OpCreateTable c => CreateTable ns t c
  | OpGetTable => GetTable ns t
  | OpDropTable b => DropTable ns t b
  | OpAlterTable a => AlterTable ns t a
  | OpCreateView c => CreateView ns t c
  | OpGetView => GetView ns t
  | OpDropView b => DropView ns t b
  end.

(** What a session asks for. *)
Inductive request :=
| CreateTemp (global : bool) (n : text) (o : create_temp)
| DropTemp (global : bool) (n : text) (if_exists : bool)
| ListTemp (global : bool) (pattern : option text)
| UseCatalog (c : text)
| UseDatabase (parts : list text)
| Lookup (parts : list text)
| DropAnyView (parts : list text) (if_exists : bool)
| ShowTables (database : list text) (pattern : option text)
| ShowDatabases (qualifier : list text) (pattern : option text)
| InDatabase (parts : list text) (o : db_op)
| OnObject (parts : list text) (o : obj_op)
| CreateTableCommand (parts : list text) (o : create_table)
| AlterTableCommand (parts : list text) (if_exists : bool) (a : alter).

(** manager/table.rs:187-229 [get_table_or_view]. *)
Definition get_object (ss : session) (g : gmap text tview) (parts : list text) : object + merror :=
  match (match parts with [n] => ss_temp ss !! n | _ => None end) with
  | Some v => inl (OTemp (default [] (last parts)) v)
  | None =>
      let front := removelast parts in
      if is_global_database ss front then
        let n := default [] (last parts) in
        match g !! n with Some v => inl (OGlobal n v) | None => inr (TempNotFound n) end
      else
        match resolve_object ss parts with
        | None => inr EmptyReference
        | Some (c, ns, t) =>
            match (ask ss c (GetTable ns t)).2 with
            | inl (Table x) => inl (OTable x)
            | inl _ => inr EmptyReference
            | inr e =>
                if not_found e then
                  match (ask ss c (GetView ns t)).2 with
                  | inl (View x) => inl (OView x)
                  | inl _ => inr EmptyReference
                  | inr e => inr (if not_found e then TableOrViewNotFound else e)
                  end
                else inr e
            end
        end
  end.

Definition answer (r : out + merror) : mout :=
  match r with
  | inl (Database d) => MDatabase d
  | inl (Databases ds) => MDatabases ds
  | inl (Table t) => MObject (OTable t)
  | inl (Tables ts) => MObjects (map OTable ts)
  | inl (View v) => MObject (OView v)
  | inl (Views vs) => MObjects (map OView vs)
  | inl (Done | Error _) => MDone
  | inr e => MError e
  end.
Definition temp_answer (e : option merror) : mout := match e with None => MDone | Some e => MError e end.

(** Create, drop, alter, get: resolve the name and hand it to the catalog
    (manager/table.rs:18-35,158-176, manager/view.rs:138-146,196-211). *)
Definition on_object (ss : session) (parts : list text) (o : obj_op) : session * mout :=
  match resolve_object ss parts with
  | None => (ss, MError EmptyReference)
  | Some (c, ns, t) => let '(ss', r) := ask ss c (obj_request o ns t) in (ss', answer r)
  end.

(** spec/plan.rs [CreateTableMode]: ignore_if_exists, is_replace, replace_requires_existing. *)
Definition ignores_existing (m : mode) : bool := match m with CreateIfNotExists => true | _ => false end.
Definition replaces (m : mode) : bool := match m with CreateOrReplace | Replace => true | _ => false end.
Definition replaces_existing_only (m : mode) : bool := match m with Replace => true | _ => false end.

Section manager.
  Context (matches : text -> option text -> bool).

  (** manager/table.rs:117-156 [list_tables_and_views]; names only matter for
      the pattern, and listings have no order. *)
  Definition show_tables (ss : session) (g : gmap text tview) (database : list text) (pattern : option text) :
    list object + merror :=
    let temp := map (fun p => OTemp p.1 p.2) (temp_list matches (ss_temp ss) pattern) in
    if is_global_database ss database then
      inl (map (fun p => OGlobal p.1 p.2) (temp_list matches g pattern) ++ temp)
    else
      match (match database with [] => Some (ss_catalog ss, ss_database ss) | _ => resolve_database ss database end) with
      | None => inr EmptyReference
      | Some (c, ns) =>
          match (ask ss c (ListTables ns)).2 with
          | inl (Tables ts) =>
              let tables := map OTable (List.filter (fun t => matches (tbl_name t) pattern) ts) in
              match (ask ss c (ListViews ns)).2 with
              | inl (Views vs) =>
                  inl (tables ++ map OView (List.filter (fun v => matches (vw_name v) pattern) vs) ++ temp)
              | inl _ => inr EmptyReference
              | inr e => if not_found e then inl (tables ++ temp) else inr e
              end
          | inl _ => inr EmptyReference
          | inr e => inr e
          end
      end.

  (** One request of one session; the shared global temporary views go in and out. *)
  Definition handle (ss : session) (g : gmap text tview) (q : request) : session * gmap text tview * mout :=
    match q with
    | CreateTemp false n o =>   (* manager/view.rs:162-168 *)
        let '(vs, e) := temp_create (ss_temp ss) n o in (with_temp ss vs, g, temp_answer e)
    | CreateTemp true n o =>    (* manager/view.rs:154-160 *)
        let '(vs, e) := temp_create g n o in (ss, vs, temp_answer e)
    | DropTemp false n b =>     (* manager/view.rs:106-113 *)
        let '(vs, e) := temp_drop (ss_temp ss) n b in (with_temp ss vs, g, temp_answer e)
    | DropTemp true n b =>      (* manager/view.rs:97-104 *)
        let '(vs, e) := temp_drop g n b in (ss, vs, temp_answer e)
    | ListTemp global p =>      (* manager/view.rs:12-57 *)
        (ss, g, MObjects (if global then map (fun p => OGlobal p.1 p.2) (temp_list matches g p)
                          else map (fun p => OTemp p.1 p.2) (temp_list matches (ss_temp ss) p)))
    | UseCatalog c =>           (* manager/catalog.rs:14-25 *)
        if bool_decide (is_Some (ss_catalogs ss !! c))
        then (mkSession (ss_catalogs ss) c (ss_database ss) (ss_global_database ss) (ss_temp ss), g, MDone)
        else (ss, g, MError (NoCatalog c))
    | UseDatabase parts =>      (* manager/database.rs:20-45 *)
        match to_namespace parts with
        | None => (ss, g, MError EmptyReference)
        | Some ns =>
            match (ask ss (ss_catalog ss) (GetDatabase ns)).2 with
            | inl _ => (mkSession (ss_catalogs ss) (ss_catalog ss) ns (ss_global_database ss) (ss_temp ss), g, MDone)
            | inr e => (ss, g, MError e)
            end
        end
    | Lookup parts =>
        (ss, g, match get_object ss g parts with inl o => MObject o | inr e => MError e end)
    | DropAnyView parts if_exists =>   (* manager/view.rs:115-146 [drop_maybe_temporary_view] *)
        match (match parts with [n] => ss_temp ss !! n | _ => None end) with
        | Some _ => (with_temp ss (delete (default [] (last parts)) (ss_temp ss)), g, MDone)
        | None =>
            let n := default [] (last parts) in
            if is_global_database ss (removelast parts) && bool_decide (is_Some (g !! n))
            then (ss, delete n g, MDone)
            else let '(ss', r) := on_object ss parts (OpDropView if_exists) in (ss', g, r)
        end
    | ShowTables d p =>
        (ss, g, match show_tables ss g d p with inl os => MObjects os | inr e => MError e end)
    | ShowDatabases parts p =>  (* manager/database.rs:66-78 *)
        match resolve_optional_database ss parts with
        | None => (ss, g, MError EmptyReference)
        | Some (c, ns) =>
            match (ask ss c (ListDatabases ns)).2 with
            | inl (Databases ds) =>
                (ss, g, MDatabases (List.filter (fun d => matches (quote_names ((db_name d).1 :: (db_name d).2)) p) ds))
            | r => (ss, g, answer r)
            end
        end
    | InDatabase parts o =>     (* manager/database.rs:47-53,80-99 *)
        match resolve_database ss parts with
        | None => (ss, g, MError EmptyReference)
        | Some (c, ns) => let '(ss', r) := ask ss c (db_request o ns) in (ss', g, answer r)
        end
    | OnObject parts o => let '(ss', r) := on_object ss parts o in (ss', g, r)
    | CreateTableCommand parts o =>   (* command.rs:329-356,734-757 *)
        match get_object ss g parts with
        | inl _ =>
            if ignores_existing (ct_mode o) then (ss, g, MDone)
            else if replaces (ct_mode o) then
              let '(ss', r) := on_object ss parts (OpCreateTable o) in (ss', g, r)
            else (ss, g, MError ExistsAlready)
        | inr e =>
            if not_found e then
              if replaces_existing_only (ct_mode o) then (ss, g, MError TableOrViewNotFound)
              else let '(ss', r) := on_object ss parts (OpCreateTable o) in (ss', g, r)
            else (ss, g, MError e)
        end
    | AlterTableCommand parts if_exists a =>   (* command.rs:441-518 *)
        match get_object ss g parts with
        | inr e => if not_found e && if_exists then (ss, g, MDone) else (ss, g, MError e)
        | inl _ => let '(ss', r) := on_object ss parts (OpAlterTable a) in (ss', g, r)
        end
    end.

  (** Requests of any session; a request of a session that is not there is
      ignored. *)
  Definition serve (sv : server) (i : N) (q : request) : server * option mout :=
    match sv_sessions sv !! i with
    | None => (sv, None)
    | Some ss =>
        let '(ss', g, r) := handle ss (sv_global sv) q in
        (mkServer (<[i := ss']> (sv_sessions sv)) g, Some r)
    end.
  Definition history (sv : server) (h : list (N * request)) : server :=
    fold_left (fun sv p => (serve sv p.1 p.2).1) h sv.
End manager.
