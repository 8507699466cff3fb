(** The in-memory catalog: databases holding tables and views, and the
    operations on them.
    Source: crates/sail-catalog-memory/src/provider.rs,
    crates/sail-catalog-memory/src/managed_table.rs,
    crates/sail-common-datafusion/src/catalog/managed.rs,
    crates/sail-common-datafusion/src/catalog/status.rs.

    Names and values are character sequences.  Column identities, constraints,
    sort orders and partition transforms are opaque numbers.  Every operation
    locks the entry of its database for its whole duration and awaits nothing,
    so concurrent callers are some sequence of these operations. *)
From Coq Require Import NArith ZifyN Ascii String Lia.
From stdpp Require Import prelude gmap list strings.
From Verif.Lib Require Import Text.
Local Open Scope N_scope.

(** crates/sail-catalog/src/provider/namespace.rs:7-11 [Namespace] (head, tail). *)
Notation namespace := (text * list text)%type.

(** Arrow data types, as far as column paths look into them. *)
Inductive dtype :=
| Prim (id : N)
| Struct (fields : list (text * dtype * bool * N))   (* name, type, nullable, metadata *)
| DList (large : bool) (element : text * dtype * bool * N)
| DMap (entries : text * dtype * bool * N) (sorted : bool).
Notation field := (text * dtype * bool * N)%type.
Definition fname (f : field) : text := f.1.1.1.
Definition ftype (f : field) : dtype := f.1.1.2.
Definition fnullable (f : field) : bool := f.1.2.
Definition fmeta (f : field) : N := f.2.
(** Field::new(..).with_metadata(..) keeping name, nullability and metadata. *)
Definition retype (f : field) (t : dtype) : field := (fname f, t, fnullable f, fmeta f).

(** sail-common-datafusion/src/catalog/status.rs [TableColumnStatus]. *)
Record column := mkColumn {
  col_name : text; col_type : dtype; col_nullable : bool; col_comment : option text;
  col_default : option text; col_generated : option text; col_identity : option N;
  col_partition : bool; col_bucket : bool; col_cluster : bool }.

(** status.rs [TableStatus] with [TableKind::Table]. *)
Record table := mkTable {
  tbl_catalog : text; tbl_database : namespace; tbl_name : text;
  tbl_columns : list column; tbl_comment : option text; tbl_constraints : list N;
  tbl_location : option text; tbl_format : text;
  tbl_partition_by : list (text * option N); tbl_sort_by : list N;
  tbl_bucket_by : option (list text * N);
  tbl_properties : list (text * text); tbl_external : bool }.

(** status.rs [TableStatus] with [TableKind::View]. *)
Record view := mkView {
  vw_catalog : text; vw_database : namespace; vw_name : text;
  vw_columns : list column; vw_definition : text; vw_comment : option text;
  vw_properties : list (text * text) }.

(** status.rs [DatabaseStatus]. *)
Record dbstatus := mkDbStatus {
  db_catalog : text; db_name : namespace; db_comment : option text;
  db_location : option text; db_properties : list (text * text) }.

(** provider.rs:19-23 [MemoryDatabase]. *)
Record database := mkDatabase {
  db_status : dbstatus; db_tables : gmap text table; db_views : gmap text view }.

(** provider.rs:26-29 [MemoryCatalogProvider]: its name and its databases. *)
Record catalog := mkCatalog { cat_name : text; cat_dbs : gmap namespace database }.

(** crates/sail-catalog/src/provider/options.rs. *)
Record create_db := mkCreateDb {
  cd_comment : option text; cd_location : option text; cd_if_not_exists : bool;
  cd_properties : list (text * text) }.
Record new_column := mkNewColumn {
  nc_name : text; nc_type : dtype; nc_nullable : bool; nc_comment : option text;
  nc_default : option text; nc_generated : option text; nc_identity : option N }.
(** sail-common/src/spec/plan.rs [CreateTableMode]. *)
Inductive mode := Create | CreateIfNotExists | CreateOrReplace | Replace.
Record create_table := mkCreateTable {
  ct_columns : list new_column; ct_comment : option text; ct_constraints : list N;
  ct_location : option text; ct_format : text; ct_partition_by : list (text * option N);
  ct_sort_by : list N; ct_bucket_by : option (list text * N); ct_mode : mode;
  ct_properties : list (text * text); ct_external : bool }.
Record create_view := mkCreateView {
  cv_columns : list new_column; cv_definition : text; cv_if_not_exists : bool;
  cv_replace : bool; cv_comment : option text; cv_properties : list (text * text) }.
Inductive alter :=
| SetProperties (properties : list (text * text))
| UnsetProperties (keys : list text) (if_exists : bool)
| AlterColumnType (path : list text) (t : dtype)
| AlterColumnDefault (path : list text) (default : option text)
| AddCheckConstraint (name expression : text).

(** crates/sail-catalog/src/error.rs [CatalogError], as far as used here. *)
Inductive error :=
| NoDatabase (ns : namespace) | NoTable (t : text) | NoView (v : text)
| NoProperty (key : text) (t : text)
| DatabaseExists (ns : namespace) | TableExists (t : text) | ViewExists (v : text)
| DatabaseNotEmpty (ns : namespace)
| NotSupported | InvalidColumn | Conflict.

(** str::eq_ignore_ascii_case. *)
Definition lower (c : N) : N := if (65 <=? c) && (c <=? 90) then c + 32 else c.
Definition eq_ci (a b : text) : bool := bool_decide (map lower a = map lower b).

(** str::trim: the characters with the White_Space property. *)
Definition is_space (c : N) : bool :=
  ((9 <=? c) && (c <=? 13)) || (c =? 32) || (c =? 133) || (c =? 160) || (c =? 5760)
  || ((8192 <=? c) && (c <=? 8202)) || (c =? 8232) || (c =? 8233) || (c =? 8239)
  || (c =? 8287) || (c =? 12288).
Fixpoint trim_start (s : text) : text :=
  match s with
  | c :: s' => if is_space c then trim_start s' else s
  | [] => []
  end.
Definition trim (s : text) : text := rev (trim_start (rev (trim_start s))).

(** managed.rs:3-7. *)
Definition METADATA_LOCATION : text := str "metadata-location".
Definition METADATA_LOCATION_UNDERSCORE : text := str "metadata_location".
Definition METADATA_LOCATION_KEYS : list text := [METADATA_LOCATION; METADATA_LOCATION_UNDERSCORE].
Definition PREVIOUS_METADATA_LOCATION : text := str "previous_metadata_location".
(** managed.rs:14-18 [is_metadata_location_key]. *)
Definition is_metadata_location_key (k : text) : bool := existsb (eq_ci k) METADATA_LOCATION_KEYS.
(** managed.rs:29-37 [property_value]: the first property whose trimmed key matches. *)
Definition property_value (ps : list (text * text)) (k : text) : option text :=
  snd <$> find (fun p => eq_ci (trim p.1) k) ps.
(** managed.rs:39-48 [metadata_location_value]: the keys are tried in order. *)
Definition metadata_location_value (ps : list (text * text)) : option text :=
  match property_value ps METADATA_LOCATION with
  | Some v => Some v
  | None => property_value ps METADATA_LOCATION_UNDERSCORE
  end.
(** managed.rs:50-55 [metadata_location_update]. *)
Definition metadata_location_update (ps : list (text * text)) : option text :=
  snd <$> find (fun p => is_metadata_location_key p.1) ps.
(** managed.rs:57-62 [previous_metadata_location_update]. *)
Definition previous_metadata_location_update (ps : list (text * text)) : option text :=
  snd <$> find (fun p => eq_ci p.1 PREVIOUS_METADATA_LOCATION) ps.
(** managed.rs:64-69 [existing_metadata_location_key]. *)
Definition existing_metadata_location_key (ps : list (text * text)) : option text :=
  fst <$> find (fun p => is_metadata_location_key p.1) ps.

(** managed_table.rs:6-30 [validate_metadata_location_precondition]. *)
Definition precondition_ok (current new : list (text * text)) : bool :=
  match previous_metadata_location_update new with
  | None => true
  | Some expected =>
      match metadata_location_update new with
      | None => true
      | Some _ => bool_decide (metadata_location_value current = Some expected)
      end
  end.

(** provider.rs:362-368: upsert one property. *)
Fixpoint upsert (ps : list (text * text)) (k v : text) : list (text * text) :=
  match ps with
  | [] => [(k, v)]
  | (k', v') :: ps' => if decide (k' = k) then (k', v) :: ps' else (k', v') :: upsert ps' k v
  end.
Definition set_properties (ps new : list (text * text)) : list (text * text) :=
  fold_left (fun ps p => upsert ps p.1 p.2) new ps.

(** provider.rs:371-383: remove the keys one by one; a key that is not there
    ends the loop with an error, and what was removed before stays removed. *)
Fixpoint unset_properties (ps : list (text * text)) (keys : list text) (if_exists : bool) :
  list (text * text) * option text :=
  match keys with
  | [] => (ps, None)
  | k :: keys' =>
      if existsb (fun p => bool_decide (p.1 = k)) ps || if_exists
      then unset_properties (filter (fun p => p.1 <> k) ps) keys' if_exists
      else (ps, Some k)
  end.

(** Replace the type of every field called [name]; [None] if the change fails
    inside one of them.  The second result says whether there was such a field. *)
Fixpoint retype_fields (change : dtype -> option dtype) (name : text) (fs : list field) :
  option (list field * bool) :=
  match fs with
  | [] => Some ([], false)
  | f :: fs' =>
      if decide (fname f = name) then
        match change (ftype f), retype_fields change name fs' with
        | Some t, Some (fs2, _) => Some (retype f t :: fs2, true)
        | _, _ => None
        end
      else
        match retype_fields change name fs' with
        | Some (fs2, found) => Some (f :: fs2, found)
        | None => None
        end
  end.

(** status.rs:398-492 [alter_nested_data_type]; errors are [None]. *)
Fixpoint alter_nested (current : dtype) (path : list text) (new : dtype) {struct path} : option dtype :=
  match path with
  | [] => Some new
  | name :: rest =>
      match current with
      | Struct fs =>
          match retype_fields (fun t => alter_nested t rest new) name fs with
          | Some (fs', true) => Some (Struct fs')
          | _ => None
          end
      | DList large f =>
          if decide (name = str "element") then
            (fun t => DList large (retype f t)) <$> alter_nested (ftype f) rest new
          else None
      | DMap f sorted =>
          match ftype f with
          | Struct entries =>
              match retype_fields (fun t => alter_nested t rest new) name entries with
              | Some (entries', true) =>
                  (* the rebuilt entry field is never nullable: status.rs:474-481 *)
                  Some (DMap (fname f, Struct entries', false, fmeta f) sorted)
              | _ => None
              end
          | _ => None
          end
      | Prim _ => None
      end
  end.

(** Change the first column called [name]. *)
Fixpoint update_column (change : column -> option column) (name : text) (cs : list column) :
  option (list column) :=
  match cs with
  | [] => None
  | c :: cs' =>
      if decide (col_name c = name) then (fun c' => c' :: cs') <$> change c
      else cons c <$> update_column change name cs'
  end.

(** status.rs:364-381 [alter_column_type]. *)
Definition alter_column_type (cs : list column) (path : list text) (t : dtype) : option (list column) :=
  match path with
  | [] => None
  | name :: rest =>
      update_column (fun c =>
        (fun t' => mkColumn (col_name c) t' (col_nullable c) (col_comment c) (col_default c)
                     (col_generated c) (col_identity c) (col_partition c) (col_bucket c) (col_cluster c))
        <$> alter_nested (col_type c) rest t) name cs
  end.
(** status.rs:383-396 [alter_column_default]. *)
Definition alter_column_default (cs : list column) (path : list text) (d : option text) :
  option (list column) :=
  match path with
  | [name] =>
      update_column (fun c =>
        Some (mkColumn (col_name c) (col_type c) (col_nullable c) (col_comment c) d
                (col_generated c) (col_identity c) (col_partition c) (col_bucket c) (col_cluster c)))
        name cs
  | _ => None
  end.

Definition with_columns (t : table) (cs : list column) : table :=
  mkTable (tbl_catalog t) (tbl_database t) (tbl_name t) cs (tbl_comment t) (tbl_constraints t)
    (tbl_location t) (tbl_format t) (tbl_partition_by t) (tbl_sort_by t) (tbl_bucket_by t)
    (tbl_properties t) (tbl_external t).
Definition with_properties (t : table) (ps : list (text * text)) : table :=
  mkTable (tbl_catalog t) (tbl_database t) (tbl_name t) (tbl_columns t) (tbl_comment t)
    (tbl_constraints t) (tbl_location t) (tbl_format t) (tbl_partition_by t) (tbl_sort_by t)
    (tbl_bucket_by t) ps (tbl_external t).

(** provider.rs:352-407: what an alteration leaves of the table it is applied
    to, in place, and the error it reports, if any. *)
Definition alter_in_place (t : table) (a : alter) : table * option error :=
  match a with
  | SetProperties new =>
      if precondition_ok (tbl_properties t) new
      then (with_properties t (set_properties (tbl_properties t) new), None)
      else (t, Some Conflict)
  | UnsetProperties keys if_exists =>
      match unset_properties (tbl_properties t) keys if_exists with
      | (ps, None) => (with_properties t ps, None)
      | (ps, Some k) => (with_properties t ps, Some (NoProperty k (tbl_name t)))
      end
  | AlterColumnType path new =>
      match alter_column_type (tbl_columns t) path new with
      | Some cs => (with_columns t cs, None)
      | None => (t, Some InvalidColumn)
      end
  | AlterColumnDefault path d =>
      match alter_column_default (tbl_columns t) path d with
      | Some cs => (with_columns t cs, None)
      | None => (t, Some InvalidColumn)
      end
  | AddCheckConstraint _ _ => (t, Some NotSupported)
  end.

(** provider.rs:56-67 [validate_create_table_options]. *)
Definition create_table_ok (o : create_table) : bool :=
  eq_ci (ct_format o) (str "iceberg") || negb (existsb (fun f => bool_decide (is_Some f.2)) (ct_partition_by o)).
(** provider.rs:211-243: the columns of a new table. *)
Definition table_column (o : create_table) (c : new_column) : column :=
  mkColumn (nc_name c) (nc_type c) (nc_nullable c) (nc_comment c) (nc_default c)
    (nc_generated c) (nc_identity c)
    (existsb (fun f => eq_ci f.1 (nc_name c)) (ct_partition_by o))
    (match ct_bucket_by o with
     | Some b => existsb (fun x => eq_ci x (nc_name c)) b.1
     | None => false
     end) false.
(** provider.rs:244-260: a new table. *)
Definition new_table (cat : text) (ns : namespace) (t : text) (o : create_table) : table :=
  mkTable cat ns t (map (table_column o) (ct_columns o)) (ct_comment o) (ct_constraints o)
    (ct_location o) (ct_format o) (ct_partition_by o) (ct_sort_by o) (ct_bucket_by o)
    (ct_properties o) (ct_external o).
(** provider.rs:435-467: a new view. *)
Definition view_column (c : new_column) : column :=
  mkColumn (nc_name c) (nc_type c) (nc_nullable c) (nc_comment c) None None None false false false.
Definition new_view (cat : text) (ns : namespace) (v : text) (o : create_view) : view :=
  mkView cat ns v (map view_column (cv_columns o)) (cv_definition o) (cv_comment o) (cv_properties o).
(** provider.rs:97-103: a new database. *)
Definition new_db (cat : text) (ns : namespace) (o : create_db) : dbstatus :=
  mkDbStatus cat ns (cd_comment o) (cd_location o) (cd_properties o).

(** The operations and their results. *)
Inductive op :=
| CreateDatabase (ns : namespace) (o : create_db)
| GetDatabase (ns : namespace)
| ListDatabases (prefix : option namespace)
| DropDatabase (ns : namespace) (if_exists cascade : bool)
| CreateTable (ns : namespace) (t : text) (o : create_table)
| GetTable (ns : namespace) (t : text)
| ListTables (ns : namespace)
| DropTable (ns : namespace) (t : text) (if_exists : bool)
| AlterTable (ns : namespace) (t : text) (a : alter)
| CreateView (ns : namespace) (v : text) (o : create_view)
| GetView (ns : namespace) (v : text)
| ListViews (ns : namespace)
| DropView (ns : namespace) (v : text) (if_exists : bool).
Inductive out :=
| Databases (ds : list dbstatus) | Database (d : dbstatus)
| Tables (ts : list table) | Table (t : table)
| Views (vs : list view) | View (v : view)
| Done | Error (e : error).

(** namespace.rs:68-78 [is_child_of], [is_parent_of]. *)
Definition is_child_of (a b : namespace) : bool :=
  bool_decide (a.1 = b.1) && bool_decide (length a.2 = S (length b.2))
  && forallb (fun p => bool_decide (p.1 = p.2)) (zip a.2 b.2).
(** provider.rs:132-140: which databases a listing shows. *)
Definition listed (prefix : option namespace) (ns : namespace) : bool :=
  match prefix with
  | Some p => is_child_of ns p
  | None => bool_decide (ns.2 = [])
  end.

Definition put (s : catalog) (ns : namespace) (d : database) : catalog :=
  mkCatalog (cat_name s) (<[ns := d]> (cat_dbs s)).
Definition put_tables (s : catalog) (ns : namespace) (d : database) (ts : gmap text table) : catalog :=
  put s ns (mkDatabase (db_status d) ts (db_views d)).
Definition put_views (s : catalog) (ns : namespace) (d : database) (vs : gmap text view) : catalog :=
  put s ns (mkDatabase (db_status d) (db_tables d) vs).

(** provider.rs:70-530.  Listings come in some order (hash maps); the model
    has one. *)
Definition step (s : catalog) (o : op) : catalog * out :=
  match o with
  | CreateDatabase ns c =>
      match cat_dbs s !! ns with
      | Some d => if cd_if_not_exists c then (s, Database (db_status d)) else (s, Error (DatabaseExists ns))
      | None =>
          let st := new_db (cat_name s) ns c in
          (put s ns (mkDatabase st ∅ ∅), Database st)
      end
  | GetDatabase ns =>
      match cat_dbs s !! ns with
      | Some d => (s, Database (db_status d))
      | None => (s, Error (NoDatabase ns))
      end
  | ListDatabases prefix =>
      (s, Databases (map (fun p => db_status p.2)
                       (List.filter (fun p => listed prefix p.1) (map_to_list (cat_dbs s)))))
  | DropDatabase ns if_exists cascade =>
      match cat_dbs s !! ns with
      | Some d =>
          if negb cascade && negb (bool_decide (db_tables d = ∅) && bool_decide (db_views d = ∅))
          then (s, Error (DatabaseNotEmpty ns))
          else (mkCatalog (cat_name s) (delete ns (cat_dbs s)), Done)
      | None => if if_exists then (s, Done) else (s, Error (NoDatabase ns))
      end
  | CreateTable ns t c =>
      if create_table_ok c then
        match cat_dbs s !! ns with
        | None => (s, Error (NoDatabase ns))
        | Some d =>
            let st := new_table (cat_name s) ns t c in
            match db_tables d !! t, ct_mode c with
            | Some old, CreateIfNotExists => (s, Table old)
            | Some _, Create => (s, Error (TableExists t))
            | Some _, (CreateOrReplace | Replace) =>
                (put_tables s ns d (<[t := st]> (delete t (db_tables d))), Table st)
            | None, Replace => (s, Error (NoTable t))
            | None, _ => (put_tables s ns d (<[t := st]> (db_tables d)), Table st)
            end
        end
      else (s, Error NotSupported)
  | GetTable ns t =>
      match cat_dbs s !! ns with
      | Some d =>
          match db_tables d !! t with
          | Some st => (s, Table st)
          | None => (s, Error (NoTable t))
          end
      | None => (s, Error (NoTable t))
      end
  | ListTables ns =>
      match cat_dbs s !! ns with
      | Some d => (s, Tables (map snd (map_to_list (db_tables d))))
      | None => (s, Error (NoDatabase ns))
      end
  | DropTable ns t if_exists =>
      match cat_dbs s !! ns with
      | Some d =>
          if bool_decide (is_Some (db_tables d !! t)) || if_exists
          then (put_tables s ns d (delete t (db_tables d)), Done)
          else (put_tables s ns d (delete t (db_tables d)), Error (NoTable t))
      | None => if if_exists then (s, Done) else (s, Error (NoDatabase ns))
      end
  | AlterTable ns t a =>
      match cat_dbs s !! ns with
      | None => (s, Error (NoDatabase ns))
      | Some d =>
          match db_tables d !! t with
          | None => (s, Error (NoTable t))
          | Some old =>
              let '(new, e) := alter_in_place old a in
              (put_tables s ns d (<[t := new]> (db_tables d)),
               match e with None => Done | Some e => Error e end)
          end
      end
  | CreateView ns v c =>
      match cat_dbs s !! ns with
      | None => (s, Error (NoDatabase ns))
      | Some d =>
          let st := new_view (cat_name s) ns v c in
          match db_views d !! v with
          | Some old =>
              if cv_if_not_exists c then (s, View old)
              else if cv_replace c then
                (put_views s ns d (<[v := st]> (delete v (db_views d))), View st)
              else (s, Error (ViewExists v))
          | None => (put_views s ns d (<[v := st]> (db_views d)), View st)
          end
      end
  | GetView ns v =>
      match cat_dbs s !! ns with
      | Some d =>
          match db_views d !! v with
          | Some st => (s, View st)
          | None => (s, Error (NoView v))
          end
      | None => (s, Error (NoView v))
      end
  | ListViews ns =>
      match cat_dbs s !! ns with
      | Some d => (s, Views (map snd (map_to_list (db_views d))))
      | None => (s, Error (NoDatabase ns))
      end
  | DropView ns v if_exists =>
      match cat_dbs s !! ns with
      | Some d =>
          if bool_decide (is_Some (db_views d !! v)) || if_exists
          then (put_views s ns d (delete v (db_views d)), Done)
          else (put_views s ns d (delete v (db_views d)), Error (NoView v))
      | None => if if_exists then (s, Done) else (s, Error (NoDatabase ns))
      end
  end.

(** provider.rs:31-54 [new]: one empty database. *)
Definition initial (name : text) (ns : namespace) (comment : option text) : catalog :=
  mkCatalog name {[ ns := mkDatabase (mkDbStatus name ns comment None []) ∅ ∅ ]}.

(** A history: the results in order and the final state. *)
Fixpoint run (s : catalog) (os : list op) : catalog * list out :=
  match os with
  | [] => (s, [])
  | o :: os' => let '(s', r) := step s o in let '(s'', rs) := run s' os' in (s'', r :: rs)
  end.
