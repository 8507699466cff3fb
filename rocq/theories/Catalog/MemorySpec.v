(** What a user expects of the catalog: a map from names to objects. *)
From Coq Require Import NArith ZifyN Ascii String Lia.
From stdpp Require Import prelude gmap list strings.
From Verif.Lib Require Import Text.
From Verif.Catalog Require Import MemoryModel.

(** The objects under their names. *)
Record world := mkWorld {
  w_db : namespace -> option dbstatus;
  w_table : namespace -> text -> option table;
  w_view : namespace -> text -> option view }.

(** What a catalog state holds. *)
Definition holds (s : catalog) : world :=
  mkWorld (fun ns => db_status <$> cat_dbs s !! ns)
    (fun ns t => cat_dbs s !! ns ≫= fun d => db_tables d !! t)
    (fun ns v => cat_dbs s !! ns ≫= fun d => db_views d !! v).

(** Which parts of the world an operation may change. *)
Definition dbs_kept (w w' : world) (but : namespace -> Prop) : Prop :=
  forall ns, ¬ but ns -> w_db w' ns = w_db w ns.
Definition tables_kept (w w' : world) (but : namespace -> text -> Prop) : Prop :=
  forall ns t, ¬ but ns t -> w_table w' ns t = w_table w ns t.
Definition views_kept (w w' : world) (but : namespace -> text -> Prop) : Prop :=
  forall ns v, ¬ but ns v -> w_view w' ns v = w_view w ns v.
Definition nothing {A} (_ : A) : Prop := False.
Definition nothing2 {A B} (_ : A) (_ : B) : Prop := False.
Definition only {A} (a b : A) : Prop := a = b.
Definition only2 {A B} (a : A) (b : B) (x : A) (y : B) : Prop := a = x /\ b = y.
Definition within {A B} (a x : A) (_ : B) : Prop := a = x.
(** Nothing changes. *)
Definition unchanged (w w' : world) : Prop :=
  dbs_kept w w' nothing /\ tables_kept w w' nothing2 /\ views_kept w w' nothing2.
(** Only the table [t] of [ns] changes, or only the view. *)
Definition only_table (w w' : world) (ns : namespace) (t : text) : Prop :=
  dbs_kept w w' nothing /\ tables_kept w w' (only2 ns t) /\ views_kept w w' nothing2.
Definition only_view (w w' : world) (ns : namespace) (v : text) : Prop :=
  dbs_kept w w' nothing /\ tables_kept w w' nothing2 /\ views_kept w w' (only2 ns v).
(** A list shows each object for which [P] holds once. *)
Definition shows {A} (l : list A) (P : A -> Prop) : Prop := NoDup l /\ forall x, x ∈ l <-> P x.

(** The value of a property: the first with that key. *)
Definition property (ps : list (text * text)) (k : text) : option text :=
  snd <$> find (fun p => bool_decide (p.1 = k)) ps.
(** The type found by following a path of field names. *)
Fixpoint type_at (t : dtype) (path : list text) {struct path} : option dtype :=
  match path with
  | [] => Some t
  | name :: rest =>
      let inside (fs : list field) :=
        match find (fun f => bool_decide (fname f = name)) fs with
        | Some f => type_at (ftype f) rest
        | None => None
        end in
      match t with
      | Struct fs => inside fs
      | DList _ f => if decide (name = str "element") then type_at (ftype f) rest else None
      | DMap f _ => match ftype f with Struct entries => inside entries | _ => None end
      | Prim _ => None
      end
  end.
(** The path leads somewhere through every field of its names (a struct may
    have several fields of one name). *)
Fixpoint resolves (t : dtype) (path : list text) {struct path} : bool :=
  match path with
  | [] => true
  | name :: rest =>
      let inside (fs : list field) :=
        existsb (fun f => bool_decide (fname f = name)) fs
        && forallb (fun f => negb (bool_decide (fname f = name)) || resolves (ftype f) rest) fs in
      match t with
      | Struct fs => inside fs
      | DList _ f => bool_decide (name = str "element") && resolves (ftype f) rest
      | DMap f _ => match ftype f with Struct entries => inside entries | _ => false end
      | Prim _ => false
      end
  end.
Definition column_named (t : table) (name : text) : option column :=
  find (fun c => bool_decide (col_name c = name)) (tbl_columns t).
(** The type at a path that starts with a column. *)
Definition column_type (t : table) (path : list text) : option dtype :=
  match path with
  | [] => None
  | name :: rest => match column_named t name with Some c => type_at (col_type c) rest | None => None end
  end.
(** Names that agree but for the case of the letters A to Z. *)
Definition same_letter (a b : N) : Prop :=
  a = b \/ (65 <= a /\ a <= 90 /\ b = a + 32)%N \/ (65 <= b /\ b <= 90 /\ a = b + 32)%N.
Definition same_name (a b : text) : Prop := Forall2 same_letter a b.
(** The column [x] is as [c] asks for, in a table created with the options [o]. *)
Definition column_as_asked (o : create_table) (c : new_column) (x : column) : Prop :=
  col_name x = nc_name c /\ col_type x = nc_type c /\ col_nullable x = nc_nullable c /\
  col_comment x = nc_comment c /\ col_default x = nc_default c /\
  col_generated x = nc_generated c /\ col_identity x = nc_identity c /\
  (col_partition x = true <-> exists f, f ∈ ct_partition_by o /\ same_name f.1 (nc_name c)) /\
  (col_bucket x = true <-> exists b n, ct_bucket_by o = Some b /\ n ∈ b.1 /\ same_name n (nc_name c)).
(** Neither path leads through the other. *)
Definition apart (p q : list text) : Prop := ¬ p `prefix_of` q /\ ¬ q `prefix_of` p.

(** Two tables that agree on everything but their properties, or their columns. *)
Definition same_but_properties (t t' : table) : Prop := with_properties t (tbl_properties t') = t'.
Definition same_but_columns (t t' : table) : Prop := with_columns t (tbl_columns t') = t'.

(** When an alteration must be carried out, and the table it must produce. *)
Definition alter_allowed (t : table) (a : alter) : Prop :=
  match a with
  | SetProperties new => precondition_ok (tbl_properties t) new = true
  | UnsetProperties keys if_exists =>
      if_exists = true \/ forall k, k ∈ keys -> is_Some (property (tbl_properties t) k)
  | AlterColumnType path _ =>
      exists name rest c, path = name :: rest /\ column_named t name = Some c /\
        resolves (col_type c) rest = true
  | AlterColumnDefault path _ => exists name, path = [name] /\ is_Some (column_named t name)
  | AddCheckConstraint _ _ => False
  end.
Definition altered (t : table) (a : alter) (t' : table) : Prop :=
  match a with
  | SetProperties new =>
      same_but_properties t t' /\
      forall k, property (tbl_properties t') k =
        match property (rev new) k with
        | Some v => Some v
        | None => property (tbl_properties t) k
        end
  | UnsetProperties keys _ =>
      same_but_properties t t' /\
      forall k, property (tbl_properties t') k =
        if decide (k ∈ keys) then None else property (tbl_properties t) k
  | AlterColumnType path new =>
      same_but_columns t t' /\ map col_name (tbl_columns t') = map col_name (tbl_columns t) /\
      column_type t' path = Some new /\
      forall q, apart path q -> column_type t' q = column_type t q
  | AlterColumnDefault path d =>
      same_but_columns t t' /\ map col_name (tbl_columns t') = map col_name (tbl_columns t) /\
      forall name c, column_named t name = Some c ->
        exists c', column_named t' name = Some c' /\ col_type c' = col_type c /\
          col_default c' = if decide (path = [name]) then d else col_default c
  | AddCheckConstraint _ _ => False
  end.

(** A database without objects. *)
Definition empty_db (w : world) (ns : namespace) : Prop :=
  (forall t, w_table w ns t = None) /\ forall v, w_view w ns v = None.

(** What each operation does and answers, for a catalog called [cat]. *)
Definition expected (cat : text) (w : world) (o : op) (w' : world) (r : out) : Prop :=
  match o with
  | CreateDatabase ns c =>
      match w_db w ns with
      | Some d =>
          unchanged w w' /\
          r = if cd_if_not_exists c then Database d else Error (DatabaseExists ns)
      | None =>
          w_db w' ns = Some (new_db cat ns c) /\ r = Database (new_db cat ns c) /\
          dbs_kept w w' (only ns) /\ tables_kept w w' nothing2 /\ views_kept w w' nothing2
      end
  | GetDatabase ns =>
      unchanged w w' /\
      r = match w_db w ns with Some d => Database d | None => Error (NoDatabase ns) end
  | ListDatabases prefix =>
      unchanged w w' /\ exists l, r = Databases l /\
        shows l (fun d => exists ns, w_db w ns = Some d /\
          match prefix with
          | None => ns.2 = []                             (* the top level *)
          | Some p => exists x, ns = (p.1, p.2 ++ [x])    (* one level below *)
          end)
  | DropDatabase ns if_exists cascade =>
      match w_db w ns with
      | None => unchanged w w' /\ r = if if_exists then Done else Error (NoDatabase ns)
      | Some _ =>
          (cascade = true \/ empty_db w ns) /\ r = Done /\
          w_db w' ns = None /\ empty_db w' ns /\
          dbs_kept w w' (only ns) /\ tables_kept w w' (within ns) /\ views_kept w w' (within ns)
          \/ cascade = false /\ ¬ empty_db w ns /\ unchanged w w' /\ r = Error (DatabaseNotEmpty ns)
      end
  | CreateTable ns t c =>
      let create := w_table w' ns t = Some (new_table cat ns t c) /\
                    r = Table (new_table cat ns t c) /\ only_table w w' ns t in
      let refuse e := unchanged w w' /\ r = Error e in
      if create_table_ok c then
        match w_db w ns, w_table w ns t, ct_mode c with
        | None, _, _ => refuse (NoDatabase ns)
        | Some _, None, Replace => refuse (NoTable t)
        | Some _, None, _ => create
        | Some _, Some _, Create => refuse (TableExists t)
        | Some _, Some old, CreateIfNotExists => unchanged w w' /\ r = Table old
        | Some _, Some _, (CreateOrReplace | Replace) => create
        end
      else refuse NotSupported
  | GetTable ns t =>
      unchanged w w' /\ r = match w_table w ns t with Some x => Table x | None => Error (NoTable t) end
  | ListTables ns =>
      unchanged w w' /\
      match w_db w ns with
      | Some _ => exists l, r = Tables l /\ shows l (fun x => exists t, w_table w ns t = Some x)
      | None => r = Error (NoDatabase ns)
      end
  | DropTable ns t if_exists =>
      match w_db w ns, w_table w ns t with
      | _, Some _ => w_table w' ns t = None /\ r = Done /\ only_table w w' ns t
      | Some _, None => unchanged w w' /\ r = if if_exists then Done else Error (NoTable t)
      | None, None => unchanged w w' /\ r = if if_exists then Done else Error (NoDatabase ns)
      end
  | AlterTable ns t a =>
      match w_db w ns, w_table w ns t with
      | None, _ => unchanged w w' /\ r = Error (NoDatabase ns)
      | Some _, None => unchanged w w' /\ r = Error (NoTable t)
      | Some _, Some x =>
          alter_allowed x a /\ r = Done /\ only_table w w' ns t /\
          (exists x', w_table w' ns t = Some x' /\ altered x a x')
          \/ ¬ alter_allowed x a /\ (exists e, r = Error e) /\ unchanged w w'
      end
  | CreateView ns v c =>
      let create := w_view w' ns v = Some (new_view cat ns v c) /\
                    r = View (new_view cat ns v c) /\ only_view w w' ns v in
      match w_db w ns, w_view w ns v with
      | None, _ => unchanged w w' /\ r = Error (NoDatabase ns)
      | Some _, None => create
      | Some _, Some old =>
          if cv_if_not_exists c then unchanged w w' /\ r = View old
          else if cv_replace c then create
          else unchanged w w' /\ r = Error (ViewExists v)
      end
  | GetView ns v =>
      unchanged w w' /\ r = match w_view w ns v with Some x => View x | None => Error (NoView v) end
  | ListViews ns =>
      unchanged w w' /\
      match w_db w ns with
      | Some _ => exists l, r = Views l /\ shows l (fun x => exists v, w_view w ns v = Some x)
      | None => r = Error (NoDatabase ns)
      end
  | DropView ns v if_exists =>
      match w_db w ns, w_view w ns v with
      | _, Some _ => w_view w' ns v = None /\ r = Done /\ only_view w w' ns v
      | Some _, None => unchanged w w' /\ r = if if_exists then Done else Error (NoView v)
      | None, None => unchanged w w' /\ r = if if_exists then Done else Error (NoDatabase ns)
      end
  end.

(** An unset of several properties that insists on their existence: the one
    operation that can fail half way. *)
Definition may_stop_half_way (o : op) : Prop :=
  match o with
  | AlterTable _ _ (UnsetProperties keys false) => (length keys > 1)%nat
  | _ => False
  end.

(** Reachable states. *)
Definition reachable (s : catalog) : Prop :=
  exists name ns comment os, s = (run (initial name ns comment) os).1.

(** ** Metadata locations *)
(** The metadata location a table is read at. *)
Definition location (t : table) : option text := metadata_location_value (tbl_properties t).
(** An update of the metadata location that states the location it is based on. *)
Definition based_on (new : list (text * text)) (b : text) : Prop :=
  previous_metadata_location_update new = Some b /\ is_Some (metadata_location_update new).
(** Keys that are taken for the metadata location when a table is read. *)
Definition location_like (key : text) : bool := is_metadata_location_key (trim key).
(** The table has no location property but [k]; the operation writes no other
    either, and never writes [b] to it. *)
Definition one_location_key (w : world) (ns : namespace) (t k : text) : Prop :=
  forall x p, w_table w ns t = Some x -> p ∈ tbl_properties x -> location_like p.1 = true -> p.1 = k.
Definition keeps_to_key (ns : namespace) (t k b : text) (o : op) : Prop :=
  match o with
  | AlterTable ns' t' (SetProperties ps) | CreateTable ns' t' {| ct_properties := ps |} =>
      ns' = ns -> t' = t -> forall p, p ∈ ps -> location_like p.1 = true -> p.1 = k /\ p.2 <> b
  | _ => True
  end.
(** How many updates of [ns].[t] based on [b] succeed in a history. *)
Definition wins (ns : namespace) (t b : text) (o : op) (r : out) : bool :=
  match o, r with
  | AlterTable ns' t' (SetProperties new), Done =>
      bool_decide (ns' = ns) && bool_decide (t' = t)
      && bool_decide (previous_metadata_location_update new = Some b)
      && bool_decide (is_Some (metadata_location_update new))
  | _, _ => false
  end.
Fixpoint winners (ns : namespace) (t b : text) (os : list op) (rs : list out) : nat :=
  match os, rs with
  | o :: os', r :: rs' => (if wins ns t b o r then 1 else 0) + winners ns t b os' rs'
  | _, _ => 0
  end.
(** The update an Iceberg writer sends: crates/sail-iceberg/src/catalog_support/commit.rs:229-255
    [update_metadata_location].  [known] are the table's properties as the writer read them. *)
Definition writer_update (known : list (text * text)) (previous new : text) : list (text * text) :=
  [(default METADATA_LOCATION_UNDERSCORE (existing_metadata_location_key known), new);
   (PREVIOUS_METADATA_LOCATION, previous)].

(** The database an operation is about. *)
Definition about (o : op) : option namespace :=
  match o with
  | CreateDatabase ns _ | GetDatabase ns | DropDatabase ns _ _ | CreateTable ns _ _ | GetTable ns _
  | ListTables ns | DropTable ns _ _ | AlterTable ns _ _ | CreateView ns _ _ | GetView ns _
  | ListViews ns | DropView ns _ _ => Some ns
  | ListDatabases _ => None
  end.
