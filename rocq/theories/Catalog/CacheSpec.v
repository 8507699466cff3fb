(** What a session may rely on when it lists databases, tables or views
    through the cache.  The specification does not mention cache keys or
    invalidation. *)
From Coq Require Import NArith ZifyN Ascii String Lia.
From stdpp Require Import prelude gmap list strings.
From Verif.Lib Require Import Text.
From Verif.Catalog Require Import MemoryModel CacheModel.

Definition is_listing (o : op) : Prop :=
  match o with ListDatabases _ | ListTables _ | ListViews _ => True | _ => False end.

(** The same answer; listings come in no particular order. *)
Definition same_answer (r r' : out) : Prop :=
  match r, r' with
  | Databases a, Databases b => a ≡ₚ b
  | Tables a, Tables b => a ≡ₚ b
  | Views a, Views b => a ≡ₚ b
  | _, _ => r = r'
  end.

(** Operations that only look. *)
Definition only_reads (o : op) : Prop :=
  match o with
  | GetDatabase _ | ListDatabases _ | GetTable _ _ | ListTables _ | GetView _ _ | ListViews _ => True
  | _ => False
  end.

(** Which listings a change is meant to show up in.  Creating a database makes
    the listing of its tables and views possible; it does not change a listing
    that already was. *)
Definition meant_to_change {S} (istep : S -> op -> S * out) (s : S) (o l : op) : Prop :=
  match o, l with
  | (CreateDatabase _ _ | DropDatabase _ _ _), ListDatabases _ => True
  | CreateDatabase ns _, (ListTables ns' | ListViews ns') => ns' = ns /\ failed (istep s l).2 = true
  | DropDatabase ns _ _, (ListTables ns' | ListViews ns') => ns' = ns
  | (CreateTable ns _ _ | DropTable ns _ _ | AlterTable ns _ _), ListTables ns' => ns' = ns
  | (CreateView ns _ _ | DropView ns _ _), ListViews ns' => ns' = ns
  | _, _ => False
  end.

(** A catalog whose operations change only the listings they are meant to, and
    none if they fail. *)
Record well_behaved {S} (istep : S -> op -> S * out) (allowed : op -> Prop) : Prop := {
  wb_reads s o : only_reads o -> (istep s o).1 = s;
  wb_failed s o l : allowed o -> is_listing l -> failed (istep s o).2 = true ->
    same_answer (istep (istep s o).1 l).2 (istep s l).2;
  wb_frame s o l : allowed o -> is_listing l -> ¬ meant_to_change istep s o l ->
    same_answer (istep (istep s o).1 l).2 (istep s l).2 }.

(** Histories without listings that overlap other requests. *)
Definition sequential (e : event) : Prop :=
  match e with Start _ | Finish => False | _ => True end.
(** Histories in which nobody else changes the catalog. *)
Definition own (e : event) : Prop := match e with Other _ => False | _ => True end.
Definition allows (allowed : op -> Prop) (e : event) : Prop :=
  match e with Own o => allowed o | _ => True end.

(** [r] was the right answer to the listing [l] at some moment of the history
    [es], and no request of the session after that moment changed the answer.
    Creating a database is excepted when the listing is of its content. *)
Definition no_older_than_own_change {S} (istep : S -> op -> S * out) (f : flags) (s : S)
  (es : list event) (l : op) (r : out) : Prop :=
  exists p q, es = p ++ q /\
    (istep (st_inner (after istep f s p)) l).2 = r /\
    forall q1 o q2, q = q1 ++ Own o :: q2 ->
      match o, l with
      | CreateDatabase ns _, (ListTables ns' | ListViews ns') => ns' = ns
      | _, _ => False
      end \/
      same_answer (istep (st_inner (after istep f s (p ++ q1 ++ [Own o]))) l).2
        (istep (st_inner (after istep f s (p ++ q1))) l).2.
