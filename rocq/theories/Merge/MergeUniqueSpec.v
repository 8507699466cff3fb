(** What is assumed of the source plan of a MERGE. *)
From stdpp Require Import prelude list.
From Verif.Lib Require Import Text.
From Verif.Merge Require Import MergeModel MergeUniqueModel.

(** Schemas have no two columns whose names differ in case only (column ids are generated). *)
Fixpoint plan_ok (p : plan) : Prop :=
  NoDup (map norm_ident (fields p)) /\
  match p with
  | PTable _ _ => True
  | PSubqueryAlias p' | PFilter _ p' | PProjection _ p' | PAggregate _ _ p' => plan_ok p'
  end.

(** What a functional dependency says of the rows of a plan. *)
Definition fd_holds (rows : list row) (d : fd) : Prop :=
  fd_single d = true -> forall vs : list val,
    length (filter (fun r => Forall2 (fun i v => r !! i = Some (Some v)) (fd_source d) vs) rows) <= 1.

