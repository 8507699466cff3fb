(** What "never moves backwards" means, independently of [consolidate]. *)
From stdpp Require Import prelude list.
From Verif.Exec Require Import TaskStateModel.

(** The stages of life of an attempt, as documented at state.rs:131-145. *)
Definition progress (s : task_state) : nat :=
  match s with
  | TCreated => 0
  | TScheduled => 1
  | TRunning => 2
  | TSucceeded | TFailed | TCanceled => 3
  end.

(** Finished states, listed. *)
Definition finished (s : task_state) : Prop :=
  s = TSucceeded \/ s = TFailed \/ s = TCanceled.

(** [final_status init reports s]: what an observer expects to see after all
    reports have arrived: the first finished status among them if there is one,
    and otherwise the most advanced one. *)
Inductive final_status (init : task_state) (reports : list task_state) : task_state -> Prop :=
| fs_finished pre s post :
    init :: reports = pre ++ s :: post ->
    finished s ->
    (forall x, x ∈ pre -> ~ finished x) ->
    final_status init reports s
| fs_advanced s :
    s ∈ init :: reports ->
    (forall x, x ∈ init :: reports -> ~ finished x) ->
    (forall x, x ∈ init :: reports -> progress x <= progress s) ->
    final_status init reports s.
