(** Model of the task-attempt status kept by the driver.
    Source: crates/sail-execution/src/driver/job_scheduler/state.rs *)
From stdpp Require Import prelude list.

(** state.rs:131-145, [enum TaskState]. *)
Inductive task_state :=
| TCreated | TScheduled | TRunning | TSucceeded | TFailed | TCanceled.

Global Instance task_state_eqdec : EqDecision task_state.
Proof. solve_decision. Defined.

(** state.rs:159-168, [TaskState::consolidate]. *)
Definition consolidate (cur next : task_state) : task_state :=
  match cur, next with
  | TCreated, x => x
  | TScheduled, TCreated => TScheduled
  | TScheduled, x => x
  | TRunning, (TCreated | TScheduled) => TRunning
  | TRunning, x => x
  | (TSucceeded | TFailed | TCanceled), _ => cur
  end.

(** state.rs:170-175, [TaskState::is_terminal]. *)
Definition is_terminal (s : task_state) : bool :=
  match s with
  | TSucceeded | TFailed | TCanceled => true
  | TCreated | TScheduled | TRunning => false
  end.

(** core.rs:121, the only place where a report changes an attempt:
    [attempt.state = attempt.state.consolidate(state)], folded over the reports
    that reach the driver for one attempt. *)
Definition after_reports (init : task_state) (reports : list task_state) : task_state :=
  foldl consolidate init reports.
