(** C01: task status is monotone and terminal states stick. *)
From stdpp Require Import prelude list.
From Verif.Exec Require Import TaskStateModel TaskStateSpec TaskStateProofs.

(** However many further reports [m] arrive, the status never moves backwards. *)
Theorem C01_status_never_regresses (i : task_state) (l m : list task_state) :
  progress (after_reports i l) <= progress (after_reports i (l ++ m)).
Proof. exact (after_reports_monotone i l m). Qed.
Print Assumptions C01_status_never_regresses.

(** Once finished, the status never changes again. *)
Theorem C01_finished_status_sticks (i : task_state) (l m : list task_state) :
  finished (after_reports i l) -> after_reports i (l ++ m) = after_reports i l.
Proof. exact (after_reports_sticky i l m). Qed.
Print Assumptions C01_finished_status_sticks.

(** The status shown is the first finished report, or else the most advanced one. *)
Theorem C01_status_is_first_finished_or_most_advanced (i : task_state) (l : list task_state) :
  final_status i l (after_reports i l) /\
  (forall s, final_status i l s -> s = after_reports i l).
Proof.
  exact (conj (after_reports_final i l)
    (fun s H => final_status_unique_progress i l s _ H (after_reports_final i l))).
Qed.
Print Assumptions C01_status_is_first_finished_or_most_advanced.

(** A late, duplicated and reordered history. *)
Example C01_example :
  let l := [TRunning; TScheduled; TFailed; TRunning; TSucceeded] in
  finished (after_reports TCreated l) /\ after_reports TCreated l = TFailed /\
  after_reports TCreated (take 2 l) = TRunning.
Proof. vm_compute. unfold finished. auto. Qed.
