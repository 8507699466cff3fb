(** What the client of an operation should see. *)
From Coq Require Import List Arith Bool Sorted.
Import ListNotations.
From Verif.Connect Require Import ExecutorModel.

(** Results, in the form in which both queries and commands have them: non-empty batches
    of rows, or what the command returned. *)
Inductive result := RRows (rows : list nat) | RValue (r : nat).
Definition rows_result (rows : list nat) : list result := match rows with [] => [] | _ => [RRows rows] end.
Definition result_of (o : output) : list result :=
  match o_body o with BRows rows => rows_result rows | BResult r => [RValue r] | _ => [] end.
Definition results (l : list output) : list result := flat_map result_of l.

(** The results of the operation. *)
Definition value_result (o : option nat) : list result := match o with Some r => [RValue r] | None => [] end.
Definition expected (m : mode) (source : list (list nat)) : list result :=
  match m with
  | MQuery => flat_map rows_result source
  | MCommand f => value_result (f source)
  end.

Definition is_complete (o : output) : bool := match o_body o with BComplete => true | _ => false end.
Definition complete (l : list output) : bool := existsb is_complete l.

(** The responses the server keeps. *)
Definition buffer_of (e : estate) : list output :=
  match e with Pending x | Run _ (Active x _ _) | Run _ (Paused x) => x_buffer x | _ => [] end.

(** Either there is room for another response, or the oldest one, which makes room for
    it, has been received. *)
Definition has_room (w : world) : bool :=
  (length (buffer_of (w_state w)) <? capacity) ||
  match buffer_of (w_state w) with o :: _ => existsb (fun r => o_id r =? o_id o) (w_recv w) | [] => true end.
(** It is so whenever a response is produced. *)
Fixpoint keeps_up (w : world) (l : list op) : bool :=
  match l with
  | [] => true
  | a :: l' => ((w_next (step w a) =? w_next w) || has_room w) && keeps_up (step w a) l'
  end.
(** The task is still needed: it has not run to its end. *)
Definition unfinished (e : estate) : bool := match e with Pending _ | Run _ (Active _ _ _) | Run _ (Paused _) => true | _ => false end.
