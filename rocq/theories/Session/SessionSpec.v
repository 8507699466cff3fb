(** What users rely on from the session manager. *)
From Coq Require Import Lia.
From stdpp Require Import prelude list gmap.
From Verif.Session Require Import SessionModel.

Definition is_running (st : state) (sid : nat) : Prop :=
  exists c u d a, sessions st !! sid = Some (Running c u d a).
Definition is_closed (st : state) (sid : nat) : Prop :=
  sessions st !! sid = Some Deleted \/ sessions st !! sid = Some Failed.

(** The operation removed a session that was running. *)
Definition removes (e : entry) (sid : nat) : Prop :=
  is_running (h_before e) sid /\ ~ is_running (h_after e) sid.

(** Time of the last successful request for a session, if any. *)
Fixpoint last_request (sid : nat) (h : list entry) : option nat :=
  match h with
  | [] => None
  | e :: rest =>
    match last_request sid rest with
    | Some t => Some t
    | None =>
      match h_op e, h_out e with
      | Request sid' _ _ _, Context _ => if decide (sid' = sid) then Some (clock (h_before e)) else None
      | _, _ => None
      end
    end
  end.
