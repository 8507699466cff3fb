(** What a client should receive for a job. *)
From stdpp Require Import prelude list.
From Verif.Exec Require Import JobModel JobOutputModel.

Section spec.
Context {A : Type}.

(** The place a stream contributes to: stage, partition and channel. *)
Definition slot := (nat * nat * nat)%type.
Definition slot_of (k : stream_key) : slot :=
  (tk_stage (sk_task k), tk_partition (sk_task k), sk_channel k).

(** The rows of a stream that is read to its end. *)
Definition rows_of (content : list (item A)) : list A :=
  flat_map (fun x => match x with Batch rows => rows | Fault => [] end) content.

(** The rows received for a slot. *)
Definition received_for (x : slot) (out : list (received A)) : list A :=
  flat_map (fun r => match r with
    | Rows k rows => if decide (slot_of k = x) then rows else []
    | _ => [] end) out.
Definition all_received (out : list (received A)) : list A :=
  flat_map (fun r => match r with Rows _ rows => rows | _ => [] end) out.

(** The streams handed over for a slot, in order. *)
Definition arrivals (x : slot) (es : list (out_event A)) : list (list (item A)) :=
  omap (fun e => match e with
    | EStream k content => if decide (slot_of k = x) then Some content else None
    | _ => None end) es.
(** Every slot that had a stream. *)
Definition slots (es : list (out_event A)) : list slot :=
  omap (fun e => match e with EStream k _ => Some (slot_of k) | _ => None end) es.

(** The rows the client should get for a slot: those of the newest stream. *)
Definition expected_for (x : slot) (es : list (out_event A)) : list A :=
  match last (arrivals x es) with Some c => rows_of c | None => [] end.

(** Each task stream is handed over once: no later attempt replaces it. *)
Definition no_retry (es : list (out_event A)) : Prop := NoDup (slots es).

(** A stream that replaces another arrives before the other has been read to its
    end, unless the other has no rows at all. *)
Definition retries_in_time (es : list (out_event A)) : Prop :=
  forall es1 k content es2,
    es = es1 ++ EStream k content :: es2 ->
    forall c, last (arrivals (slot_of k) es1) = Some c ->
    rows_of c = [] \/ received_for (slot_of k) (out_run out_init es1).2 <> rows_of c.

(** No stream is handed over once the sender is gone. *)
Definition closed_last (es : list (out_event A)) : Prop :=
  forall es1 es2, es = es1 ++ EClose :: es2 -> slots es2 = [].

(** The result ends, and ends without an error. *)
Definition clean_end (es : list (out_event A)) : Prop :=
  (out_run out_init es).1 = OCompleted /\ RError ∉ (out_run out_init es).2.
End spec.
