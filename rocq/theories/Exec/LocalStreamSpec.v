(** Vocabulary for statements about local streams, over the history of operations. *)
From stdpp Require Import prelude list.
From Verif.Exec Require Import LocalStreamModel.

Section spec.
Context {B : Type}.

(** The batches accepted by the sink: those written after it was created and
    before it was committed, aborted or closed because nobody listens. *)
Definition published_step (cap : nat) (acc : lstream B * list B) (o : op B) : lstream B * list B :=
  let s := acc.1 in
  (step cap s o,
   match o, ls_sink s with
   | Write b, SWriting => acc.2 ++ [b]
   | _, _ => acc.2
   end).
Definition published (cap : nat) (ops : list (op B)) : list B :=
  (foldl (published_step cap) (ls_init, []) ops).2.

(** The results of the fetches of a history, in order. *)
Definition fetch_step (cap : nat) (acc : lstream B * list (option nat)) (o : op B) :=
  (step cap acc.1 o,
   match o with Fetch => acc.2 ++ [(fetch acc.1).2] | _ => acc.2 end).
Definition fetches (cap : nat) (ops : list (op B)) : list (option nat) :=
  (foldl (fetch_step cap) (ls_init, []) ops).2.

(** The stream was never given up for lack of a producer. *)
Definition no_timeout (ops : list (op B)) : Prop := Timeout ∉ ops.
(** Every creation of the stream declares [n] consumers. *)
Definition creates_n (n : nat) (ops : list (op B)) : Prop :=
  forall m, Create m ∈ ops -> m = n.
End spec.
