(** Specification of dealing rows out to [n] outputs. *)
From stdpp Require Import prelude list numbers.
From Verif.Plan Require Import RoundRobinModel.

Section spec.
Context {A : Type}.

(** The rows that output [k] gets when rows are dealt out one by one, the first to output
    [from]. *)
Fixpoint dealt (n from k : nat) (rows : list A) : list A :=
  match rows with
  | [] => []
  | x :: rows => (if from mod n =? k then [x] else []) ++ dealt n (S from) k rows
  end.

(** The rows of an input up to its first error, and whether there is one. *)
Fixpoint rows_of (input : list (item A)) : list A :=
  match input with
  | [] => []
  | Rows b :: input => b ++ rows_of input
  | Fail :: _ => []
  end.
Definition fails (input : list (item A)) : bool := existsb (fun x => match x with Fail => true | _ => false end) input.

(** What reader [k] was given of input [i]. *)
Definition given (w : world A) (i k : nat) : list (message A) :=
  match w_chans w !! k with
  | Some c => omap (fun x : nat * message A => if (x.1 =? i)%nat then Some x.2 else None) (c_got c)
  | None => []
  end.
Definition message_rows (m : message A) : list A := match m with Batch b => b | Error => [] end.
(** All rows that reader [k] was given. *)
Definition all_given (w : world A) (k : nat) : list A :=
  match w_chans w !! k with Some c => flat_map (fun x => message_rows x.2) (c_got c) | None => [] end.
End spec.
