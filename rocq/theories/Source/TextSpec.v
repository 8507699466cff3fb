(** The lines of a text file. *)
From Coq Require Import NArith.
From stdpp Require Import prelude list.
#[local] Open Scope N_scope.

Definition CR : N := 13.
Definition LF : N := 10.

(** The bytes that end a line: the separator if there is one, otherwise CR and LF. *)
Definition ends_line (sep : option N) (b : N) : Prop :=
  match sep with Some s => b = s | None => b = CR \/ b = LF end.
(** [t] is a whole line terminator when [after] follows it: CR LF is one terminator. *)
Definition terminator (sep : option N) (t after : list N) : Prop :=
  match sep with
  | Some s => t = [s]
  | None => t = [CR; LF] \/ t = [LF] \/ (t = [CR] /\ head after <> Some LF)
  end.

(** The lines of a file. A last line without terminator counts unless it is empty. *)
Inductive lines (sep : option N) : list N -> list (list N) -> Prop :=
  | lines_nil : lines sep [] []
  | lines_last l : l <> [] -> Forall (fun b => ~ ends_line sep b) l -> lines sep l [l]
  | lines_cons l t after rows :
      Forall (fun b => ~ ends_line sep b) l -> terminator sep t after -> lines sep after rows ->
      lines sep (l ++ t ++ after) (l :: rows).

(** No chunk boundary falls between a CR and its LF. *)
Definition well_cut (sep : option N) (chunks : list (list N)) : Prop :=
  match sep with
  | Some _ => True
  | None => forall before after, chunks = before ++ after ->
      ~ (last (concat before) = Some CR /\ head (concat after) = Some LF)
  end.

(** Batches of at most [n] rows, none empty, all full but the last. *)
Definition well_batched {A} (n : nat) (batches : list (list A)) : Prop :=
  Forall (fun b => 0 < length b <= n)%nat batches /\
  forall before b after, batches = before ++ b :: after -> after <> [] -> length b = n.

(** Byte ranges that follow one another from [a] to the end of a file of [size] bytes. *)
Inductive covers (size : nat) : nat -> list (nat * nat) -> Prop :=
  | covers_end : covers size size []
  | covers_cons a b ranges : (a < b)%nat -> (b <= size)%nat -> covers size b ranges -> covers size a ((a, b) :: ranges).
