(** What is assumed of compressors and of Arrow, and what a block looks like. *)
From Coq Require Import NArith ZArith Lia.
From stdpp Require Import prelude list.
From Verif.Lib Require Import Text.
From Verif.Delta Require Import DvModel.
From Verif.Celeborn Require Import FrameModel.
Local Open Scope N_scope.

(** What the compressors promise. *)
Record sound_format (f : format) : Prop := SoundFormat {
  sf_inflate : forall d, inflate f (deflate f d) (length d) = Some d;
  sf_methods : method_compressed f <> method_raw;
  sf_checksum : forall d, Forall is_byte d -> checksum f d < 2 ^ 32;
}.
Definition sound_codec (c : option format) : Prop :=
  match c with None => True | Some f => sound_format f end.

(** What Arrow promises: a stream written with one batch is read as that batch. *)
Record sound_ipc {B} (ipc : B -> text) (of_ipc : text -> option (list B)) : Prop := SoundIpc {
  si_read : forall b, of_ipc (ipc b) = Some [b];
  si_bytes : forall b, Forall is_byte (ipc b);
}.

(** A block: magic, method, length of the payload, length and checksum of the data, payload. *)
Definition block (f : format) (method : N) (payload out : text) : text :=
  magic f ++ [method] ++ le_bytes 4 (N.of_nat (length payload)) ++
  le_bytes 4 (N.of_nat (length out)) ++ le_bytes 4 (checksum f out) ++ payload.

(** [frs] are the pushes of the batches [bs], by whatever attempts of whatever tasks. *)
Definition written {B} (ipc : B -> text) (c : option format) (bs : list B) (frs : list text) : Prop :=
  Forall2 (fun b fr => exists map_id attempt_id batch_id,
    write_batch ipc c map_id attempt_id batch_id b = Some fr) bs frs.
