(** C76: CSV files that are not valid UTF-8 are repaired, the same however the bytes arrive. *)
From Coq Require Import NArith Lia.
From stdpp Require Import prelude list.
From Verif Require Import Source.Utf8Spec Source.LossyModel Source.LossyProofs.
#[local] Open Scope N_scope.

(** However the file is cut into chunks, and whichever of the two readers handles a chunk, the bytes handed
    out are the file with its malformed units replaced; and there is only one such text. *)
Theorem C76_repaired chunks :
  Forall (fun c : bool * list N => Forall byte_ok c.2) chunks ->
  let file := concat (snd <$> chunks) in
  repaired file (decode_stream [] chunks) /\
  forall o, repaired file o -> o = decode_stream [] chunks.
Proof.
  intros Hc file.
  assert (repaired file (decode_stream [] chunks)) as H.
  { rewrite decode_stream_loop by done. cbn [app]. apply loop_repaired.
    apply Forall_concat, Forall_fmap. done. }
  split; [done|]. intros o Ho. eapply repaired_fun; done.
Qed.
Print Assumptions C76_repaired.

(** The bytes handed out are always UTF-8. *)
Theorem C76_valid chunks :
  Forall (fun c : bool * list N => Forall byte_ok c.2) chunks -> utf8 (decode_stream [] chunks).
Proof. intros Hc. eapply repaired_utf8. by apply C76_repaired. Qed.
Print Assumptions C76_valid.

(** A file that is UTF-8 passes unchanged. *)
Theorem C76_unchanged chunks :
  Forall (fun c : bool * list N => Forall byte_ok c.2) chunks ->
  utf8 (concat (snd <$> chunks)) -> decode_stream [] chunks = concat (snd <$> chunks).
Proof.
  intros Hc (cs & He & Hcs). symmetry. apply C76_repaired; [done|]. rewrite He. clear He.
  induction Hcs; cbn [concat]; by constructor.
Qed.
Print Assumptions C76_unchanged.

(** No ASCII character is lost, added or moved, so the repair changes neither the lines nor the fields. *)
Theorem C76_structure chunks :
  Forall (fun c : bool * list N => Forall byte_ok c.2) chunks ->
  ascii_of (decode_stream [] chunks) = ascii_of (concat (snd <$> chunks)).
Proof. intros Hc. apply repaired_ascii. by apply C76_repaired. Qed.
Print Assumptions C76_structure.

(** The check that lets a chunk pass without looking further accepts exactly UTF-8. *)
Theorem C76_shortcut t : from_utf8_ok t = true <-> utf8 t.
Proof. apply from_utf8_spec. Qed.
Print Assumptions C76_shortcut.

(** "a", half of "é", the other half, a stray 0xff, a comma, a surrogate cut short by a newline. *)
Definition sample : list (bool * list N) :=
  [(true, [97; 0xc3]); (false, [0xa9; 0xff; 44]); (true, []); (true, [0xed; 0xa0]); (true, [10; 0xf0; 0x9f])].
Example sample_ok :
  Forall (fun c : bool * list N => Forall byte_ok c.2) sample /\
  decode_stream [] sample = [97; 0xc3; 0xa9] ++ replacement ++ [44] ++ replacement ++ [10] ++ replacement.
Proof. split; [|by vm_compute]. unfold sample, byte_ok. repeat (constructor; cbn [snd]); lia. Qed.
Example sample_utf8 : utf8 (concat (snd <$> [(true, [97; 0xc3]); (true, [0xa9])])).
Proof.
  exists [[97]; [0xc3; 0xa9]]. split; [done|].
  repeat constructor; cbn; unfold continuation; lia.
Qed.
