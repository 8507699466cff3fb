(** C75: a text file is read as its lines, however its bytes arrive.
    C77: ranges of a text file together give every line once; what is written is read back. *)
From Coq Require Import NArith Lia.
From stdpp Require Import prelude list.
From Verif Require Import Source.Utf8Spec Source.LossyModel Source.LossyProofs Source.TextSpec Source.TextModel Source.TextProofs Source.TextRangeProofs.
#[local] Open Scope N_scope.

(** Every file has exactly one list of lines. *)
Theorem C75_spec_unique sep file : exists rows, lines sep file rows /\ forall rows', lines sep file rows' -> rows' = rows.
Proof.
  destruct (lines_total sep file) as [rows H]. exists rows. split; [done|]. intros rows' H'. by eapply lines_fun.
Qed.
Print Assumptions C75_spec_unique.

(** With a line separator: for every way of cutting the file into chunks and every batch size, the batches
    hold the lines of the file in order, all batches but the last are full, and the read succeeds if the lines
    are UTF-8. *)
Theorem C75_lines sep batch_size chunks rows :
  (0 < batch_size)%nat -> lines (Some sep) (concat chunks) rows ->
  exists batches, concat batches = rows /\ well_batched batch_size batches /\
    (Forall utf8 rows -> read_text (Some sep) false batch_size chunks = Some batches) /\
    (forall r, read_text (Some sep) false batch_size chunks = Some r -> r = batches).
Proof. intros Hn H. by apply read_text_ok. Qed.
Print Assumptions C75_lines.

(** Without a separator, the same as long as no chunk ends between CR and LF. What is missing: chunks that do,
    see the next theorem. *)
Theorem C75_crlf_partial batch_size chunks rows :
  (0 < batch_size)%nat -> well_cut None chunks -> lines None (concat chunks) rows ->
  exists batches, concat batches = rows /\ well_batched batch_size batches /\
    (Forall utf8 rows -> read_text None false batch_size chunks = Some batches) /\
    (forall r, read_text None false batch_size chunks = Some r -> r = batches).
Proof. intros Hn Hcut H. by apply read_text_ok. Qed.
Print Assumptions C75_crlf_partial.

(** A chunk boundary between CR and LF adds an empty row: the rows of a file depend on how it arrives. *)
Theorem C75_crlf_refuted : exists chunks1 chunks2 rows1 rows2,
  concat chunks1 = concat chunks2 /\
  read_text None false 10 chunks1 = Some [rows1] /\ read_text None false 10 chunks2 = Some [rows2] /\ rows1 <> rows2.
Proof.
  exists [[97; CR; LF; 98]], [[97; CR]; [LF; 98]], [[97]; [98]], [[97]; []; [98]].
  split_and!; [done|by vm_compute|by vm_compute|done].
Qed.
Print Assumptions C75_crlf_refuted.

(** The rows handed out are not always UTF-8: only the rows of a batch put together are checked. *)
Theorem C75_utf8_refuted : exists sep chunks batches,
  read_text sep false 10 chunks = Some batches /\ ~ Forall utf8 (concat batches).
Proof.
  exists None, [[0xc3; LF; 0xa9; LF]], [[[0xc3]; [0xa9]]]. split; [by vm_compute|].
  intros H. apply Forall_cons in H as [H _]. apply from_utf8_spec in H. done.
Qed.
Print Assumptions C75_utf8_refuted.

(** Reading whole files with batches of two rows or more: one row with the content of the file. *)
Theorem C75_whole sep batch_size chunks :
  (2 <= batch_size)%nat -> utf8 (concat chunks) ->
  read_text sep true batch_size chunks = Some (match concat chunks with [] => [] | file => [[file]] end).
Proof.
  intros Hn Hu. unfold read_text. rewrite read_chunks_eq. cbn zeta.
  change decoder_new with (whole []). rewrite (whole_chunks sep batch_size [] chunks Hn). cbn [app].
  destruct (concat chunks) as [|b file]; [done|].
  rewrite batches_good; [done|]. cbn [concat app]. by repeat constructor.
Qed.
Print Assumptions C75_whole.

(** With batches of one row, a whole file becomes one row for each chunk. *)
Theorem C75_whole_refuted : exists sep chunks,
  read_text sep true 1 chunks = Some [[[97]]; [[98]]] /\ concat chunks = [97; 98].
Proof. exists None, [[97]; [98]]. split; [by vm_compute|done]. Qed.
Print Assumptions C75_whole_refuted.

(** "ab", "", "é" with the separator ";", arriving in pieces that cut lines and characters, batches of two. *)
Example lines_ex : lines (Some 59) [97; 98; 59; 59; 0xc3; 0xa9] [[97; 98]; []; [0xc3; 0xa9]].
Proof.
  apply (lines_cons _ [97; 98] [59]); [|done|]; [repeat constructor; cbn; lia|].
  apply (lines_cons _ [] [59]); [constructor|done|]. apply lines_last; [done|]. repeat constructor; cbn; lia.
Qed.
Example read_ex :
  read_text (Some 59) false 2 [[97]; [98; 59]; []; [59; 0xc3]; [0xa9]] = Some [[[97; 98]; []]; [[0xc3; 0xa9]]].
Proof. by vm_compute. Qed.
Example crlf_ex : well_cut None [[97; CR; LF]; [98]] /\ lines None [97; CR; LF; 98] [[97]; [98]].
Proof.
  split.
  - intros before after He [Hl Hh].
    destruct before as [|x [|y [|]]]; cbn in He; simplify_eq; cbn in *; try done.
  - apply (lines_cons _ [97] [CR; LF] [98]); [repeat constructor; unfold ends_line, CR, LF; lia|by left|].
    apply lines_last; [done|]. repeat constructor; unfold ends_line, CR, LF; lia.
Qed.

(** The ranges of a file, each read on its own from chunks of its bytes, give together the lines of the file,
    each once and in order. *)
Theorem C77_ranges sep batch_size file ranges chunkss rows :
  (0 < batch_size)%nat -> covers (length file) 0 ranges ->
  Forall2 (fun (ab : nat * nat) chunks => well_cut sep chunks /\
    concat chunks = from_option id [] (range_bytes sep file ab.1 ab.2)) ranges chunkss ->
  lines sep file rows -> Forall utf8 rows ->
  exists batchess, Forall2 (fun chunks batches => read_text sep false batch_size chunks = Some batches) chunkss batchess /\
    concat (concat batchess) = rows.
Proof.
  intros Hn Hc Hch Hrows Hu.
  assert (exists rowss, Forall2 (fun ab rows => lines sep (piece sep file ab) rows) ranges rowss) as [rowss Hrowss].
  { clear. induction ranges as [|ab ranges [rowss IH]]; [exists []; constructor|].
    destruct (lines_total sep (piece sep file ab)) as [r Hr]. exists (r :: rowss). by constructor. }
  assert (concat rowss = rows) as Hcat.
  { eapply lines_fun; [|exact Hrows]. pose proof (ranges_lines sep file 0 ranges rowss Hc Hrowss) as H.
    exact H. }
  assert (Forall (Forall utf8) rowss) as Hus.
  { subst rows. clear - Hu. induction rowss as [|r rowss IH]; [constructor|]. cbn [concat] in Hu.
    apply Forall_app in Hu as [? ?]. constructor; [done|by apply IH]. }
  clear Hrows Hu Hc. rewrite <- Hcat. clear Hcat. revert rowss Hrowss Hus.
  induction Hch as [|ab chunks ranges chunkss [Hcut Hcat] Hch IH]; intros rowss Hrowss Hus.
  - apply Forall2_nil_inv_l in Hrowss as ->. exists []. split; [constructor|done].
  - apply Forall2_cons_inv_l in Hrowss as (r & rowss' & Hr & Hrowss & ->). apply Forall_cons in Hus as [Hu Hus].
    destruct (IH rowss' Hrowss Hus) as (bss & Hbss & He).
    destruct (read_text_ok sep batch_size chunks r Hn Hcut) as (bs & Hbs & _ & Hread & _).
    { rewrite Hcat. exact Hr. }
    exists (bs :: bss). split; [constructor; [by apply Hread|done]|]. cbn [concat]. by rewrite concat_app, Hbs, He.
Qed.
Print Assumptions C77_ranges.

(** A file to be read as a whole is cut into ranges just the same, and gives a row for each of them. *)
Theorem C77_whole_refuted : exists file ranges, covers (length file) 0 ranges /\ Forall (fun b => b < 0x80) file /\
  ((fun ab : nat * nat => read_text None true 10 [from_option id [] (range_bytes None file ab.1 ab.2)]) <$> ranges)
    = [Some [[[97; LF]]]; Some [[[98]]]].
Proof.
  exists [97; LF; 98], [(0, 2)%nat; (2, 3)%nat]. split_and!; [|repeat constructor; unfold LF; lia|by vm_compute].
  constructor; [lia|cbn; lia|]. constructor; [lia|cbn; lia|]. constructor.
Qed.
Print Assumptions C77_whole_refuted.

(** What is written with a separator is read back with it, if the values do not contain it; NULL becomes the
    empty string. *)
Theorem C77_round_trip c batch_size values chunks :
  (0 < batch_size)%nat -> concat chunks = write_text c values ->
  Forall (fun v => utf8 (from_option id [] v) /\ c ∉ from_option id [] v) values ->
  exists batches, read_text (Some c) false batch_size chunks = Some batches /\
    concat batches = from_option id [] <$> values.
Proof.
  intros Hn Hc Hv. destruct (read_text_ok (Some c) batch_size chunks (from_option id [] <$> values) Hn)
    as (bs & Hbs & _ & Hread & _); [done| |].
  - rewrite Hc. apply write_lines; [done|done|]. eapply Forall_impl; [exact Hv|]. cbn. intros v [_ Hnot].
    apply Forall_forall. intros b Hb ->. done.
  - exists bs. split; [|done]. apply Hread. apply Forall_fmap. eapply Forall_impl; [exact Hv|]. by intros v [? _].
Qed.
Print Assumptions C77_round_trip.

(** The same with the defaults of writing and reading, if the values contain neither CR nor LF. *)
Theorem C77_round_trip_default batch_size values chunks :
  (0 < batch_size)%nat -> concat chunks = write_text LF values ->
  Forall (fun v => utf8 (from_option id [] v) /\ CR ∉ from_option id [] v /\ LF ∉ from_option id [] v) values ->
  exists batches, read_text None false batch_size chunks = Some batches /\
    concat batches = from_option id [] <$> values.
Proof.
  intros Hn Hc Hv. 
  assert (CR ∉ concat chunks) as Hcr.
  { rewrite Hc. unfold write_text. clear Hc. induction Hv as [|v values (_ & Hv & _) Hvs IH]; cbn [fmap list_fmap concat].
    - apply not_elem_of_nil.
    - rewrite !elem_of_app, elem_of_list_singleton. intros [[?|?]|?]; done. }
  destruct (read_text_ok None batch_size chunks (from_option id [] <$> values) Hn)
    as (bs & Hbs & _ & Hread & _).
  - intros before after He [Hl _]. apply Hcr. rewrite He, concat_app, elem_of_app. left.
    by apply last_Some_elem_of.
  - rewrite Hc. apply write_lines; [right; by left|done|]. eapply Forall_impl; [exact Hv|]. cbn. intros v (_ & H1 & H2).
    apply Forall_forall. intros b Hb [-> | ->]; done.
  - exists bs. split; [|done]. apply Hread. apply Forall_fmap. eapply Forall_impl; [exact Hv|]. by intros v [? _].
Qed.
Print Assumptions C77_round_trip_default.

(** Three ranges of "ab\ncd\n\nef": the second begins within a line, the third just after a separator. *)
Definition file_ex : list N := [97; 98; LF; 99; 100; LF; LF; 101; 102].
Example covers_ex : covers (length file_ex) 0 [(0, 4)%nat; (4, 6)%nat; (6, 9)%nat] /\
  (from_option id [] ∘ uncurry (range_bytes None file_ex)) <$> [(0, 4)%nat; (4, 6)%nat; (6, 9)%nat]
    = [[97; 98; LF; 99; 100; LF]; []; [LF; 101; 102]].
Proof.
  split; [|by vm_compute].
  constructor; [lia|cbn; lia|]. constructor; [lia|cbn; lia|]. constructor; [lia|cbn; lia|]. constructor.
Qed.
Example write_ex : write_text LF [Some [97]; None; Some []; Some [0xc3; 0xa9]] = [97; LF; LF; LF; 0xc3; 0xa9; LF].
Proof. by vm_compute. Qed.
(** A value with the separator in it comes back as two. *)
Example separator_ex : read_text None false 10 [write_text LF [Some [97; LF; 98]]] = Some [[[97]; [98]]].
Proof. by vm_compute. Qed.
