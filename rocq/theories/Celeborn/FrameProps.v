(** The properties of the framing of shuffle data. *)
From Coq Require Import NArith ZArith ZifyN Ascii String Lia.
From stdpp Require Import prelude list.
From Verif.Lib Require Import Text.
From Verif.Delta Require Import DvModel DvProofs.
From Verif.Sql Require Import LexModel.
From Verif.Celeborn Require Import FrameModel FrameSpec FrameProofs.
Local Open Scope N_scope.

(** A format for the examples: a run of equal bytes becomes its length and the byte; everything else
    grows by one byte and is therefore stored as it is. *)
Definition example_deflate (d : text) : text :=
  match d with
  | x :: t => if decide (Forall (fun y => y = x) t /\ N.of_nat (length d) < 256)
              then [N.of_nat (length d); x] else 0 :: d
  | [] => [0]
  end.
Definition example_inflate (d : text) (n : nat) : option text :=
  match d with
  | 0 :: t => Some t
  | [k; x] => Some (replicate (N.to_nat k) x)
  | _ => None
  end.
Definition example_format : format :=
  Format (str "RUNS") 0x20 example_deflate example_inflate crc32.
Lemma example_format_sound : sound_format example_format.
Proof.
  split; [|done|].
  - intros [|x t]; [done|]. cbn [inflate deflate example_format]. unfold example_deflate.
    destruct (decide _) as [[Hall Hl]|_]; [|done]. unfold example_inflate.
    assert (E : x :: t = replicate (length (x :: t)) x).
    { cbn [length replicate]. f_equal. clear Hl. induction Hall as [|y t -> _ IH]; [done|]. cbn. by f_equal. }
    destruct (N.of_nat (length (x :: t))) as [|p] eqn:Ek; [cbn in Ek; lia|].
    rewrite E. do 2 f_equal. rewrite <- Ek. lia.
  - intros d Hd. cbn. by apply crc32_bound.
Qed.
(** Batches of the examples are their own streams. *)
Definition example_of_ipc (s : text) : option (list text) := Some [s].

(** C68: the batches written to a file, by whatever tasks and with whatever codec, are the batches
    read from it, in order and without an error, however the file is cut into chunks on the way. *)
Theorem C68_written_is_read : forall {B} (ipc : B -> text) of_ipc c bs frs chunks,
  sound_ipc ipc of_ipc -> sound_codec c -> written ipc c bs frs ->
  concat chunks = concat frs ->
  read_batches of_ipc c chunks = (bs, true).
Proof. intros B ipc of_ipc c bs frs chunks [H1 H2]. by apply read_written. Qed.
Print Assumptions C68_written_is_read.

Definition example_frames : list text :=
  match write_batch (fun b => b) (Some example_format) 3 0 7 (replicate 40 65),
        write_batch (fun b => b) (Some example_format) 5 1 0 (str "some rows") with
  | Some a, Some b => [a; b]
  | _, _ => []
  end.
(** In pieces of five bytes. *)
Fixpoint pieces (fuel : nat) (s : text) : list text :=
  match fuel, s with
  | S fuel, _ :: _ => take 5 s :: pieces fuel (drop 5 s)
  | _, _ => []
  end.
Example C68_written_is_read_example :
  length example_frames = 2%nat /\
  length (pieces 100 (concat example_frames)) = 25%nat /\
  concat (pieces 100 (concat example_frames)) = concat example_frames /\
  read_batches example_of_ipc (Some example_format) (pieces 100 (concat example_frames)) =
    ([replicate 40 65; str "some rows"], true).
Proof. by vm_compute. Qed.

(** C68: what is read depends on the bytes of the file only, whatever they are. *)
Theorem C68_chunks_do_not_matter : forall {B} (of_ipc : text -> option (list B)) c chunks1 chunks2,
  concat chunks1 = concat chunks2 ->
  read_batches of_ipc c chunks1 = read_batches of_ipc c chunks2.
Proof.
  intros B of_ipc c chunks1 chunks2 H. unfold read_batches, read_stream. by rewrite !read_chunks_whole, H.
Qed.
Print Assumptions C68_chunks_do_not_matter.

(** C68: of a file that was cut off, the first batches are read, never part of a batch or another
    one.  The end is reported unless the file was cut between two batches; the full property would
    have it reported always ([C68_cut_between_batches_refuted]). *)
Theorem C68_cut_off_partial : forall {B} (ipc : B -> text) of_ipc c bs frs chunks n,
  sound_ipc ipc of_ipc -> sound_codec c -> written ipc c bs frs ->
  (n <= length (concat frs))%nat -> concat chunks = take n (concat frs) ->
  exists k ok, read_batches of_ipc c chunks = (take k bs, ok) /\
    (ok = true -> take n (concat frs) = concat (take k frs)).
Proof. intros B ipc of_ipc c bs frs chunks n [H1 H2] Hc Hw Hn E. by eapply read_written_truncated. Qed.
Print Assumptions C68_cut_off_partial.
Example C68_cut_off_example :
  read_batches example_of_ipc (Some example_format) [take 80 (concat example_frames)] =
    ([replicate 40 65], false).
Proof. by vm_compute. Qed.

(** C68: a file cut between two batches is read without an error and without the last batches. *)
Theorem C68_cut_between_batches_refuted :
  exists (bs : list text) frs n,
    written (fun b => b) (Some example_format) bs frs /\
    (n < length (concat frs))%nat /\
    read_batches example_of_ipc (Some example_format) [take n (concat frs)] = (take 1 bs, true) /\
    (1 < length bs)%nat.
Proof.
  exists [replicate 40 65; str "some rows"], example_frames, 77%nat. split_and!; [|by vm_compute; lia|by vm_compute|by cbn; lia].
  constructor; [exists 3, 0, 7; by vm_compute|]. constructor; [exists 5, 1, 0; by vm_compute|constructor].
Qed.
Print Assumptions C68_cut_between_batches_refuted.

(** C68: a block that is accepted has the declared lengths, and its data have the declared
    checksum. *)
Theorem C68_accepted_blocks_are_whole : forall f data out,
  Forall is_byte data -> decompress_block f data = Some out ->
  exists method payload, data = block f method payload out /\
    (method = method_raw /\ payload = out \/
     method = method_compressed f /\ inflate f payload (length out) = Some out).
Proof. exact decompress_inv. Qed.
Print Assumptions C68_accepted_blocks_are_whole.

(** C68: a block with a byte of uncompressed data changed is refused, where the checksum is CRC32. *)
Theorem C68_changed_byte_noticed : forall f data payload1 b c payload2,
  (forall d, checksum f d = crc32 d) -> method_compressed f <> method_raw ->
  Forall is_byte (payload1 ++ b :: payload2) -> is_byte c -> b <> c ->
  data = block f method_raw (payload1 ++ c :: payload2) (payload1 ++ b :: payload2) ->
  N.of_nat (length data) < 2 ^ 32 ->
  decompress_block f data = None.
Proof. exact damaged_payload. Qed.
Print Assumptions C68_changed_byte_noticed.
Example C68_blocks_example :
  let data := block example_format method_raw (str "some rows") (str "some rows") in
  compress_block example_format (str "some rows") = Some data /\
  decompress_block example_format data = Some (str "some rows") /\
  decompress_block example_format (block example_format method_raw (str "some rowz") (str "some rows")) = None.
Proof. by vm_compute. Qed.

(** C68: the text of a worker is read back as the worker, also if the host has colons (IPv6). *)
Theorem C68_worker_roundtrip : forall w,
  w_host w <> [] -> w_rpc w < 65536 -> w_push w < 65536 -> w_fetch w < 65536 -> w_replicate w < 65536 ->
  parse_worker (print_worker w) = Some w.
Proof. exact parse_print_worker. Qed.
Print Assumptions C68_worker_roundtrip.
(** C68: no text is read as a worker without a host or with a port that is out of range. *)
Theorem C68_worker_valid : forall s w,
  parse_worker s = Some w ->
  w_host w <> [] /\ w_rpc w < 65536 /\ w_push w < 65536 /\ w_fetch w < 65536 /\ w_replicate w < 65536.
Proof. exact parse_worker_valid. Qed.
Print Assumptions C68_worker_valid.
Example C68_worker_example :
  print_worker (Worker (str "fe80::1") 9097 9098 9099 65535) = str "fe80::1:9097:9098:9099:65535" /\
  parse_worker (str "fe80::1:9097:9098:9099:65535") = Some (Worker (str "fe80::1") 9097 9098 9099 65535) /\
  parse_worker (str "host:9097:9098:9099:65536") = None.
Proof. by vm_compute. Qed.

(** C68: the text of a codec is read back as the codec, and only valid levels are read. *)
Theorem C68_codec_roundtrip : forall c,
  (forall level, c = CZstd level -> (-5 <= level <= 22)%Z) -> parse_codec (print_codec c) = Some c.
Proof. exact parse_print_codec. Qed.
Print Assumptions C68_codec_roundtrip.
Theorem C68_codec_valid : forall s level,
  parse_codec s = Some (CZstd level) -> (-5 <= level <= 22)%Z.
Proof. exact parse_codec_valid. Qed.
Print Assumptions C68_codec_valid.
Example C68_codec_example :
  parse_codec (str "zstd(-5)") = Some (CZstd (-5)) /\ print_codec (CZstd (-5)) = str "zstd(-5)" /\
  parse_codec (str "zstd(23)") = None /\ parse_codec (str "zstd(--5)") = None.
Proof. by vm_compute. Qed.
