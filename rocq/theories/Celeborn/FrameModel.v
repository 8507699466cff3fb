(** How record batches travel through the Celeborn files: frames, blocks, batches and chunks; and the
    texts of worker identities and codecs. *)
From Coq Require Import NArith ZArith ZifyN Ascii String Lia.
From stdpp Require Import prelude list.
From Verif.Lib Require Import Text.
From Verif.Delta Require Import DvModel.
From Verif.Sql Require Import LexModel.
Local Open Scope N_scope.

(** u32::to_le_bytes and from_le_bytes *)
Definition le_bytes (k : nat) (n : N) : text := rev (be_bytes k n).
Definition le_value (s : text) : N := be_value (rev s).

(** A block format: magic, the number of the compressed method, compressor, decompressor (of bytes
    and the original length) and checksum.  crates/sail-celeborn/src/worker/client.rs:351-410 and
    412-446 write two of them; the compressors (lz4_flex, zstd) and xxHash32 are parameters. *)
Record format := Format {
  magic : text;
  method_compressed : N;
  deflate : text -> text;
  inflate : text -> nat -> option text;
  checksum : text -> N;
}.
Definition method_raw : N := 0x10.

(** client.rs:351-410 [compress] of one format *)
Definition compress_block (f : format) (data : text) : option text :=
  let compressed := deflate f data in
  let '(method, payload) :=
    if decide (length data <= length compressed)%nat then (method_raw, data)
    else (method_compressed f, compressed) in
  if decide (2 ^ 32 <= N.of_nat (length payload)) then None
  else if decide (2 ^ 32 <= N.of_nat (length data)) then None
  else Some (magic f ++ [method] ++ le_bytes 4 (N.of_nat (length payload)) ++
             le_bytes 4 (N.of_nat (length data)) ++ le_bytes 4 (checksum f data) ++ payload).

(** client.rs:448-513 [decompress_block] *)
Definition decompress_block (f : format) (data : text) : option text :=
  let m := length (magic f) in
  let header := (m + 13)%nat in
  if decide ((length data < header)%nat \/ take m data <> magic f) then None
  else
    let method := nth m data 0 in
    let compressed_len := N.to_nat (le_value (take 4 (drop (m + 1) data))) in
    let original_len := N.to_nat (le_value (take 4 (drop (m + 5) data))) in
    let expected := le_value (take 4 (drop (m + 9) data)) in
    if decide ((header + compressed_len)%nat <> length data) then None
    else
      match
        (if decide (method = method_raw) then
           if decide (compressed_len <> original_len) then None else Some (drop header data)
         else if decide (method = method_compressed f) then inflate f (drop header data) original_len
         else None)
      with
      | Some output =>
          if decide (length output <> original_len \/ checksum f output <> expected) then None
          else Some output
      | None => None
      end.

(** No compression, or one of the two formats. *)
Definition compress (c : option format) (data : text) : option text :=
  match c with None => Some data | Some f => compress_block f data end.
Definition decompress (c : option format) (data : text) : option text :=
  match c with None => Some data | Some f => decompress_block f data end.

(** transport.rs:262-288 [push_data]: what the worker appends to the file *)
Definition push_bytes (map_id attempt_id batch_id : N) (data : text) : option text :=
  if decide (2 ^ 31 <= N.of_nat (length data)) then None
  else Some (be_bytes 4 map_id ++ be_bytes 4 attempt_id ++ be_bytes 4 batch_id ++
             be_bytes 4 (N.of_nat (length data)) ++ data).

(** client.rs:515-540 [take_batch]: an error, more bytes needed, or a batch and the rest *)
Inductive taken := TakeErr | TakeMore | TakeBatch (batch rest : text).
Definition take_batch (buffered : text) : taken :=
  if decide (length buffered < 16)%nat then TakeMore
  else
    let len := be_value (take 4 (drop 12 buffered)) in
    if decide (2 ^ 31 <= len) then TakeErr
    else
      let stop := (16 + N.to_nat len)%nat in
      if decide (length buffered < stop)%nat then TakeMore
      else TakeBatch (drop 16 (take stop buffered)) (drop stop buffered).

(** client.rs:242-284 [read_partition_stream]: the batches that come out of the buffer, and what is
    left ([None] after an error); a batch is decompressed before the next one is taken.  The fuel is
    never used up: each batch takes 16 bytes at least. *)
Fixpoint drain (fuel : nat) (c : option format) (buffered : text) : list text * option text :=
  match fuel with
  | O => ([], Some buffered)
  | S fuel =>
    match take_batch buffered with
    | TakeErr => ([], None)
    | TakeMore => ([], Some buffered)
    | TakeBatch batch rest =>
      match decompress c batch with
      | None => ([], None)
      | Some out => let '(outs, remains) := drain fuel c rest in (out :: outs, remains)
      end
    end
  end.
(** The chunks of the file one after the other: the batches returned, and if the stream ends well. *)
Fixpoint read_chunks (c : option format) (buffered : text) (chunks : list text) : list text * bool :=
  let '(outs, remains) := drain (S (length buffered)) c buffered in
  match remains with
  | None => (outs, false)
  | Some rest =>
    match chunks with
    | [] => (outs, bool_decide (rest = []))
    | chunk :: chunks => let '(more, ok) := read_chunks c (rest ++ chunk) chunks in (outs ++ more, ok)
    end
  end.
Definition read_stream (c : option format) (chunks : list text) : list text * bool :=
  read_chunks c [] chunks.

(** Record batches as Arrow IPC streams: [ipc] and [of_ipc] are parameters of what follows. *)
Section ipc.
Context {B : Type} (ipc : B -> text) (of_ipc : text -> option (list B)).
(** crates/sail-execution/src/stream/celeborn/core.rs:180-200 *)
Definition encode_frame (b : B) : option text :=
  if decide (2 ^ 32 <= N.of_nat (length (ipc b))) then None
  else Some (be_bytes 4 (N.of_nat (length (ipc b))) ++ ipc b).
(** core.rs:267-296 [decode_batches]; the fuel is never used up *)
Fixpoint decode_loop (fuel : nat) (data : text) : option (list B) :=
  match fuel with
  | O => Some []
  | S fuel =>
    if decide (data = []) then Some []
    else if decide (length data < 4)%nat then None
    else
      let len := N.to_nat (be_value (take 4 data)) in
      if decide (length (drop 4 data) < len)%nat then None
      else
        match of_ipc (take len (drop 4 data)) with
        | None => None
        | Some bs => option_map (app bs) (decode_loop fuel (drop len (drop 4 data)))
        end
  end.
Definition decode_batches (data : text) : option (list B) := decode_loop (S (length data)) data.
(** What is written for a batch, and what is read from the chunks: the error of a frame ends the
    stream (core.rs:141-163). *)
Definition write_batch (c : option format) (map_id attempt_id batch_id : N) (b : B) : option text :=
  data ← encode_frame b; data ← compress c data; push_bytes map_id attempt_id batch_id data.
Fixpoint decode_all (outs : list text) (ok : bool) : list B * bool :=
  match outs with
  | [] => ([], ok)
  | data :: outs =>
    match decode_batches data with
    | None => ([], false)
    | Some bs => let '(more, ok) := decode_all outs ok in (bs ++ more, ok)
    end
  end.
Definition read_batches (c : option format) (chunks : list text) : list B * bool :=
  let '(outs, ok) := read_stream c chunks in decode_all outs ok.
End ipc.

(** ** Texts *)

(** str::parse for unsigned numbers below a bound: digits with an optional plus sign.  Rust stops at
    the first digit that overflows; the result is the same. *)
Definition parse_nat (bound : N) (s : text) : option N :=
  let s := match s with 43 :: c :: t => c :: t | _ => s end in
  if decide (s = [] \/ forallb is_digit s = false) then None
  else if decide (dec_value s < bound) then Some (dec_value s) else None.
(** str::parse::<i8> *)
Definition parse_i8 (s : text) : option Z :=
  match s with
  | 45 :: t => if decide (head t = Some 43) then None
               else n ← parse_nat 129 t; Some (- Z.of_N n)%Z
  | _ => n ← parse_nat 128 s; Some (Z.of_N n)
  end.
Definition print_z (z : Z) : text :=
  match z with Zneg p => 45 :: decimal (Npos p) | _ => decimal (Z.to_N z) end.

(** str::rsplitn(n, ':'): pieces from the right; the last piece is the rest of the text. *)
Definition rsplit_once (s : text) : option (text * text) :=
  match list_find (fun c => c = 58) (rev s) with
  | Some (i, _) => Some (take (length s - S i) s, drop (length s - i) s)
  | None => None
  end.
Fixpoint rsplitn (n : nat) (s : text) : list text :=
  match n with
  | O => []
  | S O => [s]
  | S n => match rsplit_once s with Some (l, r) => r :: rsplitn n l | None => [s] end
  end.

(** WorkerIdentity and its texts (crates/sail-celeborn/src/common.rs:57-115) *)
Record worker := Worker { w_host : text; w_rpc : N; w_push : N; w_fetch : N; w_replicate : N }.
Definition print_worker (w : worker) : text :=
  w_host w ++ [58] ++ decimal (w_rpc w) ++ [58] ++ decimal (w_push w) ++ [58] ++
  decimal (w_fetch w) ++ [58] ++ decimal (w_replicate w).
Definition parse_port (s : option text) : option N := s ← s; parse_nat 65536 s.
Definition parse_worker (s : text) : option worker :=
  let parts := rsplitn 5 s in
  replicate ← parse_port (parts !! 0%nat);
  fetch ← parse_port (parts !! 1%nat);
  push ← parse_port (parts !! 2%nat);
  rpc ← parse_port (parts !! 3%nat);
  host ← parts !! 4%nat;
  if decide (host = []) then None else Some (Worker host rpc push fetch replicate).

(** CompressionCodec and its texts (common.rs:117-127, 157-200) *)
Inductive codec := CNone | CLz4 | CZstd (level : Z).
Definition print_codec (c : codec) : text :=
  match c with
  | CNone => str "none"
  | CLz4 => str "lz4"
  | CZstd level => str "zstd(" ++ print_z level ++ str ")"
  end.
Definition strip_prefix (pre s : text) : option text :=
  if starts_with s pre then Some (drop (length pre) s) else None.
Definition strip_suffix (suf s : text) : option text :=
  if ends_with s suf then Some (take (length s - length suf) s) else None.
Definition parse_codec (s : text) : option codec :=
  if decide (s = str "none") then Some CNone
  else if decide (s = str "lz4") then Some CLz4
  else
    s ← strip_prefix (str "zstd(") s;
    s ← strip_suffix (str ")") s;
    level ← parse_i8 s;
    if decide (-5 <= level <= 22)%Z then Some (CZstd level) else None.
