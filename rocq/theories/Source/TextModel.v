(** Reading and writing text files. *)
From Coq Require Import NArith.
From stdpp Require Import prelude list.
From Verif Require Import Source.LossyModel.
#[local] Open Scope N_scope.

(** RecordDecoder (crates/sail-data-source/src/formats/text/reader.rs:286-330). The buffer with its offsets
    is the list of rows; line_number, which only serves error messages, is todo out. *)
Record decoder := Decoder { d_rows : list (list N); d_partial : list N }.
Definition decoder_new : decoder := Decoder [] [].

(** is_line_end (text/reader.rs:360-378) at the byte [b] followed by [rest]: the number of bytes of the line
    end, 0 if there is none. *)
Definition is_line_end (line_sep : option N) (b : N) (rest : list N) : nat :=
  match line_sep with
  | Some sep => if b =? sep then 1%nat else 0%nat
  | None =>
      if b =? 13 then match rest with c :: _ => if c =? 10 then 2%nat else 1%nat | [] => 1%nat end
      else if b =? 10 then 1%nat else 0%nat
  end.

(** The search for the next line end (text/reader.rs:385-393, and the same in the loop of 428-474): the line
    and the bytes after its end. *)
Fixpoint find_end (line_sep : option N) (input : list N) : option (list N * list N) :=
  match input with
  | [] => None
  | b :: rest =>
      match is_line_end line_sep b rest with
      | O =>
          match find_end line_sep rest with
          | Some (line, after) => Some (b :: line, after)
          | None => None
          end
      | skip => Some ([], drop skip input)
      end
  end.

(** The main loop of RecordDecoder::decode (text/reader.rs:425-481): at most [todo] rows; gives the rows, the
    partial line and the bytes not read. *)
Fixpoint decode_loop (line_sep : option N) (todo : nat) (input : list N) : list (list N) * list N * list N :=
  match todo with
  | O => ([], [], input)
  | S todo =>
      match find_end line_sep input with
      | Some (line, after) =>
          let '(rows, partial, rest) := decode_loop line_sep todo after in (line :: rows, partial, rest)
      | None => ([], input, [])
      end
  end.

(** RecordDecoder::decode (text/reader.rs:335-484): the new state and the bytes not read. *)
Definition record_decode (line_sep : option N) (whole_text : bool) (d : decoder) (input : list N) (to_read : nat)
    : decoder * list N :=
  match to_read with
  | O => (d, input)
  | S todo =>
      if whole_text then
        (Decoder (match d_rows d with
                  | [] => match input with [] => [] | _ => [input] end
                  | data :: _ => [data ++ input]
                  end) (d_partial d), [])
      else match d_partial d, input with
      | _ :: _, _ :: _ =>
          match find_end line_sep input with
          | Some (line, after) =>
              let '(rows, partial, rest) := decode_loop line_sep todo after in
              (Decoder (d_rows d ++ [d_partial d ++ line] ++ rows) partial, rest)
          | None => (Decoder (d_rows d) (d_partial d ++ input), [])
          end
      | p, _ =>
          let '(rows, partial, rest) := decode_loop line_sep to_read input in
          (Decoder (d_rows d ++ rows) (p ++ partial), rest)
      end
  end.

(** Decoder::decode and capacity (text/reader.rs:131-145 and 165-167); Sail sets no bounds, so nothing is
    skipped and there is no last line. *)
Definition capacity (batch_size : nat) (d : decoder) : nat := batch_size - length (d_rows d).
Definition decode (line_sep : option N) (whole_text : bool) (batch_size : nat) (d : decoder) (input : list N)
    : decoder * list N :=
  record_decode line_sep whole_text d input (batch_size - length (d_rows d)).

(** Decoder::flush and RecordDecoder::flush (text/reader.rs:153-163 and 500-540): the batch, if there are
    rows; [None] is the error for bytes that are not UTF-8. The check is made on all rows put together. *)
Definition flush (d : decoder) : option (option (list (list N))) :=
  match d_rows d, d_partial d with
  | [], [] => Some None
  | rows, partial =>
      let rows := rows ++ match partial with [] => [] | _ => [partial] end in
      if from_utf8_ok (concat rows) then Some (Some rows) else None
  end.

(** BufReader::read (text/reader.rs:70-82) and DataFusion's DecoderDeserializer: the bytes come in chunks; a
    batch is handed out when it is full or, at the end of the file, when there are rows todo. [fuel] bounds the
    calls of decode for one chunk. *)
Fixpoint read_chunk (line_sep : option N) (whole_text : bool) (batch_size fuel : nat) (d : decoder) (chunk : list N)
    : option (list (list (list N)) * decoder) :=
  match fuel, chunk with
  | S fuel, _ :: _ =>
      let '(d, rest) := decode line_sep whole_text batch_size d chunk in
      if (length rest =? length chunk)%nat || (capacity batch_size d =? 0)%nat then
        match flush d with
        | None => None
        | Some batch =>
            match read_chunk line_sep whole_text batch_size fuel decoder_new rest with
            | None => None
            | Some (batches, d) => Some (option_list batch ++ batches, d)
            end
        end
      else read_chunk line_sep whole_text batch_size fuel d rest
  | _, _ => Some ([], d)
  end.
Fixpoint read_chunks (line_sep : option N) (whole_text : bool) (batch_size : nat) (d : decoder) (chunks : list (list N))
    : option (list (list (list N))) :=
  match chunks with
  | [] =>
      (* the empty input at the end of the file *)
      let '(d, _) := decode line_sep whole_text batch_size d [] in
      match flush d with
      | None => None
      | Some batch => Some (option_list batch)
      end
  | chunk :: chunks =>
      match read_chunk line_sep whole_text batch_size (length chunk) d chunk with
      | None => None
      | Some (batches, d) =>
          match read_chunks line_sep whole_text batch_size d chunks with
          | None => None
          | Some rest => Some (batches ++ rest)
          end
      end
  end.
Definition read_text line_sep whole_text batch_size chunks :=
  read_chunks line_sep whole_text batch_size decoder_new chunks.

(** TextWriter::write (text/writer.rs:67-101): the value, nothing if it is NULL, and the separator. The
    intermediate buffer keeps the order and is todo out. *)
Definition write_text (line_sep : N) (rows : list (option (list N))) : list N :=
  concat ((fun v => from_option id [] v ++ [line_sep]) <$> rows).

(** find_first_newline of DataFusion (datafusion-datasource 54.1, mod.rs), which is not in the repository: the
    distance of the first [newline] from the beginning of the bytes, or their number if there is none. *)
Fixpoint find_first_newline (newline : N) (bytes : list N) : nat :=
  match bytes with
  | [] => 0%nat
  | b :: bytes => if b =? newline then 0%nat else S (find_first_newline newline bytes)
  end.

(** TextOpener::open (text/source.rs:191-219) with DataFusion's calculate_range for the bytes from [start] to
    [stop]: the bytes that are read for this range, [None] if there is nothing to read. The object store cuts
    a range that goes beyond the end of the file. *)
Definition range_bytes (line_sep : option N) (file : list N) (start stop : nat) : option (list N) :=
  let newline := match line_sep with Some sep => sep | None => 10 end in
  let start_delta := if (start =? 0)%nat then 0%nat else find_first_newline newline (drop (start - 1) file) in
  if (stop <? start + start_delta)%nat then None
  else
    let end_delta := if (stop =? length file)%nat then 0%nat else find_first_newline newline (drop (stop - 1) file) in
    let from := (start + start_delta)%nat in
    let to := (stop + end_delta)%nat in
    if (from =? to)%nat then None else Some (take (to - from) (drop from file)).
