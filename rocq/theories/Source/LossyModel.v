(** Reading CSV files that are not valid UTF-8. *)
From Coq Require Import NArith.
From stdpp Require Import prelude list.
#[local] Open Scope N_scope.

(** is_continuation (crates/sail-data-source/src/formats/csv/decoder.rs:18-20). *)
Definition is_continuation (b : N) : bool := N.land b 0xc0 =? 0x80.

(** Utf8Unit and classify_utf8_unit (csv/decoder.rs:11-16 and 23-110). The input is not empty. *)
Inductive unit8 := Valid (n : nat) | Malformed (n : nat) | Incomplete.
Definition classify_utf8_unit (first : N) (rest : list N) (end_of_input : bool) : unit8 :=
  let short n := if end_of_input then Malformed n else Incomplete in
  if first <=? 0x7f then Valid 1
  else if (0xc2 <=? first) && (first <=? 0xdf) then
    match rest with
    | [] => short 1%nat
    | second :: _ => if is_continuation second then Valid 2 else Malformed 1
    end
  else if (0xe0 <=? first) && (first <=? 0xef) then
    match rest with
    | [] => short 1%nat
    | second :: rest =>
        if negb (is_continuation second) || ((first =? 0xe0) && (second <? 0xa0)) then Malformed 1
        else match rest with
        | [] => short 2%nat
        | third :: _ =>
            if negb (is_continuation third) then Malformed 2
            else if (first =? 0xed) && (0xa0 <=? second) then Malformed 3
            else Valid 3
        end
    end
  else if (0xf0 <=? first) && (first <=? 0xf4) then
    match rest with
    | [] => short 1%nat
    | second :: rest =>
        if negb (is_continuation second) || ((first =? 0xf0) && (second <? 0x90))
           || ((first =? 0xf4) && (0x8f <? second)) then Malformed 1
        else match rest with
        | [] => short 2%nat
        | third :: rest =>
            if negb (is_continuation third) then Malformed 2
            else match rest with
            | [] => short 3%nat
            | fourth :: _ => if is_continuation fourth then Valid 4 else Malformed 3
            end
        end
    end
  else Malformed 1.

(** std::str::from_utf8(..).is_ok() of the Rust standard library. *)
Definition in_range (lo hi b : N) : bool := (lo <=? b) && (b <=? hi).
Definition cont (b : N) : bool := in_range 0x80 0xbf b.
Definition two (a b : N) : bool := in_range 0xc2 0xdf a && cont b.
Definition three (a b c : N) : bool :=
  in_range 0xe0 0xef a && cont b && cont c && (negb (a =? 0xe0) || (0xa0 <=? b)) && (negb (a =? 0xed) || (b <=? 0x9f)).
Definition four (a b c d : N) : bool :=
  in_range 0xf0 0xf4 a && cont b && cont c && cont d && (negb (a =? 0xf0) || (0x90 <=? b)) && (negb (a =? 0xf4) || (b <=? 0x8f)).
Fixpoint from_utf8_ok (t : list N) : bool :=
  match t with
  | [] => true
  | a :: t =>
      if a <=? 0x7f then from_utf8_ok t
      else match t with
      | [] => false
      | b :: t =>
          if two a b then from_utf8_ok t
          else match t with
          | [] => false
          | c :: t =>
              if three a b c then from_utf8_ok t
              else match t with
              | [] => false
              | d :: t => four a b c d && from_utf8_ok t
              end
          end
      end
  end.

(** REPLACEMENT_CHARACTER (csv/decoder.rs:9). *)
Definition REPLACEMENT_CHARACTER : list N := [0xef; 0xbf; 0xbd].

(** The loop of LossyUtf8Decoder::repair (csv/decoder.rs:141-166): the output, and the bytes that are kept
    for later. Each iteration takes at least one byte, so [fuel] is the number of bytes. *)
Fixpoint repair_loop (fuel : nat) (bytes : list N) (end_of_input : bool) : list N * list N :=
  match fuel, bytes with
  | S fuel, first :: rest =>
      match classify_utf8_unit first rest end_of_input with
      | Valid n =>
          let '(output, incomplete) := repair_loop fuel (drop n bytes) end_of_input in
          (take n bytes ++ output, incomplete)
      | Malformed n =>
          let '(output, incomplete) := repair_loop fuel (drop n bytes) end_of_input in
          (REPLACEMENT_CHARACTER ++ output, incomplete)
      | Incomplete => ([], bytes)
      end
  | _, _ => ([], [])
  end.
(** LossyUtf8Decoder::repair (csv/decoder.rs:138-170). *)
Definition repair (bytes : list N) (end_of_input : bool) : list N * list N :=
  if from_utf8_ok bytes then (bytes, []) else repair_loop (length bytes) bytes end_of_input.

(** LossyUtf8Decoder::decode_bytes, decode and finish (csv/decoder.rs:118-136). The state is the list of
    incomplete bytes. *)
Definition decode (incomplete input : list N) : list N * list N := repair (incomplete ++ input) false.
Definition decode_bytes (incomplete input : list N) : list N * list N :=
  match incomplete with
  | [] => if from_utf8_ok input then (input, []) else decode incomplete input
  | _ => decode incomplete input
  end.
Definition finish (incomplete : list N) : list N := (repair incomplete true).1.

(** decode_utf8_lossy_stream (csv/decoder.rs:220-256) on a stream of chunks without errors. LossyUtf8Reader
    (csv/decoder.rs:172-218) calls decode instead of decode_bytes, and hands out the same bytes in pieces;
    [fast] tells which of the two is used for a chunk. *)
Fixpoint decode_stream (incomplete : list N) (chunks : list (bool * list N)) : list N :=
  match chunks with
  | [] => finish incomplete
  | (fast, chunk) :: chunks =>
      let '(output, incomplete) := (if fast : bool then decode_bytes else decode) incomplete chunk in
      output ++ decode_stream incomplete chunks
  end.
