(** Model of deletion vector storage: Z85 text, the DV file and its location.
    Sources: crates/sail-delta-lake/src/deletion_vector/{z85.rs,storage.rs,resolve.rs}.
    The bitmap itself (the roaring crate) is not modelled: a bitmap is its
    serialised bytes. *)
From Coq Require Import NArith ZArith String.
From stdpp Require Import prelude list strings.
From Verif.Lib Require Import Text.
Local Open Scope N_scope.

(** z85.rs:4-5 *)
Definition z85_chars : text :=
  str "0123456789abcdefghijklmnopqrstuvwxyzABCDEFGHIJKLMNOPQRSTUVWXYZ.-:+=^!/*?&<>()[]{}@%$#".

(** z85.rs:22-27: the five characters of one value, most significant first. *)
Fixpoint z85_digits (k : nat) (value : N) : text :=
  match k with
  | O => []
  | S k => z85_digits k (value / 85) ++ [default 0 (z85_chars !! N.to_nat (value mod 85))]
  end.

(** [as_chunks::<n>]: consecutive groups of [n]; a shorter rest is dropped (the
    callers check the length first). *)
Fixpoint chunks (fuel n : nat) (l : text) : list text :=
  match fuel with
  | O => []
  | S fuel => if decide (length l < n)%nat then [] else take n l :: chunks fuel n (drop n l)
  end.

(** z85.rs:10-31 [z85_encode] *)
Definition z85_encode (data : text) : option text :=
  if decide (Nat.modulo (length data) 4 = 0)%nat then
    Some (flat_map (fun c => z85_digits 5 (be_value c)) (chunks (length data) 4 data))
  else None.

(** z85.rs:36-46 [z85_encode_padded]; [next_multiple_of]. *)
Definition z85_encode_padded (data : text) : option text :=
  z85_encode (data ++ replicate (Nat.modulo (4 - Nat.modulo (length data) 4) 4) 0).

(** z85.rs:75-81 [z85_char_to_value] *)
Definition z85_value (c : N) : option N := (fun p => N.of_nat p.1) <$> list_find (fun x => x = c) z85_chars.

(** z85.rs:62-71: one group; [value as u32] keeps the low 32 bits. *)
Definition z85_group (c : text) : option text :=
  vs ← mapM z85_value c;
  Some (be_bytes 4 (fold_left (fun a v => a * 85 + v) vs 0 mod 2 ^ 32)).
(** z85.rs:51-73 [z85_decode] *)
Definition z85_decode (s : text) : option text :=
  if decide (Nat.modulo (length s) 5 = 0)%nat then
    (@concat N) <$> mapM z85_group (chunks (length s) 5 s)
  else None.

(** crc32fast::hash, the reflected CRC-32 of IEEE 802.3, bit by bit. *)
Definition crc_poly : N := 0xEDB88320.
Definition crc_bit (s : N) : N :=
  if N.odd s then N.lxor (N.div2 s) crc_poly else N.div2 s.
Definition crc_byte (s b : N) : N := Nat.iter 8 crc_bit (N.lxor s b).
Definition crc32 (data : text) : N := N.lxor (fold_left crc_byte data 0xFFFFFFFF) 0xFFFFFFFF.

(** Casts: [len as i32], [len as u32]. *)
Definition as_i32 (n : nat) : Z :=
  let m := (Z.of_nat n mod 2 ^ 32)%Z in if (m <? 2 ^ 31)%Z then m else (m - 2 ^ 32)%Z.
Definition as_u32 (n : nat) : N := N.of_nat n mod 2 ^ 32.

(** storage.rs:163-188 [DeletionVectorWriter::write]: the file content *)
Definition dv_file (bitmap : text) : text :=
  1 :: be_bytes 4 (as_u32 (length bitmap)) ++ bitmap ++ be_bytes 4 (crc32 bitmap).
(** storage.rs:202-208: the offset and the size of the descriptor *)
Definition dv_offset : option Z := Some 1%Z.
Definition dv_size (bitmap : text) : Z := as_i32 (length bitmap).

(** storage.rs:63-147 [read_dv_from_file_bytes], up to deserialising the bitmap;
    the checks against overflow of 64-bit addresses are dropped *)
Definition read_dv (data : text) (offset : option Z) (size : Z) : option text :=
  match data with
  | [] => None
  | v :: _ =>
      if decide (v <> 1) then None
      else if (size <? 0)%Z then None
      else
        let off := default 1%Z offset in
        if (off <? 0)%Z then None
        else
          let start := Z.to_nat off in
          if decide (length data < start + 4)%nat then None
          else
            let data_size := N.to_nat (be_value (take 4 (drop start data))) in
            if decide (length data < start + 4 + data_size + 4)%nat then None
            else
              let bitmap := take data_size (drop (start + 4) data) in
              if decide (be_value (take 4 (drop (start + 4 + data_size) data)) = crc32 bitmap)
              then Some bitmap else None
  end.

(** uuid crate: the hyphenated lower-case form of 16 bytes *)
Definition hex_digit (n : N) : N := if n <? 10 then 48 + n else 87 + n.
Definition hex_byte (b : N) : text := [hex_digit (b / 16); hex_digit (b mod 16)].
Definition hyphen_after (i : nat) : bool :=
  bool_decide (i = 3 \/ i = 5 \/ i = 7 \/ i = 9)%nat.
Definition uuid_string (u : text) : text :=
  concat (imap (fun i b => hex_byte b ++ if hyphen_after i then [45] else []) u).

(** resolve.rs:67-78 [new_uuid_dv_path]: the text stored in the descriptor and the
    path relative to the table root *)
Definition new_dv_path (u : text) : option (text * text) :=
  e ← z85_encode u;
  let prefix := take 2 (uuid_string u) in
  Some (prefix ++ e, prefix ++ str "/deletion_vector_" ++ uuid_string u ++ str ".bin").

(** resolve.rs:19-57 [resolve_dv_absolute_path], the UUID case, relative to the
    table root; resolve.rs [decode_z85_uuid] *)
Definition resolve_dv_path (field : text) : option text :=
  if decide (length field < 20)%nat then None
  else
    let prefix := take (length field - 20) field in
    u ← z85_decode (drop (length field - 20) field);
    if decide (length u = 16)%nat then
      Some (match prefix with
            | [] => str "deletion_vector_" ++ uuid_string u ++ str ".bin"
            | _ => prefix ++ str "/deletion_vector_" ++ uuid_string u ++ str ".bin"
            end)
    else None.
