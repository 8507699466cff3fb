(** * C26: deletion vectors survive the trip through storage *)
From Coq Require Import NArith ZArith ZifyN Lia String.
From stdpp Require Import prelude list strings.
From Verif.Lib Require Import Text.
From Verif.Delta Require Import DvModel DvProofs.
Local Open Scope N_scope.

(** ** Z85 text *)
Theorem C26_z85_roundtrip :
  forall data, Forall is_byte data -> Nat.modulo (length data) 4 = 0%nat ->
    exists t, z85_encode data = Some t /\ (length t * 4 = length data * 5)%nat /\ z85_decode t = Some data.
Proof. exact z85_roundtrip. Qed.
Print Assumptions C26_z85_roundtrip.

(** Decoding is not the inverse the other way: a group of characters whose value does not fit in 32 bits
    is no encoding of anything, but it is decoded to its low bits and not reported. *)
Theorem C26_z85_invalid_reported_refuted :
  exists t data, z85_decode t = Some data /\ (forall d, Forall is_byte d -> z85_encode d <> Some t).
Proof.
  exists (str "#####"), (be_bytes 4 (4437053124 mod 2 ^ 32)).
  assert (z85_decode (str "#####") = Some (be_bytes 4 (4437053124 mod 2 ^ 32))) as Hd
    by (vm_compute; reflexivity).
  split; [exact Hd|]. intros d Hb He.
  assert (Nat.modulo (length d) 4 = 0%nat) as Hm.
  { unfold z85_encode in He. by destruct (decide _) in He. }
  destruct (z85_roundtrip d Hb Hm) as (t & Ht & _ & Hr).
  rewrite He in Ht. injection Ht as <-. rewrite Hd in Hr. injection Hr as <-.
  revert He. vm_compute. discriminate.
Qed.
Print Assumptions C26_z85_invalid_reported_refuted.

Theorem C26_z85_padded_roundtrip :
  forall data, Forall is_byte data ->
    exists t zeros, z85_encode_padded data = Some t /\
      z85_decode t = Some (data ++ replicate zeros 0) /\ (zeros < 4)%nat.
Proof. exact z85_padded_roundtrip. Qed.
Print Assumptions C26_z85_padded_roundtrip.

(** The example of the Z85 specification. *)
Example C26_z85_example :
  z85_encode [0x86; 0x4F; 0xD2; 0x6F; 0xB5; 0x59; 0xF7; 0x5B] = Some (str "HelloWorld") /\
  z85_decode (str "HelloWorld") = Some [0x86; 0x4F; 0xD2; 0x6F; 0xB5; 0x59; 0xF7; 0x5B] /\
  z85_encode_padded [1; 2; 3; 4; 5] <> None /\
  (* text the encoder never produces is not always refused *)
  z85_decode (str "#####") = Some [8; 120; 14; 196] /\ z85_encode [8; 120; 14; 196] <> Some (str "#####").
Proof. by vm_compute. Qed.

(** ** The deletion vector file *)
(** A bitmap whose size fits the descriptor's signed 32-bit size field. *)
Theorem C26_dv_file_roundtrip :
  forall bitmap, sound_bitmap bitmap ->
    read_dv (dv_file bitmap) dv_offset (dv_size bitmap) = Some bitmap.
Proof. exact dv_roundtrip. Qed.
Print Assumptions C26_dv_file_roundtrip.

(** A bitmap that another writer put somewhere in a file is found by its offset, which may be left out
    if it is the first one. *)
Theorem C26_dv_at_offset :
  forall pre post bitmap size, sound_bitmap bitmap -> (0 <= size)%Z ->
    let data := 1 :: pre ++ be_bytes 4 (as_u32 (length bitmap)) ++ bitmap ++ be_bytes 4 (crc32 bitmap) ++ post in
    read_dv data (Some (1 + Z.of_nat (length pre))%Z) size = Some bitmap /\
    (pre = [] -> read_dv data None size = Some bitmap).
Proof.
  intros pre post bitmap size Hb Hs data. split; [by apply dv_at_offset|].
  intros ->. exact (dv_at_offset [] post bitmap size Hb Hs).
Qed.
Print Assumptions C26_dv_at_offset.
Example C26_dv_at_offset_example :
  sound_bitmap (str "bits") /\
  read_dv (dv_file (str "first") ++ drop 1 (dv_file (str "bits")) ++ [9; 9]) (Some 14%Z) 4 = Some (str "bits").
Proof. split; [split; [vm_compute; repeat constructor|by vm_compute]|by vm_compute]. Qed.

(** A file cut anywhere is reported. *)
Theorem C26_truncation_reported :
  forall bitmap n, sound_bitmap bitmap -> (n < length (dv_file bitmap))%nat ->
    read_dv (take n (dv_file bitmap)) dv_offset (dv_size bitmap) = None.
Proof. exact dv_truncated. Qed.
Print Assumptions C26_truncation_reported.

(** Any change of one byte outside the four bytes of the size field is reported. *)
Theorem C26_damaged_byte_reported :
  forall bitmap i b c,
    sound_bitmap bitmap -> dv_file bitmap !! i = Some b -> is_byte c -> b <> c ->
    (i = 0 \/ 5 <= i)%nat ->
    read_dv (<[i := c]> (dv_file bitmap)) dv_offset (dv_size bitmap) = None.
Proof. exact dv_damaged_byte. Qed.
Print Assumptions C26_damaged_byte_reported.

(** A size field that became larger is reported ... *)
Theorem C26_damaged_size_reported_partial :
  forall bitmap hdr,
    sound_bitmap bitmap -> length hdr = 4%nat -> N.of_nat (length bitmap) < be_value hdr ->
    read_dv (1 :: hdr ++ bitmap ++ be_bytes 4 (crc32 bitmap)) dv_offset (dv_size bitmap) = None.
Proof. exact dv_size_too_large. Qed.
Print Assumptions C26_damaged_size_reported_partial.

(** ... but one that became smaller need not be, although the descriptor records the
    right size: the disagreement is only logged and the file's size wins. *)
Theorem C26_damaged_size_reported_refuted :
  exists bitmap bitmap' i b c,
    sound_bitmap bitmap /\ dv_file bitmap !! i = Some b /\ is_byte c /\ b <> c /\ (1 <= i < 5)%nat /\
    bitmap' <> bitmap /\
    read_dv (<[i := c]> (dv_file bitmap)) dv_offset (dv_size bitmap) = Some bitmap'.
Proof.
  exists (str "dvdv" ++ be_bytes 4 (crc32 (str "dvdv")) ++ [7]), (str "dvdv"), 4%nat, 9, 4.
  split_and!; try by vm_compute.
  - split; [|by vm_compute]. vm_compute. repeat constructor.
  - lia.
Qed.
Print Assumptions C26_damaged_size_reported_refuted.

Example C26_dv_example :
  sound_bitmap [1; 2; 3; 4; 5; 6] /\
  dv_file [1; 2; 3; 4; 5; 6] !! 7%nat = Some 3 /\
  length (dv_file [1; 2; 3; 4; 5; 6]) = 15%nat.
Proof. split_and!; [|done|done]. split; [repeat constructor|done]. Qed.

(** ** The location: the path found from the descriptor is the path written *)
Theorem C26_location_roundtrip :
  forall u, Forall is_byte u -> length u = 16%nat ->
    exists field path, new_dv_path u = Some (field, path) /\ resolve_dv_path field = Some path.
Proof. exact dv_path. Qed.
Print Assumptions C26_location_roundtrip.

Example C26_location_example :
  resolve_dv_path (str "ab^-aqEH.-t@S}K{vb[*k^") =
    Some (str "ab/deletion_vector_d2c639aa-8816-431a-aaf6-d3fe2512ff61.bin") /\
  fst <$> new_dv_path [0xd2; 0xc6; 0x39; 0xaa; 0x88; 0x16; 0x43; 0x1a; 0xaa; 0xf6; 0xd3; 0xfe; 0x25; 0x12; 0xff; 0x61]
    = Some (str "d2^-aqEH.-t@S}K{vb[*k^").
Proof. by vm_compute. Qed.
