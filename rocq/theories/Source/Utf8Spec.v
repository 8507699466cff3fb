(** UTF-8, and what it means to repair a text that is not UTF-8. Bytes are numbers below 256. *)
From Coq Require Import NArith.
From stdpp Require Import prelude list.
#[local] Open Scope N_scope.

Definition byte_ok (b : N) : Prop := b < 256.
Definition continuation (b : N) : Prop := 0x80 <= b <= 0xbf.

(** The encodings of single characters (Unicode, table 3-7). *)
Definition utf8_char (c : list N) : Prop :=
  match c with
  | [a] => a <= 0x7f
  | [a; b] => 0xc2 <= a <= 0xdf /\ continuation b
  | [a; b; c] =>
      0xe0 <= a <= 0xef /\ continuation b /\ continuation c /\ (a = 0xe0 -> 0xa0 <= b) /\ (a = 0xed -> b <= 0x9f)
  | [a; b; c; d] =>
      0xf0 <= a <= 0xf4 /\ continuation b /\ continuation c /\ continuation d /\
      (a = 0xf0 -> 0x90 <= b) /\ (a = 0xf4 -> b <= 0x8f)
  | _ => False
  end.
Definition utf8 (t : list N) : Prop := exists cs, t = concat cs /\ Forall utf8_char cs.

(** An encoded UTF-16 surrogate, which is not a character. *)
Definition surrogate (c : list N) : Prop :=
  match c with [a; b; c] => a = 0xed /\ 0xa0 <= b <= 0xbf /\ continuation c | _ => False end.

(** The beginning of a character or of a surrogate. *)
Definition beginning (m : list N) : Prop := exists c, (utf8_char c \/ surrogate c) /\ m `prefix_of` c.

(** [m] is the malformed unit at the beginning of [t]: [t] does not begin with a character, and [m] is its
    longest prefix that begins a character or a surrogate, or its first byte if there is no such prefix. *)
Definition malformed (t m : list N) : Prop :=
  ~ (exists c, utf8_char c /\ c `prefix_of` t) /\
  m `prefix_of` t /\ (length m = 1%nat \/ beginning m) /\ m <> [] /\
  forall m', m' `prefix_of` t -> beginning m' -> (length m' <= length m)%nat.

(** The replacement character U+FFFD. *)
Definition replacement : list N := [0xef; 0xbf; 0xbd].

(** [o] is [t] with every malformed unit replaced. *)
Inductive repaired : list N -> list N -> Prop :=
  | repaired_nil : repaired [] []
  | repaired_char c t o : utf8_char c -> repaired t o -> repaired (c ++ t) (c ++ o)
  | repaired_bad m t o : malformed (m ++ t) m -> repaired t o -> repaired (m ++ t) (replacement ++ o).

(** The ASCII characters of a text: among them are the separators and quotes of CSV. *)
Definition ascii_of (t : list N) : list N := filter (fun b => b <= 0x7f) t.
