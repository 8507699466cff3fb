(** What the lexer theorems say, apart from the lexer itself. *)
From Coq Require Import NArith ZifyN Ascii String Lia.
From stdpp Require Import prelude list.
From Verif.Lib Require Import Text.
From Verif.Sql Require Import LexModel.
Local Open Scope N_scope.

(** Rust's [char::is_alphanumeric] on ASCII: letters and digits and nothing else. *)
Definition ascii_alnum (alnum : N -> bool) : Prop :=
  forall c, c < 128 -> alnum c = is_letter c || is_digit c.

(** ** How a string can be written as a literal *)

(** Quotes and backslashes get a backslash in front. *)
Definition escaped (q : N) (s : text) : text :=
  flat_map (fun c => if (c =? q) || (c =? BSLASH) then [BSLASH; c] else [c]) s.
(** Quotes are doubled, backslashes get a backslash in front. *)
Definition doubled (q : N) (s : text) : text :=
  flat_map (fun c => if c =? q then [q; q] else if c =? BSLASH then [BSLASH; c] else [c]) s.
Definition in_quotes (d body : text) : text := d ++ body ++ d.

(** What may stand before the opening quote: a letter and blanks after it. *)
Definition prefix_text (p : option N) (blanks : text) : text :=
  match p with Some c => c :: blanks | None => [] end.
Definition is_raw (c : N) : bool := (c =? 114) || (c =? 82).
Definition plain_prefix (p : option N) : Prop :=
  match p with Some c => is_letter c = true /\ is_raw c = false | None => True end.
Definition is_quote (q : N) : Prop := q = QUOTE \/ q = DQUOTE.

(** One hexadecimal digit, and a number as [k] of them. *)
Definition hex_char (n : N) : N := if n <? 10 then 48 + n else 87 + n.
Fixpoint hex_text (k : nat) (n : N) : text :=
  match k with O => [] | S k' => hex_text k' (n / 16) ++ [hex_char (n mod 16)] end.
(** Every character as an escape: backslash, plus, six digits. *)
Definition all_escaped (s : text) : text := flat_map (fun c => BSLASH :: 43 :: hex_text 6 c) s.

(** The pieces of a literal: characters, escapes of one character, and escapes of code points with
    three octal or two, four or eight hexadecimal digits. *)
Inductive piece := PChar (c : N) | PEscape (e : N) | POctal (n : N) | PHex2 (n : N) | PHex4 (n : N) | PHex8 (n : N).
Definition octal_text (n : N) : text := [48 + n / 64; 48 + n / 8 mod 8; 48 + n mod 8].
Definition piece_text (x : piece) : text :=
  match x with
  | PChar c => [c]
  | PEscape e => [BSLASH; e]
  | POctal n => BSLASH :: octal_text n
  | PHex2 n => BSLASH :: 120 :: hex_text 2 n
  | PHex4 n => BSLASH :: 117 :: hex_text 4 n
  | PHex8 n => BSLASH :: 85 :: hex_text 8 n
  end.
Definition piece_ok (q : N) (x : piece) : Prop :=
  match x with
  | PChar c => c <> q /\ c <> BSLASH
  | PEscape e => ¬ (48 <= e <= 55) /\ e <> 120 /\ e <> 117 /\ e <> 85
  | POctal n => n < 512
  | PHex2 n => n < 256
  | PHex4 n => n < 65536
  | PHex8 n => n < 4294967296
  end.
(** Escapes that do not stand for the character itself: \b \n \r \t \Z, and \% and \_, which keep
    their backslash. *)
Definition escape_value (e : N) : text :=
  default [e] (snd <$> find (fun x => x.1 =? e)
    [(98, [8]); (110, [10]); (114, [13]); (116, [9]); (90, [26]); (37, [92; 37]); (95, [92; 95])]).
(** Code points that are characters: not surrogates, not past U+10FFFF. *)
Definition code_point (n : N) : option text :=
  if bool_decide (n <= 0x10FFFF /\ ¬ (0xD800 <= n <= 0xDFFF)) then Some [n] else None.
Definition piece_value (x : piece) : option text :=
  match x with
  | PChar c => Some [c]
  | PEscape e => Some (escape_value e)
  | POctal n | PHex2 n | PHex4 n | PHex8 n => code_point n
  end.

(** [d] occurs in [body ++ d] only at its end, so [body] ends at the first [d]. *)
Definition ends_at_first (d body : text) : Prop :=
  forall a b, body ++ d = a ++ d ++ b -> b = [].

(** The literal [lit], followed by [rest], is read as one string token, which has the given value. *)
Definition reads_as (alnum : N -> bool) (o : options) (lit rest v : text) (prefix : option N) : Prop :=
  exists st, next alnum o (lit ++ rest) = Some (Str lit st, rest) /\ decode o st lit = Valid v prefix.

Definition starts_with_char (q : N) (s : text) : Prop := exists s', s = q :: s'.

(** ** Parameter markers *)

(** The tokens of a statement with the n-th question mark token replaced by the variable [$n]. *)
Fixpoint numbered (count : N) (l : list token) : list token :=
  match l with
  | [] => []
  | Punct c :: l' =>
    if c =? QMARK then Punct DOLLAR :: Word (decimal (count + 1)) :: numbered (count + 1) l'
    else Punct c :: numbered count l'
  | t :: l' => t :: numbered count l'
  end.
(** How many question mark tokens there are. *)
Definition count_markers (l : list token) : N :=
  N.of_nat (length (List.filter (fun t => match t with Punct c => c =? QMARK | _ => false end) l)).
(** No marker touches a word on its right. *)
Fixpoint markers_apart (l : list token) : Prop :=
  match l with
  | Punct c :: ((Word _ :: _) as l') => c <> QMARK /\ markers_apart l'
  | Punct c :: ((Str _ (Quoted _ (Some _)) :: _) as l') => c <> QMARK /\ markers_apart l'
  | Punct c :: ((Str _ (Unicode _ _) :: _) as l') => c <> QMARK /\ markers_apart l'
  | _ :: l' => markers_apart l'
  | [] => True
  end.

(** White space and comments before the parts of a name: comments, each after some spaces, then
    some spaces. *)
Record gap := Gap { gap_comments : list (nat * text); gap_spaces : nat }.
Definition comment_text (body : text) : text := str "/*" ++ body ++ str "*/".
Definition gap_text (g : gap) : text :=
  flat_map (fun x : nat * text => repeat 32 x.1 ++ comment_text x.2) (gap_comments g) ++ repeat 32 (gap_spaces g).
Definition gap_ok (g : gap) : Prop :=
  Forall (fun x : nat * text => Forall (fun c => c <> 42 /\ c <> 47) x.2) (gap_comments g).
(** The parts of a name, each after a gap, with periods between them; [w] writes one part. *)
Fixpoint spaced (w : text -> text) (l : list (gap * text)) : text :=
  match l with
  | [] => []
  | [(g, s)] => gap_text g ++ w s
  | (g, s) :: l' => gap_text g ++ w s ++ 46 :: spaced w l'
  end.
