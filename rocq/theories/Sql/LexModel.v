(** The SQL lexer, string literal decoding, object names and parameter markers.
    Sources: crates/sail-sql-parser/src/lexer.rs, string.rs, options.rs, token.rs,
    ast/identifier.rs, utils.rs, combinator.rs and crates/sail-sql-analyzer/src/parser.rs.

    Text is a list of Unicode scalar values ([char]).  The parsers of the code are built from
    ordered choices and greedy repetitions which never give back what they consumed, so each is a
    function from the remaining input to the remaining input after it, or failure. *)
From Coq Require Import NArith ZifyN Ascii String Lia.
From stdpp Require Import prelude list.
From Verif.Lib Require Import Text.
Local Open Scope N_scope.

(** options.rs:3-13 [ParserOptions]. *)
Record options := {
  dual_quote : bool;          (* allow_dual_quote_escape *)
  triple_quote : bool;        (* allow_triple_quote_string *)
  double_quote_ident : bool;  (* allow_double_quote_identifier *)
}.
(** Default::default, the only value the code base uses (sail-sql-analyzer/src/parser.rs:34). *)
Definition default_options : options :=
  {| dual_quote := false; triple_quote := false; double_quote_ident := false |}.

Definition QUOTE : N := 39.
Definition DQUOTE : N := 34.
Definition BSLASH : N := 92.
Definition TICK : N := 96.
Definition DOLLAR : N := 36.
Definition PERIOD : N := 46.
Definition QMARK : N := 63.
Definition COLON : N := 58.
Definition UNDERSCORE : N := 95.

Definition is_letter (c : N) : bool := ((65 <=? c) && (c <=? 90)) || ((97 <=? c) && (c <=? 122)).
Definition is_octal (c : N) : bool := (48 <=? c) && (c <=? 55).
Definition is_hex (c : N) : bool :=
  is_digit c || ((65 <=? c) && (c <=? 70)) || ((97 <=? c) && (c <=? 102)).
Definition is_blank (c : N) : bool := (c =? 32) || (c =? 9).

(** token.rs:131-173 [StringStyle].  The four quoted styles are one constructor here, carrying the
    delimiter: ['], ["], ['''] or ["""]. *)
Inductive style :=
  | Quoted (delimiter : text) (prefix : option N)
  | Unicode (delimiter : N) (escape : option N)
  | Backtick
  | Dollar (tag : text).

(** token.rs:10-43 [Token].  A word's keyword is a function of its text and is left out. *)
Inductive token :=
  | Word (raw : text)
  | LineComment (raw : text)
  | BlockComment (raw : text)
  | Str (raw : text) (s : style)
  | Blank (c : N) (count : nat)
  | Punct (c : N).

(** token.rs:44-54 [is_whitespace]. *)
Definition is_whitespace (t : token) : bool :=
  match t with Blank _ _ | LineComment _ | BlockComment _ => true | _ => false end.

(** [just(..)]: the input after the given text. *)
Definition just (pre s : text) : option text :=
  if starts_with s pre then Some (drop (length pre) s) else None.

(** [.repeated()] of a character class: the input after the longest run. *)
Fixpoint skip (p : N -> bool) (s : text) : text :=
  match s with c :: s' => if p c then skip p s' else s | [] => [] end.

(** [e.slice()]: what was consumed between two positions. *)
Definition slice (s rest : text) : text := take (length s - length rest) s.

(** lexer.rs:59-69 [none_escape_text], after the opening delimiter. *)
Fixpoint none_body (d s : text) : option text :=
  match just d s with
  | Some rest => Some rest
  | None => match s with [] => None | _ :: s' => none_body d s' end
  end.
(** lexer.rs:87-100 [backslash_escape_text], after the opening delimiter. *)
Fixpoint back_body (d s : text) : option text :=
  match s with
  | [] => None
  | c :: s' =>
    if c =? BSLASH then match s' with [] => None | _ :: s'' => back_body d s'' end
    else match just d s with Some rest => Some rest | None => back_body d s' end
  end.
(** lexer.rs:71-85 [dual_quote_escape_text], after the opening delimiter. *)
Fixpoint dual_body (q : N) (s : text) : option text :=
  match s with
  | [] => None
  | c :: s' =>
    if c =? BSLASH then match s' with [] => None | _ :: s'' => dual_body q s'' end
    else if c =? q then
      match s' with
      | c' :: s'' => if c' =? q then dual_body q s'' else Some s'
      | [] => Some []
      end
    else dual_body q s'
  end.
(** lexer.rs:161-165, after the opening backtick. *)
Fixpoint tick_body (s : text) : option text :=
  match s with
  | [] => None
  | c :: s' =>
    if c =? TICK then
      match s' with
      | c' :: s'' => if c' =? TICK then tick_body s'' else Some s'
      | [] => Some []
      end
    else tick_body s'
  end.

(** lexer.rs:102-131 [string_prefix], [raw_string]. *)
Definition raw_string (d s : text) : option (style * text) :=
  match s with
  | c :: s' =>
    if (c =? 114) || (c =? 82) then
      match just d (skip is_blank s') with
      | Some b => match none_body d b with Some rest => Some (Quoted d (Some c), rest) | None => None end
      | None => None
      end
    else None
  | [] => None
  end.
(** lexer.rs:133-152 [escape_string]: a prefix that was read is not given back. *)
Definition escape_string (body : text -> option text) (d s : text) : option (style * text) :=
  let '(prefix, s1) :=
    match s with
    | c :: s' => if is_letter c then (Some c, skip is_blank s') else (None, s)
    | [] => (None, s)
    end in
  match just d s1 with
  | Some b => match body b with Some rest => Some (Quoted d prefix, rest) | None => None end
  | None => None
  end.
(** lexer.rs:154-175 [backtick_quoted_string]. *)
Definition backtick_string (s : text) : option (style * text) :=
  match s with
  | c :: s' =>
    if c =? TICK then match tick_body s' with Some rest => Some (Backtick, rest) | None => None end
    else None
  | [] => None
  end.
(** lexer.rs:177-197 [unicode_escape_string]. *)
Definition unicode_string (q : N) (s : text) : option (style * text) :=
  match just (str "U&") s with
  | Some s1 =>
    match just [q] s1 with
    | Some b => match none_body [q] b with Some rest => Some (Unicode q None, rest) | None => None end
    | None => None
    end
  | None => None
  end.
(** lexer.rs:199-221 [dollar_quoted_string]: any text between two dollar signs is a tag. *)
Definition dollar_string (s : text) : option (style * text) :=
  match s with
  | c :: s' =>
    if c =? DOLLAR then
      match skip (fun c => negb (c =? DOLLAR)) s' with
      | _ :: b =>
        let tag := slice s b in
        match none_body tag b with Some rest => Some (Dollar tag, rest) | None => None end
      | [] => None
      end
    else None
  | [] => None
  end.

(** [choice]: the first alternative that succeeds. *)
Fixpoint choice {A} (l : list (text -> option A)) (s : text) : option A :=
  match l with
  | [] => None
  | p :: l' => match p s with Some a => Some a | None => choice l' s end
  end.

Definition T_QUOTE : text := [QUOTE; QUOTE; QUOTE].
Definition T_DQUOTE : text := [DQUOTE; DQUOTE; DQUOTE].

(** lexer.rs:251-294 [string]. *)
Definition string_token (o : options) : text -> option (style * text) :=
  let body q := if o.(dual_quote) then dual_body q else back_body [q] in
  choice (
    (if o.(triple_quote) then
       [raw_string T_QUOTE; raw_string T_DQUOTE;
        escape_string (back_body T_QUOTE) T_QUOTE; escape_string (back_body T_DQUOTE) T_DQUOTE]
     else []) ++
    [raw_string [QUOTE]; raw_string [DQUOTE];
     escape_string (body QUOTE) [QUOTE]; escape_string (body DQUOTE) [DQUOTE];
     unicode_string QUOTE; unicode_string DQUOTE; backtick_string; dollar_string]).

(** lexer.rs:33-41 [single_line_comment]. *)
Definition line_comment (s : text) : option text :=
  match just (str "--") s with
  | Some s' => Some (skip (fun c => negb ((c =? 10) || (c =? 13))) s')
  | None => None
  end.
(** lexer.rs:43-57 [multi_line_comment], after the opening; [depth] is the number of comments still
    open around the innermost one.  A nested comment that is not closed makes every comment around
    it fail, since nothing but a nested comment may start with the opening sign. *)
Fixpoint comment_body (depth : nat) (s : text) : option text :=
  match s with
  | [] => None
  | c :: s' =>
    match s' with
    | [] => None
    | c' :: s'' =>
      if (c =? 42) && (c' =? 47) then
        match depth with O => Some s'' | S depth' => comment_body depth' s'' end
      else if (c =? 47) && (c' =? 42) then comment_body (S depth) s''
      else comment_body depth s'
    end
  end.
Definition block_comment (s : text) : option text :=
  match just (str "/*") s with Some s' => comment_body 0 s' | None => None end.

(** token.rs:175-208: the punctuation characters. *)
Definition punctuation : text := str "!#$%&()*+,-./:;<=>?@[\]^{|}~".
Definition is_punct (c : N) : bool := bool_decide (c ∈ punctuation).

Section Lexer.
(** char::is_alphanumeric, left open: theorems only use what it says of ASCII characters. *)
Context (alnum : N -> bool).

(** lexer.rs:10-31 [word]. *)
Definition word_char (c : N) : bool := alnum c || (c =? UNDERSCORE).

Definition is_ws (c : N) : bool := (c =? 32) || (c =? 10) || (c =? 13) || (c =? 9).

(** lexer.rs:303-315: one token and the input after it. *)
Definition next (o : options) (s : text) : option (token * text) :=
  match s with
  | [] => None
  | c :: s' =>
    match line_comment s with
    | Some rest => Some (LineComment (slice s rest), rest)
    | None =>
      match block_comment s with
      | Some rest => Some (BlockComment (slice s rest), rest)
      | None =>
        match string_token o s with
        | Some (st, rest) => Some (Str (slice s rest) st, rest)
        | None =>
          if word_char c then let rest := skip word_char s in Some (Word (slice s rest), rest)
          else if is_ws c then
            let rest := skip (fun x => x =? c) s in Some (Blank c (length s - length rest), rest)
          else if is_punct c then Some (Punct c, s')
          else None
        end
      end
    end
  end.

(** lexer.rs:296-319 [create_lexer]: tokens with the text they cover, until the end of the input.
    Every token covers at least one character, so [length s] steps are enough. *)
Fixpoint lex_loop (o : options) (fuel : nat) (s : text) : option (list (token * text)) :=
  match s with
  | [] => Some []
  | _ =>
    match fuel with
    | O => None
    | S fuel' =>
      match next o s with
      | Some (t, rest) =>
        match lex_loop o fuel' rest with
        | Some l => Some ((t, slice s rest) :: l)
        | None => None
        end
      | None => None
      end
    end
  end.
Definition lex (o : options) (s : text) : option (list (token * text)) := lex_loop o (length s) s.
End Lexer.

(** ** Decoding string tokens *)

(** string.rs:272-276 [Char]. *)
Inductive char := One (c : N) | Two (c1 c2 : N) | Bad.

(** char::from_u32: everything but surrogates and values past U+10FFFF. *)
Definition is_scalar (n : N) : bool := (n <? 55296) || ((57344 <=? n) && (n <=? 1114111)).
Definition hex_digit (c : N) : N :=
  if is_digit c then c - 48 else if c <=? 70 then c - 55 else c - 87.
(** string.rs:278-287 [Char::from_str].  At most eight hexadecimal digits are passed, so the number
    always fits. *)
Definition from_str (radix : N) (s : text) : char :=
  let n := fold_left (fun a c => a * radix + hex_digit c) s 0 in
  if is_scalar n then One n else Bad.

(** [.repeated().at_most(n)] of a character class. *)
Fixpoint run (p : N -> bool) (n : nat) (s : text) : text * text :=
  match n, s with
  | S n', c :: s' => if p c then let '(a, r) := run p n' s' in (c :: a, r) else ([], s)
  | _, _ => ([], s)
  end.

(** string.rs:107-144 [backslash_escape_char]. *)
Definition back_char (d s : text) : option (char * text) :=
  match s with
  | [] => None
  | c :: s1 =>
    if c =? BSLASH then
      match s1 with
      | [] => None
      | e :: s2 =>
        let '(oct, after_oct) := run is_octal 3 s1 in
        let '(hx, after_hx) := run is_hex 2 s2 in
        let '(h4, after_h4) := run is_hex 4 s2 in
        let '(h8, after_h8) := run is_hex 8 s2 in
        if e =? QUOTE then Some (One QUOTE, s2)
        else if e =? DQUOTE then Some (One DQUOTE, s2)
        else if e =? QMARK then Some (One QMARK, s2)
        else if e =? BSLASH then Some (One BSLASH, s2)
        else if e =? 98 then Some (One 8, s2)        (* \b *)
        else if e =? 110 then Some (One 10, s2)      (* \n *)
        else if e =? 114 then Some (One 13, s2)      (* \r *)
        else if e =? 116 then Some (One 9, s2)       (* \t *)
        else if e =? 90 then Some (One 26, s2)       (* \Z *)
        else if e =? 37 then Some (Two BSLASH 37, s2)   (* \% *)
        else if e =? 95 then Some (Two BSLASH 95, s2)   (* \_ *)
        else if is_octal e then Some (from_str 8 oct, after_oct)
        else if (e =? 120) && negb (bool_decide (hx = [])) then Some (from_str 16 hx, after_hx)
        else if (e =? 117) && (Nat.eqb (length h4) 4) then Some (from_str 16 h4, after_h4)
        else if (e =? 85) && (Nat.eqb (length h8) 8) then Some (from_str 16 h8, after_h8)
        else Some (One e, s2)
      end
    else if starts_with s d then None
    else Some (One c, s1)
  end.
(** string.rs:146-154 [dual_quote_escape_char]. *)
Definition dual_char (q : N) (s : text) : option (char * text) :=
  match just [q; q] s with
  | Some rest => Some (One q, rest)
  | None => back_char [q] s
  end.
(** string.rs:185, 268: any character not at the delimiter. *)
Definition raw_char (d s : text) : option (char * text) :=
  match s with
  | [] => None
  | c :: s1 => if starts_with s d then None else Some (One c, s1)
  end.
(** string.rs:238-252. *)
Definition unicode_char (q : N) (escape : N) (s : text) : option (char * text) :=
  match s with
  | [] => None
  | c :: s1 =>
    if c =? escape then
      let '(h4, after_h4) := run is_hex 4 s1 in
      if Nat.eqb (length h4) 4 then Some (from_str 16 h4, after_h4)
      else
        match s1 with
        | e :: s2 =>
          let '(h6, after_h6) := run is_hex 6 s2 in
          if (e =? 43) && Nat.eqb (length h6) 6 then Some (from_str 16 h6, after_h6)
          else Some (Bad, s2)
        | [] => Some (Bad, [])
        end
    else if c =? q then None
    else Some (One c, s1)
  end.
(** string.rs:260. *)
Definition tick_char (s : text) : option (char * text) :=
  match s with
  | [] => None
  | c :: s1 =>
    if c =? TICK then
      match s1 with
      | c' :: s2 => if c' =? TICK then Some (One TICK, s2) else None
      | [] => None
      end
    else Some (One c, s1)
  end.

(** string.rs:156-164 [text]: [character.repeated().collect()]; every character takes at least one
    from the input, so [length s] steps are enough. *)
Fixpoint chars (ch : text -> option (char * text)) (fuel : nat) (s : text) : list char * text :=
  match fuel with
  | O => ([], s)
  | S fuel' =>
    match ch s with
    | Some (x, rest) => let '(l, r) := chars ch fuel' rest in (x :: l, r)
    | None => ([], s)
    end
  end.

(** string.rs:289-296 [StringValue]; the two reasons for [Invalid] are kept apart: an escape that is
    no character, and text that is no literal of its style at all. *)
Inductive value := Valid (v : text) (prefix : option N) | InvalidChar | InvalidLiteral.

(** string.rs:329-359 [push]: one invalid character makes the string invalid. *)
Fixpoint collect (l : list char) : option text :=
  match l with
  | [] => Some []
  | One c :: l' => match collect l' with Some v => Some (c :: v) | None => None end
  | Two c1 c2 :: l' => match collect l' with Some v => Some (c1 :: c2 :: v) | None => None end
  | Bad :: _ => None
  end.

(** string.rs:156-164 [text] on the whole literal; chumsky's [parse] requires the end of the input. *)
Definition decode_text (d : text) (ch : text -> option (char * text)) (prefix : option N) (s : text) : value :=
  match just d s with
  | None => InvalidLiteral
  | Some b =>
    let '(l, r) := chars ch (length b) b in
    match just d r with
    | Some [] => match collect l with Some v => Valid v prefix | None => InvalidChar end
    | _ => InvalidLiteral
    end
  end.
(** string.rs:166-175 [with_prefix]. *)
Definition strip_prefix (prefix : N) (s : text) : option text :=
  match just [prefix] s with Some s' => Some (skip is_blank s') | None => None end.

(** string.rs:20-90 [StringStyle::parse]. *)
Definition decode (o : options) (st : style) (raw : text) : value :=
  match st with
  | Quoted d prefix =>
    let single := bool_decide (length d = 1%nat) in
    let plain := if o.(dual_quote) && single then dual_char (default 0 (head d)) else back_char d in
    match prefix with
    | None => decode_text d plain None raw
    | Some c =>
      match strip_prefix c raw with
      | None => InvalidLiteral
      | Some s => decode_text d (if (c =? 114) || (c =? 82) then raw_char d else plain) (Some c) s
      end
    end
  | Unicode q escape =>
    match just (str "U&") raw with
    | Some s => decode_text [q] (unicode_char q (default BSLASH escape)) None s
    | None => InvalidLiteral
    end
  | Backtick => decode_text [TICK] tick_char None raw
  | Dollar tag => decode_text tag (raw_char tag) None raw
  end.

(** ** Object names *)

(** ast/identifier.rs [is_identifier_string]. *)
Definition is_identifier_string (o : options) (st : style) : bool :=
  match st with
  | Backtick => true
  | Quoted d _ => o.(double_quote_ident) && bool_decide (d = [DQUOTE])
  | _ => false
  end.
(** ast/identifier.rs:18-62 [parse_identifier] with every word allowed (identifier.rs:77-79). *)
Definition ident (o : options) (t : token) : option text :=
  match t with
  | Word raw => Some raw
  | Str raw st =>
    if is_identifier_string o st then
      match decode o st raw with Valid v None => Some v | _ => None end
    else None
  | _ => None
  end.
(** utils.rs:20-33 [skip_whitespace]: white space and comments are dropped after every token (and
    before the first). *)
Definition significant (l : list (token * text)) : list token :=
  List.filter (fun t => negb (is_whitespace t)) (map fst l).
(** ast/identifier.rs:132-133 [ObjectName], combinator.rs:12-28 [sequence], until the end of the
    input. *)
Fixpoint object_name (o : options) (l : list token) : option (list text) :=
  match l with
  | [] => None
  | t :: l' =>
    match ident o t with
    | None => None
    | Some v =>
      match l' with
      | [] => Some [v]
      | Punct p :: l'' =>
        if p =? PERIOD then
          match object_name o l'' with Some vs => Some (v :: vs) | None => None end
        else None
      | _ => None
      end
    end
  end.
(** sail-sql-analyzer/src/parser.rs:97-99 [parse_object_name]. *)
Definition parse_object_name (alnum : N -> bool) (o : options) (s : text) : option (list text) :=
  match lex alnum o s with Some l => object_name o (significant l) | None => None end.

(** ** Parameter markers *)

(** usize::to_string; [fuel] bounds the number of digits. *)
Fixpoint decimal_loop (fuel : nat) (n : N) : text :=
  match fuel with
  | O => []
  | S fuel' => if n <? 10 then [48 + n] else decimal_loop fuel' (n / 10) ++ [48 + n mod 10]
  end.
Definition decimal (n : N) : text := decimal_loop (S (N.to_nat (N.log2 n))) n.

(** sail-sql-analyzer/src/parser.rs:55-75 [rewrite_positional_parameter_markers]: the text between
    markers is copied, the n-th question mark token becomes [$n]. *)
Fixpoint replace_markers (count : N) (l : list (token * text)) : text * N :=
  match l with
  | [] => ([], count)
  | (t, raw) :: l' =>
    match t with
    | Punct c =>
      if c =? QMARK then
        let '(out, n) := replace_markers (count + 1) l' in
        (DOLLAR :: decimal (count + 1) ++ out, n)
      else let '(out, n) := replace_markers count l' in (raw ++ out, n)
    | _ => let '(out, n) := replace_markers count l' in (raw ++ out, n)
    end
  end.
Definition rewrite_markers (alnum : N -> bool) (s : text) : option (text * N) :=
  match lex alnum default_options s with
  | Some l => Some (replace_markers 0 l)
  | None => None
  end.

(** ast/identifier.rs:160-212: the variables in a token list, [$name], [:name] and [?], read at
    every position where one can be read.  The code reads them where an expression may stand. *)
Fixpoint variables (l : list token) : list text :=
  match l with
  | [] => []
  | Punct p :: ((Word raw :: _) as l') =>
    if (p =? DOLLAR) || (p =? COLON) then (p :: raw) :: variables l'
    else if p =? QMARK then [QMARK] :: variables l' else variables l'
  | Punct p :: l' => if p =? QMARK then [QMARK] :: variables l' else variables l'
  | _ :: l' => variables l'
  end.
