(** C41, C43, C57: what the SQL lexer and the name parser read.

    [alnum] stands for [char::is_alphanumeric]; only its values on ASCII matter here. *)
From Coq Require Import NArith ZifyN Ascii String Lia.
From stdpp Require Import prelude list.
From Verif.Lib Require Import Text.
From Verif.Catalog Require Import QuoteModel.
From Verif.Sql Require Import LexModel LexSpec LexProofs NameProofs MarkerProofs EscapeProofs.
Local Open Scope N_scope.

Definition ascii (c : N) : bool := LexModel.is_letter c || Text.is_digit c.

(** ** C41: the quoted form of a name is read back as that name, with any parser options. *)
Theorem C41_round_trip (alnum : N -> bool) (o : options) (names : list text) :
  ascii_alnum alnum -> names <> [] -> parse_object_name alnum o (quote_names names) = Some names.
Proof. exact (object_name_round_trip alnum o names). Qed.
Print Assumptions C41_round_trip.

Example C41_round_trip_case :
  ascii_alnum ascii /\
  quote_names [str "a.b"; str "c`d"; str "t_1"; str "9"; []] = str "`a.b`.`c``d`.t_1.`9`.``" /\
  parse_object_name ascii default_options (str "`a.b`.`c``d`.t_1.`9`.``") =
    Some [str "a.b"; str "c`d"; str "t_1"; str "9"; []] /\
  (* other spellings of the same name *)
  parse_object_name ascii default_options (str " `a.b` . /* x */ `c``d`") = Some [str "a.b"; str "c`d"] /\
  parse_object_name ascii default_options (str "a..b") = None.
Proof. split; [exact ascii_alnum_exists|]. by vm_compute. Qed.

(** White space and comments before the parts of a name change nothing. *)
Theorem C41_spaced (alnum : N -> bool) (o : options) (l : list (gap * text)) :
  ascii_alnum alnum -> Forall (fun x => gap_ok x.1) l -> l <> [] ->
  parse_object_name alnum o (spaced quote_name l) = Some (map snd l).
Proof. exact (spaced_name alnum o l). Qed.
Print Assumptions C41_spaced.

Example C41_spaced_case :
  let l := [(Gap [(1%nat, str " x ")] 2, str "a.b"); (Gap [(0%nat, []); (2%nat, str "y")] 0, str "c")] in
  Forall (fun x => gap_ok x.1) l /\ spaced quote_name l = str " /* x */  `a.b`./**/  /*y*/c".
Proof.
  split; [|by vm_compute].
  repeat constructor; by vm_compute.
Qed.

(** A text in double quotes is a name only where the options say so, and then it is the name between
    the quotes. *)
Theorem C41_double_quotes (alnum : N -> bool) (o : options) (s : text) :
  parse_object_name alnum o (in_quotes [DQUOTE] (escaped DQUOTE s)) =
    if double_quote_ident o then Some [s] else None.
Proof. exact (double_quoted_name alnum o s). Qed.
Print Assumptions C41_double_quotes.

Example C41_double_quotes_case :
  in_quotes [DQUOTE] (escaped DQUOTE (str "a""b")) = str """a\""b""" /\
  parse_object_name ascii default_options (str """a\""b""") = None.
Proof. by vm_compute. Qed.

(** Two different names never have the same quoted form. *)
Theorem C41_injective (l1 l2 : list text) : quote_names l1 = quote_names l2 -> l1 = l2.
Proof. exact (quote_names_inj l1 l2). Qed.
Print Assumptions C41_injective.

Example C41_injective_case :
  quote_names [str "a"; str "b"] <> quote_names [str "a.b"] /\
  quote_names [str "a`.`b"] <> quote_names [str "a"; str "b"].
Proof. by vm_compute. Qed.

(** ** C43: string literals *)

(** Escaping the quotes and backslashes of any string gives a literal for it, with any option and
    with or without a prefix letter. *)
Theorem C43_quoted (alnum : N -> bool) (o : options) (p : option N) (blanks : text) (q : N) (s rest : text) :
  is_quote q -> plain_prefix p -> forallb is_blank blanks = true -> (~ starts_with_char q rest) ->
  reads_as alnum o (prefix_text p blanks ++ in_quotes [q] (escaped q s)) rest s p.
Proof. exact (quoted_reads alnum o p blanks q s rest). Qed.
Print Assumptions C43_quoted.

Example C43_quoted_case :
  prefix_text (Some 120) (str " ") ++ in_quotes [QUOTE] (escaped QUOTE (str "it's 5\6")) = str "x 'it\'s 5\\6'" /\
  next ascii default_options (str "x 'it\'s 5\\6', 2") =
    Some (Str (str "x 'it\'s 5\\6'") (Quoted [QUOTE] (Some 120)), str ", 2") /\
  decode default_options (Quoted [QUOTE] (Some 120)) (str "x 'it\'s 5\\6'") = Valid (str "it's 5\6") (Some 120).
Proof. by vm_compute. Qed.

(** Where doubled quotes are allowed, doubling works as well. *)
Theorem C43_doubled (alnum : N -> bool) (o : options) (p : option N) (blanks : text) (q : N) (s rest : text) :
  o.(dual_quote) = true -> (o.(triple_quote) = true -> ~ starts_with_char q s) ->
  is_quote q -> plain_prefix p -> forallb is_blank blanks = true -> (~ starts_with_char q rest) ->
  reads_as alnum o (prefix_text p blanks ++ in_quotes [q] (doubled q s)) rest s p.
Proof. exact (doubled_reads alnum o p blanks q s rest). Qed.
Print Assumptions C43_doubled.

Definition all_options : options := {| dual_quote := true; triple_quote := true; double_quote_ident := true |}.

Example C43_doubled_case :
  in_quotes [QUOTE] (doubled QUOTE (str "it's")) = str "'it''s'" /\
  next ascii all_options (str "'it''s' x") = Some (Str (str "'it''s'") (Quoted [QUOTE] None), str " x") /\
  decode all_options (Quoted [QUOTE] None) (str "'it''s'") = Valid (str "it's") None /\
  (* without the option the same text is two literals *)
  next ascii default_options (str "'it''s' x") = Some (Str (str "'it'") (Quoted [QUOTE] None), str "'s' x").
Proof. by vm_compute. Qed.

(** Triple quotes, where allowed. *)
Theorem C43_triple (alnum : N -> bool) (o : options) (p : option N) (blanks : text) (q : N) (s rest : text) :
  o.(triple_quote) = true -> is_quote q -> plain_prefix p -> forallb is_blank blanks = true ->
  reads_as alnum o (prefix_text p blanks ++ in_quotes [q; q; q] (escaped q s)) rest s p.
Proof. exact (triple_reads alnum o p blanks q s rest). Qed.
Print Assumptions C43_triple.

Example C43_triple_case :
  next ascii all_options (str "'''a\'b'''c") = Some (Str (str "'''a\'b'''") (Quoted T_QUOTE None), str "c") /\
  decode all_options (Quoted T_QUOTE None) (str "'''a\'b'''") = Valid (str "a'b") None.
Proof. by vm_compute. Qed.

(** Raw literals are their body verbatim. *)
Theorem C43_raw (alnum : N -> bool) (o : options) (c : N) (blanks : text) (q : N) (body rest : text) :
  is_quote q -> is_raw c = true -> forallb is_blank blanks = true -> q ∉ body ->
  (o.(triple_quote) = true -> ~ starts_with_char q rest) ->
  reads_as alnum o (c :: blanks ++ in_quotes [q] body) rest body (Some c).
Proof. exact (raw_reads alnum o c blanks q body rest). Qed.
Print Assumptions C43_raw.

Example C43_raw_case :
  next ascii default_options (str "r'a\nb\'c") = Some (Str (str "r'a\nb\'") (Quoted [QUOTE] (Some 114)), str "c") /\
  decode default_options (Quoted [QUOTE] (Some 114)) (str "r'a\nb\'") = Valid (str "a\nb\") (Some 114).
Proof. by vm_compute. Qed.

(** Dollar-quoted literals are their body verbatim, whatever the tag. *)
Theorem C43_dollar (alnum : N -> bool) (o : options) (t body rest : text) :
  DOLLAR ∉ t -> ends_at_first (in_quotes [DOLLAR] t) body ->
  reads_as alnum o (in_quotes (in_quotes [DOLLAR] t) body) rest body None.
Proof. exact (dollar_reads alnum o t body rest). Qed.
Print Assumptions C43_dollar.

Example C43_dollar_case :
  next ascii default_options (str "$t$it's $x$ \ $t$;") =
    Some (Str (str "$t$it's $x$ \ $t$") (Dollar (str "$t$")), str ";") /\
  decode default_options (Dollar (str "$t$")) (str "$t$it's $x$ \ $t$") = Valid (str "it's $x$ \ ") None.
Proof. by vm_compute. Qed.

(** Every string can be written with code point escapes. *)
Theorem C43_unicode (alnum : N -> bool) (o : options) (q : N) (s rest : text) :
  is_quote q -> forallb is_scalar s = true ->
  reads_as alnum o (str "U&" ++ in_quotes [q] (all_escaped s)) rest s None.
Proof. exact (unicode_reads alnum o q s rest). Qed.
Print Assumptions C43_unicode.

Example C43_unicode_case :
  all_escaped [233; 128512] = str "\+0000e9\+01f600" /\
  decode default_options (Unicode QUOTE None) (str "U&'\+0000e9\+01f600'") = Valid [233; 128512] None.
Proof. by vm_compute. Qed.

(** A literal with escapes has the value of its pieces, and is an error if one of them is not the
    code point of a character. *)
Theorem C43_escapes (alnum : N -> bool) (o : options) (p : option N) (blanks : text) (q : N) (l : list piece) (rest : text) :
  is_quote q -> plain_prefix p -> forallb is_blank blanks = true -> (~ starts_with_char q rest) ->
  Forall (piece_ok q) l ->
  let lit := prefix_text p blanks ++ in_quotes [q] (flat_map piece_text l) in
  exists st, next alnum o (lit ++ rest) = Some (Str lit st, rest) /\
    decode o st lit = match mapM piece_value l with Some vs => Valid (concat vs) p | None => InvalidChar end.
Proof. exact (pieces_read alnum o p blanks q l rest). Qed.
Print Assumptions C43_escapes.

Example C43_escapes_case :
  let l := [PChar 97; PEscape 37; PEscape 110; POctal 65; PHex2 233; PHex4 8364; PHex8 128512; PEscape 39] in
  Forall (piece_ok QUOTE) l /\
  in_quotes [QUOTE] (flat_map piece_text l) = str "'a\%\n\101\xe9\u20ac\U0001f600\''" /\
  mapM piece_value l = Some [[97]; [92; 37]; [10]; [65]; [233]; [8364]; [128512]; [39]] /\
  mapM piece_value [PChar 97; PHex4 0xD800] = None.
Proof.
  split; [|by vm_compute].
  repeat constructor; cbn; try done; try lia; by intros [? ?].
Qed.

(** Whatever the lexer takes for a literal lies in the input as written, and decoding it fails only
    for an escape that names no character; the two stages never disagree on where it ends. *)
Theorem C43_total (alnum : N -> bool) (o : options) (s raw : text) (st : style) (rest : text) :
  next alnum o s = Some (Str raw st, rest) ->
  s = raw ++ rest /\ ((forall q e, st <> Unicode q e) -> decode o st raw <> InvalidLiteral).
Proof. exact (string_total alnum o s raw st rest). Qed.
Print Assumptions C43_total.

Example C43_total_case :
  next ascii default_options (str "'a\'b' c") = Some (Str (str "'a\'b'") (Quoted [QUOTE] None), str " c") /\
  next ascii default_options (str "'\ud800'") = Some (Str (str "'\ud800'") (Quoted [QUOTE] None), []) /\
  decode default_options (Quoted [QUOTE] None) (str "'\ud800'") = InvalidChar.
Proof. by vm_compute. Qed.

(** ** C57: positional markers become numbered variables and nothing else changes. *)

(** The rewritten statement has the same tokens, comments and blanks included, except that the n-th
    marker is the variable [$n].  Missing: statements with a dollar sign of their own and markers
    that touch a word on their right; both are refuted below. *)
Theorem C57_positional_partial (alnum : N -> bool) (s : text) (l : list (token * text)) :
  ascii_alnum alnum -> DOLLAR ∉ s -> lex alnum default_options s = Some l -> markers_apart (map fst l) ->
  exists out, rewrite_markers alnum s = Some (out, count_markers (map fst l)) /\
    exists l', lex alnum default_options out = Some l' /\ map fst l' = numbered 0 (map fst l).
Proof. intros Ha. exact (markers_rewritten alnum Ha s l). Qed.
Print Assumptions C57_positional_partial.

Definition tokens (s : text) : list token :=
  match lex ascii default_options s with Some l => map fst l | None => [] end.

Example C57_positional_case :
  let s := str "SELECT ?, '?' -- ?" ++ [10] ++ str "WHERE `?`=? /* ? */ AND x<?" in
  DOLLAR ∉ s /\ (exists l, lex ascii default_options s = Some l) /\ markers_apart (tokens s) /\
  rewrite_markers ascii s =
    Some (str "SELECT $1, '?' -- ?" ++ [10] ++ str "WHERE `?`=$2 /* ? */ AND x<$3", 3).
Proof.
  cbv zeta. split_and!.
  - apply (bool_decide_unpack _). by vm_compute.
  - eexists. by vm_compute.
  - vm_compute. tauto.
  - by vm_compute.
Qed.

(** A marker directly followed by a word takes the word into its name: the statement has one
    parameter, the rewritten one asks for a variable [1AND]. *)
Theorem C57_touching_refuted :
  exists s out, DOLLAR ∉ s /\ variables (tokens s) = [str "?"] /\
    rewrite_markers ascii s = Some (out, 1) /\ variables (tokens out) = [str "$1AND"].
Proof.
  exists (str "SELECT a=?AND b"), (str "SELECT a=$1AND b").
  split_and!; [apply (bool_decide_unpack _); by vm_compute|by vm_compute..].
Qed.
Print Assumptions C57_touching_refuted.

(** Where a dollar sign occurs elsewhere, the rewritten statement can be read as a dollar-quoted
    string: this one is well formed before and not after. *)
Theorem C57_dollar_refuted :
  exists s l out, lex ascii default_options s = Some l /\ markers_apart (map fst l) /\
    rewrite_markers ascii s = Some (out, 1) /\ lex ascii default_options out = None.
Proof.
  set (s := str "SELECT ?='$' OR x = ""$1='$""").
  exists s. eexists _, (str "SELECT $1='$' OR x = ""$1='$""").
  split_and!; [by vm_compute|vm_compute; tauto| |].
  all: by vm_compute.
Qed.
Print Assumptions C57_dollar_refuted.

(** Named variables: an expression that uses one of them three times has them all, one that uses it
    four times has none. *)
Theorem C57_named_refuted :
  exists name op, let use := DOLLAR :: name in
    variables (tokens (use ++ op ++ use ++ op ++ use)) = [use; use; use] /\
    variables (tokens (use ++ op ++ use ++ op ++ use ++ op ++ use)) = [].
Proof. exists (str "a"), (str "*"). by vm_compute. Qed.
Print Assumptions C57_named_refuted.

(** The variables of a statement are the words after [$] and [:], and [?]. *)
Theorem C57_variables (l : list token) (v : text) :
  v ∈ variables l <->
  (exists l1 p w l2, l = l1 ++ Punct p :: Word w :: l2 /\ (p = DOLLAR \/ p = COLON) /\ v = p :: w) \/
  (v = [QMARK] /\ Punct QMARK ∈ l).
Proof. exact (variables_spec l v). Qed.
Print Assumptions C57_variables.
Example C57_variables_case :
  variables (tokens (str "SELECT :a + $b, ?")) = [str ":a"; str "$b"; str "?"].
Proof. by vm_compute. Qed.
