(** C44: LIKE with an escape character. *)
From Coq Require Import NArith ZifyN Ascii String Lia.
From stdpp Require Import prelude list.
From Verif.Lib Require Import Text.
From Verif.Sql Require Import LikeModel LikeSpec LikeProofs.
Local Open Scope N_scope.

(** The strings that LIKE (or ILIKE) accepts are those the pattern denotes under the escape
    character given in the query, for every escape character and every pattern valid under it. *)
Theorem C44_like (same : N -> N -> bool) (e : N) (p s : text) :
  well_formed e p -> (like same (Some e) p s = true <-> denotes same e p s).
Proof. exact (like_denotes same e p s). Qed.
Print Assumptions C44_like.

Example C44_like_case :
  (* escape !, and the wildcards themselves as escape *)
  well_formed 33 (str "50!%\_%!!") /\
  like N.eqb (Some 33) (str "50!%\_%!!") (str "50%\x and!") = true /\
  like N.eqb (Some 33) (str "50!%\_%!!") (str "50 \x and!") = false /\
  well_formed PERCENT (str "a%%b%__") /\
  like N.eqb (Some PERCENT) (str "a%%b%__") (str "a%b_x") = true /\
  like N.eqb (Some PERCENT) (str "a%%b%__") (str "aabxx") = false.
Proof. vm_compute. tauto. Qed.

(** Without the clause the backslash is the escape character. *)
Theorem C44_default (same : N -> N -> bool) (p s : text) :
  well_formed BSLASH p -> (like same None p s = true <-> denotes same BSLASH p s).
Proof. intros H. rewrite like_default. exact (like_denotes same BSLASH p s H). Qed.
Print Assumptions C44_default.

Example C44_default_case :
  well_formed BSLASH (str "a\%%") /\ like N.eqb None (str "a\%%") (str "a%bc") = true /\
  like N.eqb None (str "a\%%") (str "abc") = false.
Proof. vm_compute. tauto. Qed.

(** Escaping a string gives the pattern for just that string, with any escape character. *)
Theorem C44_literal (same : N -> N -> bool) (e : N) (s t : text) :
  like same (Some e) (literal_pattern e s) t = true <-> Forall2 (fun c x => same c x = true) s t.
Proof. exact (like_literal same e s t). Qed.
Print Assumptions C44_literal.

Example C44_literal_case :
  literal_pattern 35 (str "1%_#\") = str "1#%#_##\" /\
  like N.eqb (Some 35) (str "1#%#_##\") (str "1%_#\") = true /\
  like N.eqb (Some 35) (str "1#%#_##\") (str "1%_##\") = false.
Proof. by vm_compute. Qed.

(** Patterns that are not valid: an escape before any other character, or at the end, stands for
    itself, so the pattern means what it means with that escape escaped... *)
Theorem C44_unused_partial (same : N -> N -> bool) (e : N) (p s : text) :
  e <> BSLASH -> ~ is_wild e ->
  well_formed e (repaired e p) /\ like same (Some e) p s = like same (Some e) (repaired e p) s.
Proof. intros He Hw. exact (conj (repaired_well_formed e p) (like_repaired same e p s He Hw)). Qed.
Print Assumptions C44_unused_partial.

Example C44_unused_case :
  repaired 33 (str "a!b!\%!") = str "a!!b!!\%!!" /\
  like N.eqb (Some 33) (str "a!b!\%!") (str "a!b!\xyz!") = true.
Proof. by vm_compute. Qed.

(** ...except that a wildcard used as the escape stays a wildcard, and an unused backslash vanishes. *)
Theorem C44_unused_refuted :
  (exists p s, like N.eqb (Some PERCENT) p s <> like N.eqb (Some PERCENT) (repaired PERCENT p) s) /\
  (exists p s, like N.eqb (Some BSLASH) p s <> like N.eqb (Some BSLASH) (repaired BSLASH p) s).
Proof. split; [exists (str "%a"), (str "xa")|exists (str "\a"), (str "a")]; by vm_compute. Qed.
Print Assumptions C44_unused_refuted.
