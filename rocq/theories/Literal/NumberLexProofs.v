From Coq Require Import NArith ZArith ZifyN QArith Ascii String Lia.
From stdpp Require Import prelude list strings.
From Verif Require Import Lib.Text Functions.IntModel Literal.NumberModel Literal.NumberSpec Literal.NumberProofs.
#[local] Open Scope Z_scope.

(** ** From numerals to states *)
Lemma slice_app (st : nstate) (a b : text) :
  next_slice st (a ++ b) = match next_slice st a with Some st' => next_slice st' b | None => None end.
Proof. revert st. induction a as [|c a IH]; intros st; [done|]. cbn [app next_slice]. destruct (next st c); [apply IH|done]. Qed.
Lemma slice_whole (x d : text) : all_digits d -> next_slice (WholeNumber x) d = Some (WholeNumber (x ++ d)).
Proof.
  intros Hd. revert x. induction Hd as [|c d Hc _ IH]; intros x; [by rewrite app_nil_r|].
  cbn [next_slice next]. rewrite Hc, IH. by rewrite <- app_assoc.
Qed.
Lemma slice_decimal (x d : text) : all_digits d -> next_slice (DecimalNumber x) d = Some (DecimalNumber (x ++ d)).
Proof.
  intros Hd. revert x. induction Hd as [|c d Hc _ IH]; intros x; [by rewrite app_nil_r|].
  cbn [next_slice next]. rewrite Hc, IH. by rewrite <- app_assoc.
Qed.
Lemma slice_exponent (x d : text) : all_digits d -> next_slice (Exponent x) d = Some (Exponent (x ++ d)).
Proof.
  intros Hd. revert x. induction Hd as [|c d Hc _ IH]; intros x; [by rewrite app_nil_r|].
  cbn [next_slice next]. rewrite Hc, IH. by rewrite <- app_assoc.
Qed.
Lemma slice_start (d : text) : all_digits d -> d <> [] -> next_slice Start d = Some (WholeNumber d).
Proof.
  intros Hd Hn. destruct d as [|c d]; [done|]. cbn [next_slice next].
  rewrite (Forall_inv Hd). rewrite slice_whole by (by apply Forall_inv_tail in Hd). done.
Qed.

(** The state after a mantissa and after a whole numeral. *)
Definition mantissa_text (n : numeral) : text :=
  n_whole n ++ (if n_point n then str "." else []) ++ n_fraction n.
Definition mantissa_state (n : numeral) : nstate :=
  if n_point n then DecimalNumber (mantissa_text n) else WholeNumber (mantissa_text n).
Lemma slice_mantissa (n : numeral) :
  numeral_ok n -> next_slice Start (mantissa_text n) = Some (mantissa_state n).
Proof.
  destruct n as [sg wh pt fr ex]. intros (_ & Hw & Hf & Hne & Hp & _).
  unfold mantissa_state, mantissa_text. cbn [n_sign n_whole n_point n_fraction n_exponent] in *.
  destruct pt.
  - destruct (decide (wh = [])) as [->|Hn].
    + cbn [app]. destruct fr as [|c fr]; [done|].
      pose proof (Forall_inv Hf) as Hc. cbn in Hc.
      change (next_slice Start (str "." ++ c :: fr)) with (next_slice (DecimalPoint [46%N]) (c :: fr)).
      cbn [next_slice next]. rewrite Hc.
      rewrite slice_decimal by (by apply Forall_inv_tail in Hf). done.
    + rewrite slice_app, slice_start by done. change (next_slice (WholeNumber wh) (str "." ++ fr)) with (next_slice (DecimalNumber (wh ++ [46%N])) fr).
      rewrite slice_decimal by done. by rewrite <- app_assoc.
  - rewrite Hp by done. cbn [app]. rewrite app_nil_r. apply slice_start; [done|].
    rewrite Hp, app_nil_r in Hne by done. done.
Qed.
Definition numeral_state (n : numeral) : nstate :=
  match n_exponent n with None => mantissa_state n | Some _ => Exponent (numeral_text n) end.
Lemma numeral_text_unsigned (n : numeral) :
  n_sign n = [] -> numeral_text n = mantissa_text n ++ exponent_text (n_exponent n).
Proof. unfold numeral_text, mantissa_text. intros ->. cbn [app]. by rewrite <- !app_assoc. Qed.
Lemma next_marker (n : numeral) (l : N) :
  (l = 101 \/ l = 69)%N -> next (mantissa_state n) l = Some (ExponentMarker (mantissa_text n ++ [l])).
Proof. unfold mantissa_state. intros [->| ->]; destruct (n_point n); done. Qed.
Lemma slice_numeral (n : numeral) :
  numeral_ok n -> n_sign n = [] -> next_slice Start (numeral_text n) = Some (numeral_state n).
Proof.
  intros Hok Hs. pose proof Hok as (_ & _ & _ & _ & _ & He). unfold numeral_state.
  rewrite numeral_text_unsigned by done. rewrite slice_app, slice_mantissa by done.
  destruct (n_exponent n) as [[[l sg] ds]|]; cbn [exponent_text]; [|done].
  destruct He as (Hl & Hsg & Hd & Hn). cbn [next_slice]. rewrite next_marker by done.
  destruct ds as [|c ds]; [done|]. pose proof (Forall_inv Hd) as Hc. cbn in Hc.
  apply Forall_inv_tail in Hd.
  destruct Hsg as [->|[->| ->]].
  - cbn [app next_slice next]. rewrite digit_no_sign, Hc by done. rewrite slice_exponent by done.
    by rewrite <- !app_assoc.
  - change (next_slice (ExponentMarker ?x) (str "+" ++ c :: ds)) with (next_slice (ExponentSign (x ++ [43%N])) (c :: ds)).
    cbn [next_slice next]. rewrite Hc, slice_exponent by done. by rewrite <- !app_assoc.
  - change (next_slice (ExponentMarker ?x) (str "-" ++ c :: ds)) with (next_slice (ExponentSign (x ++ [45%N])) (c :: ds)).
    cbn [next_slice next]. rewrite Hc, slice_exponent by done. by rewrite <- !app_assoc.
Qed.

Lemma upper_letter (l c : N) : (97 <= l <= 122)%N -> upper c = (l - 32)%N -> letter l c = true.
Proof.
  intros Hl H. apply letter_cases. unfold upper in H.
  destruct (N.leb_spec 97 c), (N.leb_spec c 122); cbn [andb] in H; lia.
Qed.
Lemma letter_upper (l c : N) : (97 <= l <= 122)%N -> letter l c = true -> upper c = (l - 32)%N.
Proof.
  intros Hl [-> | ->]%letter_cases; unfold upper.
  - destruct (N.leb_spec 97 l), (N.leb_spec l 122); cbn [andb]; lia.
  - destruct (N.leb_spec 97 (l - 32)); cbn [andb]; lia.
Qed.
Lemma letter_no_digit (l c : N) : (97 <= l)%N -> letter l c = true -> is_digit c = false.
Proof.
  intros Hl H. destruct (is_digit c) eqn:E; [|done]. by rewrite digit_no_letter in H by (done || lia).
Qed.

Lemma numeral_state_final (n : numeral) : n_sign n = [] -> finalize (numeral_state n) = Some (numeral_text n, None).
Proof.
  intros Hs. unfold numeral_state. destruct (n_exponent n) eqn:E; [done|].
  rewrite numeral_text_unsigned by done. rewrite E. cbn [exponent_text]. rewrite app_nil_r.
  unfold mantissa_state. by destruct (n_point n).
Qed.
Lemma mantissa_is_text (n : numeral) : n_sign n = [] -> n_exponent n = None -> mantissa_text n = numeral_text n.
Proof. intros Hs He. rewrite numeral_text_unsigned by done. rewrite He. cbn. by rewrite app_nil_r. Qed.

(** ** A literal is read as its numeral and its suffix *)
Lemma number_literal_of_text (n : numeral) (suf : option suffix) (s : text) :
  literal_text n suf s -> number_literal s = Some (numeral_text n, suf).
Proof.
  intros (Hok & Hs & Hint & t & Ht & ->). unfold number_literal.
  rewrite slice_app, slice_numeral by done. unfold spells_suffix in Ht.
  destruct suf as [suf|].
  2: { destruct t; [|done]. cbn [next_slice]. by apply numeral_state_final. }
  assert (Hone : suf <> SufBd -> exists c, t = [c] /\ next (numeral_state n) c = Some (SuffixOne suf (numeral_text n))).
  { intros Hbd. destruct t as [|c [|c2 t]]; [by destruct suf| |by destruct suf].
    exists c. split; [done|]. apply (f_equal (fun l => nth 0 l 0%N)) in Ht. cbn [map nth] in Ht.
    unfold numeral_state. destruct (n_exponent n) as [ex|] eqn:Ee.
    - destruct suf; try done;
        try (exfalso; assert (plain n) as (_ & _ & Hx) by (apply Hint; unfold integer_suffix; naive_solver); congruence).
      + apply (upper_letter 102) in Ht; [|done]. cbn [next]. rewrite (letter_no_digit 102), Ht by done. done.
      + apply (upper_letter 100) in Ht; [|done]. apply letter_cases in Ht as [-> | ->]; done.
    - unfold mantissa_state. rewrite mantissa_is_text by done. destruct (n_point n) eqn:Ep.
      + destruct suf; try done;
          try (exfalso; assert (plain n) as (_ & Hx & _) by (apply Hint; unfold integer_suffix; naive_solver); congruence).
        * apply (upper_letter 102) in Ht; [|done]. apply letter_cases in Ht as [-> | ->]; done.
        * apply (upper_letter 100) in Ht; [|done]. apply letter_cases in Ht as [-> | ->]; done.
      + destruct suf; try done.
        * apply (upper_letter 121) in Ht; [|done]. apply letter_cases in Ht as [-> | ->]; done.
        * apply (upper_letter 115) in Ht; [|done]. apply letter_cases in Ht as [-> | ->]; done.
        * apply (upper_letter 108) in Ht; [|done]. apply letter_cases in Ht as [-> | ->]; done.
        * apply (upper_letter 102) in Ht; [|done]. apply letter_cases in Ht as [-> | ->]; done.
        * apply (upper_letter 100) in Ht; [|done]. apply letter_cases in Ht as [-> | ->]; done. }
  destruct (decide (suf = SufBd)) as [->|Hbd].
  - destruct t as [|b [|d [|? ?]]]; try done. cbn [map] in Ht.
    assert (Hb : upper b = 66%N) by (by apply (f_equal (fun l => nth 0 l 0%N)) in Ht).
    assert (Hd : upper d = 68%N) by (by apply (f_equal (fun l => nth 1 l 0%N)) in Ht).
    apply (upper_letter 98) in Hb; [|done]. apply (upper_letter 100) in Hd; [|done].
    assert (Hn : next (numeral_state n) b = Some (SuffixB (numeral_text n))).
    { unfold numeral_state. destruct (n_exponent n) as [ex|] eqn:Ee.
      - apply letter_cases in Hb as [-> | ->]; done.
      - unfold mantissa_state. rewrite mantissa_is_text by done.
        apply letter_cases in Hb as [-> | ->]; by destruct (n_point n). }
    cbn [next_slice]. rewrite Hn. cbn [next]. rewrite Hd. done.
  - destruct (Hone Hbd) as (c & -> & Hc). cbn [next_slice]. by rewrite Hc.
Qed.

(** ** From states to numerals *)
Definition inv (st : nstate) (s : text) : Prop :=
  match st with
  | Start => s = []
  | WholeNumber x => s = x /\ exists n, numeral_ok n /\ plain n /\ x = numeral_text n
  | DecimalPoint x => s = x /\ x = str "."
  | DecimalNumber x =>
      s = x /\ exists n, numeral_ok n /\ n_sign n = [] /\ n_point n = true /\ n_exponent n = None /\ x = numeral_text n
  | ExponentMarker x =>
      s = x /\ exists n l, numeral_ok n /\ n_sign n = [] /\ n_exponent n = None /\ (l = 101 \/ l = 69)%N /\
        x = numeral_text n ++ [l]
  | ExponentSign x =>
      s = x /\ exists n l sg, numeral_ok n /\ n_sign n = [] /\ n_exponent n = None /\ (l = 101 \/ l = 69)%N /\
        is_sign sg /\ x = numeral_text n ++ l :: sg
  | Exponent x =>
      s = x /\ exists n, numeral_ok n /\ n_sign n = [] /\ n_exponent n <> None /\ x = numeral_text n
  | SuffixOne suf x => exists n, literal_text n (Some suf) s /\ x = numeral_text n
  | SuffixB x => exists n b, numeral_ok n /\ n_sign n = [] /\ letter 98 b = true /\ x = numeral_text n /\ s = x ++ [b]
  end.

Lemma literal_text_one (n : numeral) (suf : suffix) (l c : N) :
  numeral_ok n -> n_sign n = [] -> (integer_suffix (Some suf) -> plain n) ->
  (97 <= l <= 122)%N -> suffix_letters (Some suf) = [(l - 32)%N] -> letter l c = true ->
  literal_text n (Some suf) (numeral_text n ++ [c]).
Proof.
  intros Hok Hs Hi Hl Hsuf Hc. split_and!; [done|done|done|]. exists [c]. split; [|done].
  unfold spells_suffix. cbn [map]. rewrite Hsuf. f_equal. by apply letter_upper.
Qed.

(** A digit more in the whole part, in the fraction, in the exponent. *)
Lemma all_digits_snoc (d : text) (c : N) : all_digits d -> is_digit c = true -> all_digits (d ++ [c]).
Proof. intros Hd Hc. apply Forall_app. split; [done|]. by constructor. Qed.

Ltac nstep := cbn [n_sign n_whole n_point n_fraction n_exponent].

Lemma grow_whole (n : numeral) (c : N) :
  numeral_ok n -> plain n -> is_digit c = true ->
  exists n', numeral_ok n' /\ plain n' /\ numeral_text n ++ [c] = numeral_text n'.
Proof.
  destruct n as [sg wh pt fr ex]. intros (Hs & Hw & Hf & Hne & Hp & He) (H1 & H2 & H3) Hc.
  cbn [n_sign n_whole n_point n_fraction n_exponent] in *. subst.
  exists (Numeral [] (wh ++ [c]) false [] None). unfold numeral_ok, plain, numeral_text. nstep.
  rewrite Hp by done. cbn [app exponent_text]. rewrite !app_nil_r.
  split_and!; try done; try first [by left | by apply all_digits_snoc | by repeat constructor | by destruct wh, fr | by destruct wh].
Qed.
Lemma grow_fraction (n : numeral) (c : N) :
  numeral_ok n -> n_sign n = [] -> n_point n = true -> n_exponent n = None -> is_digit c = true ->
  exists n', numeral_ok n' /\ n_sign n' = [] /\ n_point n' = true /\ n_exponent n' = None /\
    numeral_text n ++ [c] = numeral_text n'.
Proof.
  destruct n as [sg wh pt fr ex]. intros (Hs & Hw & Hf & Hne & Hp & He) H1 H2 H3 Hc.
  cbn [n_sign n_whole n_point n_fraction n_exponent] in *. subst.
  exists (Numeral [] wh true (fr ++ [c]) None). unfold numeral_ok, numeral_text. nstep.
  cbn [app exponent_text]. rewrite !app_nil_r.
  split_and!; try done; try first [by left | by apply all_digits_snoc | by repeat constructor | by destruct wh, fr | by destruct wh].
  by rewrite <- !app_assoc.
Qed.
Lemma grow_exponent (n : numeral) (c : N) :
  numeral_ok n -> n_sign n = [] -> n_exponent n <> None -> is_digit c = true ->
  exists n', numeral_ok n' /\ n_sign n' = [] /\ n_exponent n' <> None /\ numeral_text n ++ [c] = numeral_text n'.
Proof.
  destruct n as [sg wh pt fr [[[l sg'] ds]|]]; [|done].
  intros (Hs & Hw & Hf & Hne & Hp & Hl & Hs' & Hd & Hdn) H1 _ Hc.
  cbn [n_sign n_whole n_point n_fraction n_exponent] in *. subst.
  exists (Numeral [] wh pt fr (Some (l, sg', ds ++ [c]))). unfold numeral_ok, numeral_text. nstep.
  cbn [exponent_text].
  split_and!; try done; [by apply all_digits_snoc|by destruct ds|].
  rewrite <- !app_assoc. cbn [app]. by rewrite <- !app_assoc.
Qed.
Lemma start_exponent (n : numeral) (l c : N) (sg : text) :
  numeral_ok n -> n_sign n = [] -> n_exponent n = None -> (l = 101 \/ l = 69)%N -> is_sign sg ->
  is_digit c = true ->
  exists n', numeral_ok n' /\ n_sign n' = [] /\ n_exponent n' <> None /\
    numeral_text n ++ l :: sg ++ [c] = numeral_text n'.
Proof.
  destruct n as [sg0 wh pt fr ex]. intros (Hs & Hw & Hf & Hne & Hp & He) H1 H2 Hl Hsg Hc.
  cbn [n_sign n_whole n_point n_fraction n_exponent] in *. subst.
  exists (Numeral [] wh pt fr (Some (l, sg, [c]))). unfold numeral_ok, numeral_text. nstep.
  cbn [exponent_text]. rewrite !app_nil_r.
  split_and!; try done; [by repeat constructor|]. by rewrite <- !app_assoc.
Qed.

Ltac suffix_case H n l :=
  injection H as <-; exists n; split; [|done];
  apply (literal_text_one n _ l); [done|done| |done|done|done].

Lemma inv_next (st st' : nstate) (s : text) (c : N) :
  inv st s -> next st c = Some st' -> inv st' (s ++ [c]).
Proof.
  destruct st as [|x|x|x|x|x|x|suf x|x]; cbn [inv next].
  - intros -> H. destruct (is_digit c) eqn:Hc.
    + injection H as <-. cbn [inv app]. split; [done|]. exists (Numeral [] [c] false [] None).
      unfold numeral_ok, plain, numeral_text. nstep. cbn. split_and!; try done; try first [by left|by repeat constructor].
    + case_bool_decide; [|done]. subst. injection H as <-. done.
  - intros [-> (n & Hok & Hpl & ->)] H. pose proof Hpl as (Hs & Hpt & Hex).
    destruct (is_digit c) eqn:Hc.
    { injection H as <-. cbn [inv]. split; [done|]. destruct (grow_whole n c) as (n' & ? & ? & ->); try done. by exists n'. }
    case_bool_decide as Hp.
    { subst c. injection H as <-. cbn [inv]. split; [done|]. destruct n as [sg wh pt fr ex].
      destruct Hok as (Hs0 & Hw & Hf & Hne & Hp0 & He).
      cbn [n_sign n_whole n_point n_fraction n_exponent] in *. subst.
      exists (Numeral [] wh true [] None). unfold numeral_ok, numeral_text. nstep. rewrite Hp0 in * by done.
      cbn [app exponent_text]. rewrite !app_nil_r in *. split_and!; try done; try (by left). }
    destruct (letter 101 c) eqn:L1.
    { injection H as <-. cbn [inv]. split; [done|]. exists n, c. split_and!; try done. by apply letter_cases in L1. }
    destruct (letter 121 c) eqn:L2; [suffix_case H n 121%N; done|].
    destruct (letter 115 c) eqn:L3; [suffix_case H n 115%N; done|].
    destruct (letter 108 c) eqn:L4; [suffix_case H n 108%N; done|].
    destruct (letter 102 c) eqn:L5; [suffix_case H n 102%N; done|].
    destruct (letter 100 c) eqn:L6; [suffix_case H n 100%N; done|].
    destruct (letter 98 c) eqn:L7; [|done]. injection H as <-. exists n, c. done.
  - intros [-> ->] H. destruct (is_digit c) eqn:Hc; [|done]. injection H as <-. split; [done|].
    exists (Numeral [] [] true [c] None). unfold numeral_ok, numeral_text. nstep. cbn.
    split_and!; try done; try first [by left|by repeat constructor].
  - intros [-> (n & Hok & Hs & Hpt & Hex & ->)] H. destruct (is_digit c) eqn:Hc.
    { injection H as <-. split; [done|]. destruct (grow_fraction n c) as (n' & ? & ? & ? & ? & ->); try done. by exists n'. }
    destruct (letter 101 c) eqn:L1.
    { injection H as <-. cbn [inv]. split; [done|]. exists n, c. split_and!; try done. by apply letter_cases in L1. }
    destruct (letter 102 c) eqn:L5; [suffix_case H n 102%N; intros [?|[?|?]]; done|].
    destruct (letter 100 c) eqn:L6; [suffix_case H n 100%N; intros [?|[?|?]]; done|].
    destruct (letter 98 c) eqn:L7; [|done]. injection H as <-. exists n, c. done.
  - intros [-> (n & l & Hok & Hs & Hex & Hl & ->)] H.
    destruct (bool_decide (c = 43%N) || bool_decide (c = 45%N)) eqn:Hsg.
    + injection H as <-. split; [done|]. exists n, l, [c]. split_and!; try done.
      * apply orb_true_iff in Hsg as [->%bool_decide_eq_true | ->%bool_decide_eq_true]; [by right; left|by right; right].
      * by rewrite <- app_assoc.
    + destruct (is_digit c) eqn:Hc; [|done]. injection H as <-. split; [done|].
      destruct (start_exponent n l c []) as (n' & ? & ? & ? & Ht); try done; [by left|].
      exists n'. split_and!; try done. rewrite <- Ht. by rewrite <- app_assoc.
  - intros [-> (n & l & sg & Hok & Hs & Hex & Hl & Hsg & ->)] H.
    destruct (is_digit c) eqn:Hc; [|done]. injection H as <-. split; [done|].
    destruct (start_exponent n l c sg) as (n' & ? & ? & ? & Ht); try done.
    exists n'. split_and!; try done. rewrite <- Ht. by rewrite <- app_assoc.
  - intros [-> (n & Hok & Hs & Hex & ->)] H. destruct (is_digit c) eqn:Hc.
    { injection H as <-. split; [done|]. destruct (grow_exponent n c) as (n' & ? & ? & ? & ->); try done. by exists n'. }
    destruct (letter 102 c) eqn:L5; [suffix_case H n 102%N; intros [?|[?|?]]; done|].
    destruct (letter 100 c) eqn:L6; [suffix_case H n 100%N; intros [?|[?|?]]; done|].
    destruct (letter 98 c) eqn:L7; [|done]. injection H as <-. exists n, c. done.
  - done.
  - intros (n & b & Hok & Hs & Hb & -> & ->) H. destruct (letter 100 c) eqn:L6; [|done]. injection H as <-.
    exists n. split; [|done]. split_and!; [done|done|intros [?|[?|?]]; done|].
    exists [b; c]. split; [|by rewrite <- app_assoc]. unfold spells_suffix. cbn [map].
    rewrite (letter_upper 98 b), (letter_upper 100 c) by done. done.
Qed.
Lemma inv_slice (t : text) : forall (st st' : nstate) (s : text),
  inv st s -> next_slice st t = Some st' -> inv st' (s ++ t).
Proof.
  induction t as [|c t IH]; intros st st' s Hi H; cbn [next_slice] in H.
  - injection H as <-. by rewrite app_nil_r.
  - destruct (next st c) as [st1|] eqn:E; [|done].
    pose proof (inv_next st st1 s c Hi E) as H1. specialize (IH st1 st' (s ++ [c]) H1 H).
    by rewrite <- app_assoc in IH.
Qed.
Lemma number_literal_text (s v : text) (suf : option suffix) :
  number_literal s = Some (v, suf) -> exists n, literal_text n suf s /\ v = numeral_text n.
Proof.
  unfold number_literal. destruct (next_slice Start s) as [st|] eqn:E; [|done].
  pose proof (inv_slice s Start st [] eq_refl E) as Hi. cbn [app] in Hi.
  assert (Hnone : forall n, numeral_ok n -> n_sign n = [] -> s = numeral_text n ->
    exists n', literal_text n' None s /\ numeral_text n = numeral_text n').
  { intros n Hok Hs Hsn. exists n. split; [|done]. split_and!; [done|done|intros [?|[?|?]]; done|].
    exists []. split; [done|]. by rewrite app_nil_r. }
  destruct st as [|x|x|x|x|x|x|sf x|x]; cbn [finalize inv] in *; intros H; try done; injection H as <- <-.
  - destruct Hi as [-> (n & Hok & (Hs & _) & Ht)]. subst x. by apply Hnone.
  - destruct Hi as [-> (n & Hok & Hs & _ & _ & Ht)]. subst x. by apply Hnone.
  - destruct Hi as [-> (n & Hok & Hs & _ & Ht)]. subst x. by apply Hnone.
  - destruct Hi as (n & Hl & Ht). by exists n.
Qed.
