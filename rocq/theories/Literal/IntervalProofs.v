From Coq Require Import NArith ZArith ZifyN ZifyBool Ascii String Lia.
From stdpp Require Import prelude list strings.
From Verif Require Import Lib.Text Functions.IntModel Literal.NumberModel Literal.NumberSpec
  Literal.NumberProofs Literal.IntervalModel Literal.IntervalSpec.
#[local] Open Scope Z_scope.

(** ** What the expressions match *)
Lemma digit_no_space (c : N) : is_digit c = true -> is_space c = false.
Proof. intros H%digit_bounds. unfold is_space. lia. Qed.
Lemma drop_spaces_split (s : text) : exists b, blanks b /\ s = b ++ drop_spaces s.
Proof.
  induction s as [|c s (b & Hb & Hs)]; [by exists []; split; [constructor|]|]. cbn [drop_spaces].
  destruct (is_space c) eqn:E; [|by exists []; split; [constructor|]].
  exists (c :: b). split; [by constructor|]. cbn [app]. by rewrite <- Hs.
Qed.
Definition no_space_head (s : text) : Prop := match s with c :: _ => is_space c = false | [] => True end.
Lemma drop_spaces_run (b s : text) : blanks b -> no_space_head s -> drop_spaces (b ++ s) = s.
Proof.
  intros Hb Hs. induction Hb as [|c b Hc _ IH]; cbn [app drop_spaces].
  - destruct s as [|c s]; [done|]. cbn [drop_spaces]. cbn in Hs. by rewrite Hs.
  - by rewrite Hc.
Qed.
Lemma match_digits_some (s d r : text) : match_digits s = Some (d, r) -> number d /\ s = d ++ r.
Proof.
  unfold match_digits. case_bool_decide as E; [done|]. intros [= <- <-].
  destruct (digit_run_split s) as [H1 H2]. done.
Qed.
Lemma match_digits_run (d r : text) : number d -> no_digit_head r -> match_digits (d ++ r) = Some (d, r).
Proof.
  intros [Hd Hn] Hr. unfold match_digits. rewrite digit_run_run by done.
  rewrite bool_decide_false by done. by rewrite drop_length_app.
Qed.

(** What separates the fields. *)
Definition sep_of (f : field) : sep := match f with FMonth => Dash | FHour => Spaces | _ => Colon end.
Definition seps_ok (l : list (sep * field)) : Prop := Forall (fun xf => xf.1 = sep_of xf.2) l.
Lemma match_sep_some (f : field) (s r : text) :
  match_sep (sep_of f) s = Some r -> exists b, before f b /\ s = b ++ r.
Proof.
  destruct s as [|c s]; [done|]. cbn [match_sep]. destruct f; cbn [sep_of before];
    try (case_bool_decide as E; [|done]; subst; intros [= <-]; by eexists).
  destruct (is_space c) eqn:E; [|done]. intros [= <-].
  destruct (drop_spaces_split s) as (b & Hb & Hs). exists (c :: b). split_and!; [by constructor|done|].
  cbn [app]. by rewrite <- Hs.
Qed.
Lemma match_sep_run (f : field) (b r : text) :
  before f b -> no_space_head r -> match_sep (sep_of f) (b ++ r) = Some r.
Proof.
  intros Hb Hr. destruct f; cbn [before sep_of] in *; try (subst b; cbn; by rewrite bool_decide_true).
  destruct Hb as [Hb Hn]. destruct b as [|c b]; [done|]. cbn [app match_sep].
  apply Forall_cons_1 in Hb as [Hc Hb]. by rewrite Hc, drop_spaces_run.
Qed.
Lemma match_fields_some (l : list (sep * field)) (s r : text) caps :
  seps_ok l -> match_fields l s = Some (caps, r) ->
  exists t, s = t ++ r /\ shows_more caps t /\ map fst caps = map snd l.
Proof.
  intros Hl. revert s r caps. induction Hl as [|[x f] l Hx _ IH]; intros s r caps; cbn [match_fields].
  - intros [= <- <-]. exists []. split_and!; [done|constructor|done].
  - cbn in Hx. subst x. destruct (match_sep (sep_of f) s) as [s1|] eqn:E1; [|done]. cbn [mbind option_bind].
    destruct (match_digits s1) as [[d s2]|] eqn:E2; [|done]. cbn [mbind option_bind].
    destruct (match_fields l s2) as [[caps' s3]|] eqn:E3; [|done]. cbn [mbind option_bind].
    intros [= <- <-]. apply match_sep_some in E1 as (b & Hb & ->). apply match_digits_some in E2 as [Hd ->].
    apply IH in E3 as (t & -> & Ht & Hm). exists (b ++ d ++ t). split_and!.
    + by rewrite <- !app_assoc.
    + by constructor.
    + cbn [map fst snd]. by f_equal.
Qed.
Lemma number_head (d r : text) : number d -> no_space_head (d ++ r).
Proof. intros [Hd Hn]. destruct d as [|c d]; [done|]. cbn. apply Forall_inv in Hd. by apply digit_no_space. Qed.
Lemma space_no_digit (c : N) : is_space c = true -> is_digit c = false.
Proof. destruct (is_digit c) eqn:E; [|done]. apply digit_no_space in E. congruence. Qed.
Lemma before_head (f : field) (b r : text) : before f b -> no_digit_head (b ++ r).
Proof.
  destruct f; cbn [before]; try by intros ->. intros [Hb Hn]. destruct b as [|c b]; [done|].
  apply Forall_inv in Hb. cbn. by apply space_no_digit.
Qed.
Lemma shows_more_head caps (t r : text) : shows_more caps t -> no_digit_head r -> no_digit_head (t ++ r).
Proof.
  destruct 1 as [|f d caps b s _ Hb _]; intros Hr; [done|]. rewrite <- !app_assoc. by apply (before_head f).
Qed.
Lemma match_fields_run (l : list (sep * field)) (t r : text) caps :
  seps_ok l -> map fst caps = map snd l -> shows_more caps t -> no_digit_head r ->
  match_fields l (t ++ r) = Some (caps, r).
Proof.
  intros Hl Hm Ht Hr. revert l Hl Hm. induction Ht as [|f d caps b s Hd Hb Hs IH]; intros l Hl Hm.
  - by destruct l.
  - destruct l as [|[x f'] l]; [done|]. cbn [map fst snd] in Hm. injection Hm as -> Hm.
    apply Forall_cons_1 in Hl as [Hx Hl]. cbn in Hx. subst x. cbn [match_fields].
    rewrite <- !app_assoc. rewrite match_sep_run by (done || by apply number_head). cbn [mbind option_bind].
    rewrite match_digits_run by (done || by apply (shows_more_head caps)). cbn [mbind option_bind].
    by rewrite IH.
Qed.

Lemma layout_fields (k : kind) : (layout k).1 :: map snd (layout k).2 = fields_of k.
Proof. by destruct k. Qed.
Lemma layout_seps (k : kind) : seps_ok (layout k).2.
Proof. by destruct k; repeat constructor. Qed.
Lemma has_fraction_spec (k : kind) : has_fraction k = true <-> last_field k = FSecond.
Proof. by destruct k. Qed.

Lemma match_fraction_some (k : kind) (s r : text) fraction :
  last_field k = FSecond -> no_digit_head s -> match_fraction s = (fraction, r) ->
  exists t, s = t ++ r /\ shows_fraction k fraction t.
Proof.
  intros Hk Hs. unfold match_fraction. cbv zeta.
  destruct s as [|c s]; cbn [skip_point].
  - cbn. intros [= <- <-]. exists []. split; [done|]. by left.
  - destruct (decide (c = 46%N)) as [->|Hc].
    + rewrite (bool_decide_true (46%N = 46%N)) by done. destruct (digit_run_split s) as [Hd Hsp].
      case_bool_decide as E; intros [= <- <-].
      * exists [46%N]. split; [|right; done]. rewrite E. done.
      * exists (46%N :: digit_run s). split; [cbn [app]; by rewrite <- Hsp|]. done.
    + rewrite (bool_decide_false (c = 46%N)) by done. rewrite digit_run_nil by done. cbn.
      intros [= <- <-]. exists []. split; [done|by left].
Qed.
Lemma forallb_blanks (s : text) : forallb is_space s = true <-> blanks s.
Proof.
  unfold blanks. induction s as [|c s IH]; cbn [forallb]; [by split; [constructor|]|].
  rewrite andb_true_iff, IH. split; [by intros [H1 H2]; constructor|by intros [H1 H2]%Forall_cons_1].
Qed.
Lemma blanks_no_digit (s : text) : blanks s -> no_digit_head s.
Proof. destruct 1; [done|]. cbn. by apply space_no_digit. Qed.
Lemma blanks_no_point (s : text) : blanks s -> skip_point s = s.
Proof.
  destruct 1 as [|c s Hc _]; [done|]. cbn. rewrite bool_decide_false; [done|]. intros ->. done.
Qed.
Lemma match_fraction_run (k : kind) (t r : text) fraction :
  shows_fraction k fraction t -> blanks r -> match_fraction (t ++ r) = (fraction, r).
Proof.
  intros Ht Hr. unfold match_fraction. cbv zeta. destruct fraction as [d|]; cbn [shows_fraction] in Ht.
  - destruct Ht as (_ & [Hd Hn] & ->). cbn [str map app list_ascii_of_string]. cbn [skip_point].
    rewrite (bool_decide_true (46%N = 46%N)) by done. rewrite digit_run_run by (done || by apply blanks_no_digit).
    rewrite bool_decide_false by done. by rewrite drop_length_app.
  - destruct Ht as [->|[_ ->]].
    + cbn [app]. rewrite blanks_no_point by done. rewrite digit_run_nil by (by apply blanks_no_digit). done.
    + change (str "." ++ r) with (46%N :: r). cbn [skip_point]. rewrite (bool_decide_true (46%N = 46%N)) by done.
      rewrite digit_run_nil by (by apply blanks_no_digit). done.
Qed.

Lemma match_fields_no_digit (l : list (sep * field)) (s r : text) caps :
  no_digit_head s -> match_fields l s = Some (caps, r) -> no_digit_head r.
Proof.
  revert s caps. induction l as [|[x f] l IH]; intros s caps Hs; cbn [match_fields].
  - intros [= _ <-]. done.
  - destruct (match_sep x s) as [s1|]; [|done]. cbn [mbind option_bind].
    destruct (match_digits s1) as [[d s2]|] eqn:E2; [|done]. cbn [mbind option_bind].
    destruct (match_fields l s2) as [[caps' s3]|] eqn:E3; [|done]. cbn [mbind option_bind].
    intros [= _ <-]. eapply IH; [|exact E3]. clear -E2. unfold match_digits in E2.
    case_bool_decide; [done|]. injection E2 as <- <-. clear. induction s1 as [|c s1 IH]; [done|].
    cbn [digit_run]. destruct (is_digit c) eqn:E; [|done]. by cbn [length drop].
Qed.
Lemma match_digits_no_digit (s d r : text) : match_digits s = Some (d, r) -> no_digit_head r.
Proof.
  intros E2. unfold match_digits in E2.
  case_bool_decide; [done|]. injection E2 as <- <-. clear. induction s as [|c s1 IH]; [done|].
  cbn [digit_run]. destruct (is_digit c) eqn:E; [|done]. by cbn [length drop].
Qed.

Theorem regex_written (k : kind) (s sign : text) caps fraction :
  regex k s = Some (sign, caps, fraction) <-> written k s sign caps fraction.
Proof.
  unfold regex, written. split.
  - destruct (take_sign (drop_spaces s)) as [sg s1] eqn:E0.
    destruct (match_digits s1) as [[d s2]|] eqn:E1; [|done]. cbn [mbind option_bind].
    destruct (match_fields (layout k).2 s2) as [[caps' s3]|] eqn:E2; [|done]. cbn [mbind option_bind].
    destruct (if has_fraction k then match_fraction s3 else (None, s3)) as [fr s4] eqn:E3.
    destruct (forallb is_space s4) eqn:E4; [|done]. intros [= <- <- <-].
    destruct (drop_spaces_split s) as (lead & Hlead & Hs). apply take_sign_split in E0 as [Hsg E0].
    pose proof (match_digits_no_digit _ _ _ E1) as Hn2.
    pose proof (match_fields_no_digit _ _ _ _ Hn2 E2) as Hn3.
    apply match_digits_some in E1 as [Hd ->].
    apply match_fields_some in E2 as (t & -> & Ht & Hm); [|apply layout_seps].
    assert (exists f, s3 = f ++ s4 /\ shows_fraction k fr f) as (f & -> & Hf).
    { destruct (has_fraction k) eqn:Ek.
      - apply has_fraction_spec in Ek. by apply (match_fraction_some k).
      - injection E3 as <- <-. exists []. split; [done|by left]. }
    exists lead, (d ++ t), f, s4. split_and!; try done.
    + cbn [map fst]. rewrite Hm. apply layout_fields.
    + by apply forallb_blanks.
    + rewrite Hs, E0. by rewrite <- !app_assoc.
  - intros (lead & body & frac & trail & Hlead & Hsg & Hm & Hb & Hf & Htrail & ->).
    destruct Hb as [f d caps t Hd Ht]. cbn [map fst] in Hm. rewrite <- layout_fields in Hm.
    injection Hm as -> Hm.
    assert (Hfr : no_digit_head (frac ++ trail)).
    { destruct fraction as [x|]; cbn [shows_fraction] in Hf.
      - by destruct Hf as (_ & _ & ->).
      - destruct Hf as [->|[_ ->]]; [by apply blanks_no_digit|done]. }
    rewrite drop_spaces_run; [|done|].
    + rewrite <- !app_assoc. rewrite take_sign_digits by (done || apply Hd).
      rewrite match_digits_run by (done || by apply (shows_more_head caps)). cbn [mbind option_bind].
      rewrite (match_fields_run _ _ _ caps) by (done || apply layout_seps). cbn [mbind option_bind].
      assert (He : (if has_fraction k then match_fraction (frac ++ trail) else (None, frac ++ trail)) =
                   (fraction, trail)).
      { destruct (has_fraction k) eqn:Ek; [by apply (match_fraction_run k)|].
        assert (last_field k <> FSecond) as Hl by (rewrite <- has_fraction_spec; congruence).
        destruct fraction as [x|]; cbn [shows_fraction] in Hf; [by destruct Hf|].
        by destruct Hf as [->|[? _]]. }
      rewrite He. apply forallb_blanks in Htrail. by rewrite Htrail.
    + destruct Hsg as [->|[->| ->]]; [|done|done]. cbn [app]. rewrite <- app_assoc. by apply number_head.
Qed.

(** ** Values *)
Lemma parse_int_number (bits : Z) (d : text) :
  number d -> parse_int bits d = checked bits (Z.of_N (dec_value d)).
Proof. intros [Hd Hn]. apply (parse_int_numeral bits [] d); [by left|done|done]. Qed.
Lemma shows_more_numbers caps (s : text) : shows_more caps s -> Forall (fun c => number c.2) caps.
Proof. induction 1; by constructor. Qed.
Lemma shows_numbers caps (s : text) : shows caps s -> Forall (fun c => number c.2) caps.
Proof. destruct 1 as [f d caps s Hd Hs]. constructor; [done|]. by apply (shows_more_numbers caps s). Qed.

Lemma div_scale (a b c : Z) : 0 <= a -> 0 < b -> 0 < c -> a * c / (b * c) = a / b.
Proof. intros. apply Z.div_mul_cancel_r; lia. Qed.
(** Taking six digits truncates. *)
Lemma fraction_truncated (d : text) :
  all_digits d ->
  Z.of_N (dec_value (take 6 (d ++ replicate 6 48%N))) =
  Z.of_N (dec_value d) * 1000000 / 10 ^ Z.of_nat (length d).
Proof.
  intros Hd. destruct (decide (length d <= 6)%nat) as [Hl|Hl].
  - rewrite take_app_ge by lia. rewrite take_replicate, Nat.min_l by lia.
    rewrite dec_value_snoc, dec_value_zeros, replicate_length.
    rewrite N.add_0_r, N2Z.inj_mul, N2Z.inj_pow.
    change (Z.of_N 10) with 10. rewrite nat_N_Z. rewrite Nat2Z.inj_sub by lia.
    change 1000000 with (10 ^ 6). change (Z.of_nat 6) with 6.
    replace (10 ^ 6) with (10 ^ (6 - Z.of_nat (length d)) * 10 ^ Z.of_nat (length d))
      by (rewrite <- Z.pow_add_r by lia; f_equal; lia).
    rewrite Z.mul_assoc, Z.div_mul; [done|]. apply Z.pow_nonzero; lia.
  - rewrite take_app_le by lia.
    pose proof (take_drop 6 d) as Hs. rewrite <- Hs at 2. rewrite dec_value_snoc.
    assert (Hdl : length (drop 6 d) = (length d - 6)%nat) by apply drop_length.
    assert (Hb : (dec_value (drop 6 d) < 10 ^ N.of_nat (length (drop 6 d)))%N).
    { apply dec_value_bound. rewrite <- Hs in Hd. by apply Forall_app in Hd as [_ Hd]. }
    rewrite Hdl in *. set (a := dec_value (take 6 d)) in *. set (b := dec_value (drop 6 d)) in *.
    replace (Z.of_nat (length d)) with (Z.of_nat (length d - 6) + 6) by lia.
    rewrite Z.pow_add_r by lia. change (10 ^ 6) with 1000000.
    assert (0 < 10 ^ Z.of_nat (length d - 6)) by (apply Z.pow_pos_nonneg; lia).
    rewrite div_scale by lia.
    rewrite N2Z.inj_add, N2Z.inj_mul, N2Z.inj_pow. change (Z.of_N 10) with 10. rewrite nat_N_Z.
    rewrite Z.add_comm, Z.div_add by lia. rewrite Z.div_small; [lia|].
    split; [lia|]. apply N2Z.inj_lt in Hb. rewrite N2Z.inj_pow, nat_N_Z in Hb. done.
Qed.
Lemma take_fraction_digits (d : text) : all_digits d -> all_digits (take 6 (d ++ replicate 6 48%N)).
Proof.
  intros Hd. apply Forall_take. apply Forall_app. split; [done|]. by repeat constructor.
Qed.
Lemma fraction_value_exact (fraction : option text) :
  match fraction with Some d => number d | None => True end ->
  fraction_value fraction = Some (fraction_micros fraction) /\ 0 <= fraction_micros fraction < 1000000.
Proof.
  destruct fraction as [d|]; [|done]. intros [Hd Hn]. cbn [fraction_value fraction_micros].
  pose proof (take_fraction_digits d Hd) as Ht.
  assert (Hlen : length (take 6 (d ++ replicate 6 48%N)) = 6%nat).
  { rewrite take_length, app_length, replicate_length. lia. }
  pose proof (dec_value_bound _ Ht) as Hb. rewrite Hlen in Hb. change (10 ^ N.of_nat 6)%N with 1000000%N in Hb.
  rewrite parse_int_number by (split; [done|]; intros E; by rewrite E in Hlen).
  rewrite <- fraction_truncated by done. split; [|lia]. apply checked_some. unfold fits, int_min, int_max.
  change (2 ^ (64 - 1)) with 9223372036854775808. lia.
Qed.
Lemma shows_fraction_number (k : kind) (s : text) fraction :
  shows_fraction k fraction s -> match fraction with Some d => number d | None => True end.
Proof. destruct fraction as [d|]; [|done]. by intros (_ & ? & _). Qed.

(** The number of a field, 0 if it is not there. *)
Definition val (f : field) (caps : list (field * text)) : Z :=
  match list_find (fun c : field * text => c.1 = f) caps with
  | Some (_, (_, d)) => Z.of_N (dec_value d)
  | None => 0
  end.
Lemma val_nonneg (f : field) caps : 0 <= val f caps.
Proof. unfold val. destruct (list_find _ caps) as [[i [f' d]]|]; lia. Qed.
Lemma checked_spec (bits n : Z) : checked bits n = if bool_decide (int_min bits <= n <= int_max bits) then Some n else None.
Proof.
  unfold checked, fits. destruct (decide (int_min bits <= n <= int_max bits)) as [H|H].
  - rewrite bool_decide_true by done. replace (int_min bits <=? n) with true by lia. by replace (n <=? int_max bits) with true by lia.
  - rewrite bool_decide_false by done. destruct (int_min bits <=? n) eqn:E1; [|done]. destruct (n <=? int_max bits) eqn:E2; [|done].
    destruct H. lia.
Qed.
Lemma i32_bounds : int_min 32 = -2147483648 /\ int_max 32 = 2147483647.
Proof. done. Qed.
Lemma i64_bounds : int_min 64 = -9223372036854775808 /\ int_max 64 = 9223372036854775807.
Proof. done. Qed.
Lemma field_value_val (bits : Z) (f : field) caps :
  int_min bits <= 0 <= int_max bits -> Forall (fun c => number c.2) caps ->
  field_value bits f caps = checked bits (val f caps).
Proof.
  intros Hb Hc. unfold field_value, val. destruct (list_find _ caps) as [[i [f' d]]|] eqn:E.
  - apply list_find_Some in E as (Hi & _ & _). apply parse_int_number.
    eapply list.Forall_lookup in Hc; [|exact Hi]. done.
  - by rewrite checked_spec, bool_decide_true.
Qed.
Lemma val_nil (f : field) : val f [] = 0.
Proof. done. Qed.
Lemma val_cons (f f' : field) (d : text) caps :
  val f ((f', d) :: caps) = if decide (f' = f) then Z.of_N (dec_value d) else val f caps.
Proof.
  unfold val. cbn [list_find fst]. destruct (decide (f' = f)); [done|].
  by destruct (list_find _ caps) as [[i [f'' d']]|].
Qed.
Lemma map_fst_cons {A B : Type} (l : list (A * B)) (a : A) (l' : list A) :
  map fst l = a :: l' -> exists b l2, l = (a, b) :: l2 /\ map fst l2 = l'.
Proof. destruct l as [|[x b] l]; [done|]. cbn. intros [= -> <-]. by eexists _, _. Qed.
Lemma total_cons (unit : field -> Z) (f : field) (d : text) caps :
  total unit ((f, d) :: caps) = Z.of_N (dec_value d) * unit f + total unit caps.
Proof. done. Qed.
Lemma total_nil (unit : field -> Z) : total unit [] = 0.
Proof. done. Qed.
Lemma totals (k : kind) caps :
  map fst caps = fields_of k ->
  (is_year_month k = true -> total months_in caps = val FYear caps * 12 + val FMonth caps) /\
  (is_year_month k = false -> total micros_in caps =
     val FDay caps * 86400000000 + val FHour caps * 3600000000 + val FMinute caps * 60000000 + val FSecond caps * 1000000).
Proof.
  intros Hm. destruct k; vm_compute in Hm;
  repeat (apply map_fst_cons in Hm as (? & ? & -> & Hm)); apply map_eq_nil in Hm as ->;
  split; intros; try done; rewrite ?total_cons, ?total_nil, ?val_cons, ?val_nil;
  repeat (case_decide; [try discriminate|try done]); cbn [months_in micros_in]; lia.
Qed.

Lemma negative_minus (sign : text) : negative sign = is_minus sign.
Proof. done. Qed.
Lemma negate_if_exact (b : bool) (bits n : Z) :
  0 <= n <= int_max bits -> int_min bits = - int_max bits - 1 -> negate_if b bits n = Some (opposite_if b n).
Proof.
  intros Hn Hm. unfold negate_if, opposite_if. destruct b; [|done].
  by rewrite checked_spec, bool_decide_true by lia.
Qed.
Lemma delta_some (n : Z) : 0 <= n <= delta_max -> delta n = Some n.
Proof. intros H. unfold delta. by replace (Z.abs n <=? delta_max) with true by lia. Qed.
Lemma delta_none (n : Z) : delta_max < n -> delta n = None.
Proof. intros H. unfold delta. by replace (Z.abs n <=? delta_max) with false by lia. Qed.
Lemma delta_max_value : delta_max = 9223372036854775807000.
Proof. done. Qed.
Lemma delta_case (n : Z) : 0 <= n -> delta n = Some n \/ delta n = None /\ int_max 64 < n.
Proof.
  intros Hn. destruct (decide (n <= delta_max)) as [H|H]; [left; by apply delta_some|right].
  split; [apply delta_none; lia|]. rewrite delta_max_value in H. destruct i64_bounds. lia.
Qed.
Lemma checked64_case (n : Z) : 0 <= n -> checked 64 n = Some n /\ n <= int_max 64 \/ checked 64 n = None /\ int_max 64 < n.
Proof.
  intros Hn. rewrite checked_spec. destruct i64_bounds as [E1 E2]. case_bool_decide; [left|right]; split; try done; lia.
Qed.

Lemma year_month_rank (k : kind) : (rank (last_field k) <=? 1)%nat = is_year_month k.
Proof. by destruct k. Qed.
Lemma standard_case (k : kind) (negated : bool) (s sign : text) caps fraction :
  written k s sign caps fraction ->
  (in_range k caps fraction -> parse_standard k negated s = Some (says k (xorb negated (is_minus sign)) caps fraction)) /\
  (~ in_range k caps fraction -> parse_standard k negated s = None).
Proof.
  intros Hw. pose proof (proj2 (regex_written k s sign caps fraction) Hw) as Hr.
  destruct Hw as (lead & body & frac & trail & _ & _ & Hm & Hb & Hf & _ & _).
  apply shows_numbers in Hb. apply shows_fraction_number in Hf.
  destruct (fraction_value_exact fraction Hf) as [Hfv Hfb]. destruct (totals k caps Hm) as [Ht1 Ht2].
  unfold in_range, says, parse_standard. rewrite year_month_rank. destruct (is_year_month k).
  - rewrite Ht1 by done. unfold parse_year_month. rewrite Hr. cbn [mbind option_bind].
    destruct i32_bounds as [E1 E2].
    rewrite !field_value_val by (done || lia). pose proof (val_nonneg FYear caps). pose proof (val_nonneg FMonth caps).
    set (y := val FYear caps) in *. set (m := val FMonth caps) in *. split; intros Hmax.
    + rewrite (checked_spec 32 y), bool_decide_true by lia. cbn [mbind option_bind].
      rewrite (checked_spec 32 m), bool_decide_true by lia. cbn [mbind option_bind].
      rewrite (checked_spec 32 (y * 12)), bool_decide_true by lia. cbn [mbind option_bind].
      rewrite (checked_spec 32 (y * 12 + m)), bool_decide_true by lia. cbn [mbind option_bind].
      rewrite negate_if_exact by lia. done.
    + destruct (checked 32 y) as [y'|] eqn:Ey; [|done]. cbn [mbind option_bind].
      destruct (checked 32 m) as [m'|] eqn:Em; [|done]. cbn [mbind option_bind].
      rewrite checked_spec in Ey, Em. case_bool_decide; [|done]. case_bool_decide; [|done]. injection Ey as <-. injection Em as <-.
      destruct (checked 32 (y * 12)) as [y2|] eqn:Ey2; [|done]. cbn [mbind option_bind].
      rewrite checked_spec in Ey2. case_bool_decide; [|done]. injection Ey2 as <-.
      by rewrite (checked_spec 32 (y * 12 + m)), bool_decide_false by lia.
  - rewrite Ht2 by done. unfold parse_day_time. rewrite Hr. cbn [mbind option_bind].
    destruct i64_bounds as [E1 E2].
    rewrite !field_value_val by (done || lia). rewrite Hfv.
    pose proof (val_nonneg FDay caps). pose proof (val_nonneg FHour caps).
    pose proof (val_nonneg FMinute caps). pose proof (val_nonneg FSecond caps).
    set (d := val FDay caps) in *. set (h := val FHour caps) in *. set (mi := val FMinute caps) in *.
    set (se := val FSecond caps) in *. set (us := fraction_micros fraction) in *.
    unfold delta_of. change US_DAY with 86400000000. change US_HOUR with 3600000000.
    change US_MINUTE with 60000000. change US_SECOND with 1000000.
    split; intros Hmax.
    + rewrite (checked_spec 64 d), bool_decide_true by lia. cbn [mbind option_bind].
      rewrite (checked_spec 64 h), bool_decide_true by lia. cbn [mbind option_bind].
      rewrite (checked_spec 64 mi), bool_decide_true by lia. cbn [mbind option_bind].
      rewrite (checked_spec 64 se), bool_decide_true by lia. cbn [mbind option_bind].
      rewrite !delta_some by (rewrite delta_max_value; lia). cbn [mbind option_bind].
      rewrite !delta_some by (rewrite delta_max_value; lia). cbn [mbind option_bind].
      rewrite !delta_some by (rewrite delta_max_value; lia). cbn [mbind option_bind].
      rewrite !delta_some by (rewrite delta_max_value; lia). cbn [mbind option_bind].
      rewrite !delta_some by (rewrite delta_max_value; lia). cbn [mbind option_bind].
      rewrite checked_spec, bool_decide_true by lia. cbn [mbind option_bind].
      rewrite negate_if_exact by lia. done.
    + assert (Hc : forall n, 0 <= n -> forall (f : Z -> option ivalue), f n = None -> (checked 64 n ≫= f) = None).
      { intros n Hn f Hf'. destruct (checked64_case n Hn) as [[-> _]|[-> _]]; done. }
      assert (Hd : forall n, 0 <= n -> forall (f : Z -> option ivalue), f n = None -> (delta n ≫= f) = None).
      { intros n Hn f Hf'. destruct (delta_case n Hn) as [->|[-> _]]; done. }
      apply Hc; [lia|]. apply Hc; [lia|]. apply Hc; [lia|]. apply Hc; [lia|]. cbn [mbind option_bind].
      apply Hd; [lia|]. apply Hd; [lia|]. apply Hd; [lia|]. apply Hd; [lia|]. apply Hd; [lia|].
      apply Hd; [lia|]. apply Hd; [lia|]. apply Hd; [lia|].
      by rewrite checked_spec, bool_decide_false by lia.
Qed.

Theorem standard_exact (k : kind) (negated : bool) (s : text) (v : ivalue) :
  parse_standard k negated s = Some v <->
  exists sign caps fraction, written k s sign caps fraction /\ in_range k caps fraction /\
    v = says k (xorb negated (is_minus sign)) caps fraction.
Proof.
  split.
  - intros Hp. assert (exists sign caps fraction, regex k s = Some (sign, caps, fraction)) as (sign & caps & fraction & Hr).
    { unfold parse_standard, parse_year_month, parse_day_time in Hp.
      destruct (regex k s) as [[[sign caps] fraction]|]; [by eexists _, _, _|]. by destruct (is_year_month k). }
    apply regex_written in Hr. destruct (standard_case k negated s _ _ _ Hr) as [H1 H2]. exists sign, caps, fraction.
    assert (Hdec : in_range k caps fraction \/ ~ in_range k caps fraction).
    { unfold in_range. destruct (rank (last_field k) <=? 1)%nat; lia. }
    destruct Hdec as [Hin|Hin].
    + rewrite H1 in Hp by done. by injection Hp as <-.
    + by rewrite H2 in Hp.
  - intros (sign & caps & fraction & Hw & Hin & ->). by apply (standard_case k negated s sign).
Qed.
