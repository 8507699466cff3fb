From Coq Require Import ZArith Lia.
From stdpp Require Import prelude list numbers.
From Verif Require Import Functions.IntModel Functions.CeilModel Functions.CeilProofs.
From Verif Require Import Functions.PreimageModel Functions.PreimageSpec.
#[local] Open Scope Z_scope.

Lemma pow2_pos k : 0 <= k -> 0 < 2 ^ k.
Proof. intros. apply Z.pow_pos_nonneg; lia. Qed.

Lemma checked_Some bits z y : checked bits z = Some y -> y = z /\ fits bits z = true.
Proof. unfold checked. destruct (fits bits z); [|done]. by intros [= <-]. Qed.

(** A value of a column compared with an integer is known from its floor. *)
Definition tracks (v : cval) (f : Z) (b : Z) : Prop := ge_bound v b = (b <=? f).

Lemma rewritten_spec op v f n lo hi :
  ge_bound v lo = (n <=? f) -> ge_bound v hi = (n + 1 <=? f) ->
  rewritten op v lo hi = holds op (Z.compare f n).
Proof.
  intros H1 H2. unfold rewritten, lt_bound. rewrite H1, H2.
  destruct (Z.compare_spec f n) as [->|?|?]; destruct op; cbn [holds]; lia.
Qed.

(** Literals. *)
Lemma lit_spec l n k :
  (match l with LDec _ s => 0 <= s | _ => True end) ->
  lit_as_integer l = Some n -> compare_lit k l = Z.compare k n.
Proof.
  intros Hs H. destruct l as [z|z s]; cbn in *.
  - by injection H as ->.
  - destruct (s =? 0) eqn:E0.
    + injection H as ->. assert (s = 0) as -> by lia. by rewrite Z.pow_0_r, Z.mul_1_r.
    + destruct (0 <? s) eqn:E1; [|done].
      destruct (checked 128 (10 ^ s)) as [pow|] eqn:Ec; [|done]. cbn [mbind option_bind] in H.
      apply checked_Some in Ec as [-> _]. destruct (Z.rem z (10 ^ s) =? 0) eqn:Er; [|done].
      injection H as <-. pose proof (Z.quot_rem' z (10 ^ s)).
      pose proof (pow10_pos s ltac:(lia)).
      replace z with (Z.quot z (10 ^ s) * 10 ^ s) at 1 by lia.
      symmetry. apply Zmult_compare_compat_r. lia.
Qed.

(** Integers and decimals. *)
Lemma int_case bits n lo hi :
  int_bounds bits n = Some (lo, hi) ->
  lo = n /\ hi = n + 1.
Proof.
  unfold int_bounds. destruct (checked bits n) as [l|] eqn:E1; [|done]. cbn [mbind option_bind].
  apply checked_Some in E1 as [-> _].
  destruct (checked bits (n + 1)) as [h|] eqn:E2; [|done]. cbn [mbind option_bind].
  apply checked_Some in E2 as [-> _]. by intros [= -> ->].
Qed.
Lemma dec_case n p s lo hi :
  decimal128_bounds n p s = Some (lo, hi) ->
  0 <= s /\ lo = n * 10 ^ s /\ hi = (n + 1) * 10 ^ s /\
  - 10 ^ p < lo < 10 ^ p /\ - 10 ^ p < hi < 10 ^ p.
Proof.
  unfold decimal128_bounds. destruct (s <? 0) eqn:E; [done|].
  destruct (checked 128 (10 ^ s)) as [st|] eqn:E0; [|done]. cbn [mbind option_bind].
  apply checked_Some in E0 as [-> _].
  destruct (checked 128 (n * 10 ^ s)) as [l|] eqn:E1; [|done]. cbn [mbind option_bind].
  apply checked_Some in E1 as [-> _].
  destruct (checked 128 (n * 10 ^ s + 10 ^ s)) as [h|] eqn:E2; [|done]. cbn [mbind option_bind].
  apply checked_Some in E2 as [-> _]. cbn zeta.
  destruct (_ || _) eqn:Eb; [done|]. intros [= <- <-]. lia.
Qed.
Lemma dec_floor z s : 0 <= s -> ceil_floor_with_target_scale Floor z s 0 = z / 10 ^ s.
Proof.
  intros Hs. unfold ceil_floor_with_target_scale. change (0 <? 0) with false. cbv iota.
  destruct (0 <=? 0 - s) eqn:E.
  - assert (s = 0) as -> by lia. by rewrite Z.pow_0_r, Z.div_1_r.
  - cbn [div_fn]. unfold div_floor. f_equal. f_equal. lia.
Qed.
Lemma ge_compare z b : match Z.compare z b with Lt => false | _ => true end = (b <=? z).
Proof. destruct (Z.compare_spec z b); lia. Qed.

(** Floating point. *)
Lemma round_to_small prec n : Z.abs n < 2 ^ prec -> round_to prec n = n.
Proof. intros. unfold round_to. cbn zeta. by replace (Z.abs n <? 2 ^ prec) with true by lia. Qed.

(** [m * 2^e] is at least [z]. *)
Definition fin_ge (m e z : Z) : Prop := if 0 <=? e then z <= m * 2 ^ e else z * 2 ^ (- e) <= m.

(** Rounding does not pass a representable number. *)
Lemma round_to_le prec m e z :
  0 < prec -> Z.abs m < 2 ^ prec -> fin_ge m e z -> fin_ge m e (round_to prec z).
Proof.
  intros Hp Hm Hz. unfold round_to. cbn zeta. destruct (Z.abs z <? 2 ^ prec) eqn:Ea; [done|].
  set (a := Z.abs z) in *. set (k := Z.log2 a - (prec - 1)).
  assert (0 < a) as Hapos by (pose proof (pow2_pos prec); lia).
  pose proof (Z.log2_spec a Hapos) as [Hl1 Hl2].
  assert (prec <= Z.log2 a) as Hlog.
  { apply Z.log2_le_pow2; lia. }
  assert (1 <= k) as Hk by lia.
  assert (2 ^ Z.log2 a = 2 ^ (prec - 1) * 2 ^ k) as Hsplit.
  { rewrite <- Z.pow_add_r by lia. f_equal. lia. }
  pose proof (pow2_pos k ltac:(lia)) as Hk2. pose proof (pow2_pos (prec - 1) ltac:(lia)) as Hp2.
  assert (2 ^ prec = 2 * 2 ^ (prec - 1)) as Hprec.
  { replace prec with (Z.succ (prec - 1)) at 1 by lia. by rewrite Z.pow_succ_r by lia. }
  pose proof (Z.div_mod a (2 ^ k) ltac:(lia)) as Hdm.
  pose proof (Z.mod_pos_bound a (2 ^ k) Hk2) as Hr.
  set (q := a / 2 ^ k) in *. set (r := a mod 2 ^ k) in *.
  assert (2 ^ (prec - 1) <= q) as Hq.
  { apply Z.div_le_lower_bound; lia. }
  set (up := (2 ^ k <? 2 * r) || ((2 * r =? 2 ^ k) && Z.odd q)).
  assert (up = true -> 0 < r) as Hup by (unfold up; lia). clearbody up.
  (* either the number is small, or it is a multiple of 2^k *)
  assert (forall (w : Z), 2 ^ (prec - 1) <= w ->
     (0 <=? e) = true -> e < k -> Z.abs (m * 2 ^ e) < w * 2 ^ k) as Hsmall.
  { intros w Hw He Hek. rewrite Z.abs_mul, (Z.abs_eq (2 ^ e)) by (apply Z.pow_nonneg; lia).
    assert (2 * 2 ^ e <= 2 ^ k).
    { rewrite <- Z.pow_succ_r by lia. apply Z.pow_le_mono_r; lia. }
    pose proof (pow2_pos e ltac:(lia)). nia. }
  unfold fin_ge in *. destruct (0 <=? e) eqn:He.
  - destruct (Z_lt_ge_dec e k) as [Hek|Hek].
    + (* small *)
      destruct (Z_lt_ge_dec z 0) as [Hneg|Hpos].
      * rewrite (Z.sgn_neg z) by lia. pose proof (Hsmall q Hq eq_refl Hek). destruct up; nia.
      * exfalso. pose proof (Hsmall q Hq eq_refl Hek). assert (z = a) by lia. nia.
    + assert (m * 2 ^ e = m * 2 ^ (e - k) * 2 ^ k) as Hme.
      { rewrite <- Z.mul_assoc, <- Z.pow_add_r by lia. f_equal. f_equal. lia. }
      rewrite Hme in Hz. rewrite Hme. clear Hme Hsmall.
      set (j := m * 2 ^ (e - k)) in *. clearbody j.
      apply Z.mul_le_mono_nonneg_r; [lia|].
      destruct (Z_lt_ge_dec z 0) as [Hneg|Hpos].
      * rewrite (Z.sgn_neg z) by lia. assert (- q <= j) by nia. destruct up; lia.
      * rewrite (Z.sgn_pos z) by lia. assert (z = a) as Hza by lia.
        assert (q <= j) by nia. destruct up; [|lia]. specialize (Hup eq_refl).
        assert (q + 1 <= j) by nia. lia.
  - assert (0 < 2 ^ (- e)) as He2 by (apply pow2_pos; lia).
    assert (2 <= 2 ^ (- e)) as He3.
    { change 2 with (2 ^ 1) at 1. apply Z.pow_le_mono_r; lia. }
    destruct (Z_lt_ge_dec z 0) as [Hneg|Hpos].
    + rewrite (Z.sgn_neg z) by lia.
      assert (2 ^ prec <= q * 2 ^ k) as Hbig.
      { rewrite Hprec. assert (2 <= 2 ^ k) by (change 2 with (2 ^ 1) at 1; apply Z.pow_le_mono_r; lia). nia. }
      assert (-1 * (if up then q + 1 else q) * 2 ^ k <= - 2 ^ prec) as Hn by (destruct up; nia).
      set (y := -1 * (if up then q + 1 else q) * 2 ^ k) in *. clearbody y.
      assert (y * 2 ^ (- e) <= - 2 ^ prec * 1) by nia. lia.
    + exfalso. assert (2 ^ prec <= z) by lia. nia.
Qed.

Lemma fin_ge_floor m e b : fin_ge m e b <-> b <= (if 0 <=? e then m * 2 ^ e else m / 2 ^ (- e)).
Proof.
  unfold fin_ge. destruct (0 <=? e) eqn:E; [done|].
  pose proof (pow2_pos (- e) ltac:(lia)). split; intros Hb.
  - apply Z.div_le_lower_bound; lia.
  - pose proof (Z.mul_div_le m (2 ^ (- e)) ltac:(lia)). nia.
Qed.
Lemma fin_ge_bound m e b : ge_bound (VFloat (Fin m e)) b = true <-> fin_ge m e b.
Proof.
  unfold ge_bound, fin_ge. cbn [cmp_bound]. destruct (0 <=? e); rewrite ge_compare; lia.
Qed.

Lemma float_bounds_spec n lo hi :
  - 2 ^ 63 <= n < 2 ^ 63 -> float_bounds n = Some (lo, hi) ->
  lo = n /\ hi = round_to 53 (n + 1) /\ n + 1 <= hi /\ - 2 ^ 63 < n < 2 ^ 63 - 1.
Proof.
  intros Hn. unfold float_bounds. cbn zeta.
  destruct (checked 128 (n + 1)) as [m|] eqn:E; [|done]. cbn [mbind option_bind].
  apply checked_Some in E as [-> _]. destruct (_ || _) eqn:Eb; [done|]. intros [= <- <-].
  assert (round_to 53 n = n) as Hlo.
  { apply orb_false_iff in Eb as [Eb _]. apply negb_false_iff, Z.eqb_eq in Eb.
    unfold saturate, int_min, int_max in Eb. change (128 - 1) with 127 in Eb. lia. }
  rewrite Hlo in Eb.
  assert (n < round_to 53 (n + 1)) as Hhi by lia.
  split_and!; [done|done|lia| |].
  - destruct (decide (n = - 2 ^ 63)) as [->|?]; [|lia]. vm_compute in Hhi. done.
  - destruct (decide (n = 2 ^ 63 - 1)) as [->|?]; [|lia]. vm_compute in Hlo. done.
Qed.

(** The two comparisons of a floating-point column. *)
Lemma float_case n lo hi x :
  - 2 ^ 63 <= n < 2 ^ 63 -> float_bounds n = Some (lo, hi) ->
  (match x with Fin m _ => Z.abs m < 2 ^ 53 | _ => True end) ->
  (match x with NegZero | NaN _ => False | _ => True end) ->
  ge_bound (VFloat x) lo = (n <=? float_floor x) /\
  ge_bound (VFloat x) hi = (n + 1 <=? float_floor x).
Proof.
  intros Hn Hb Hx Hplain. apply float_bounds_spec in Hb as (-> & Hhi & Hge & Hlim); [|done].
  destruct x as [m e| |negative|]; [|done| |done].
  - assert (forall b, - 2 ^ 63 < b < 2 ^ 63 ->
        (b <=? float_floor (Fin m e)) = true <-> fin_ge m e b) as Hf.
    { intros b Hbr. rewrite fin_ge_floor. cbn [float_floor]. unfold saturate, int_min, int_max.
      change (64 - 1) with 63. lia. }
    split; apply eq_true_iff_eq; rewrite fin_ge_bound, Hf by lia; [done|].
    rewrite Hhi. split; [|by apply round_to_le].
    rewrite !fin_ge_floor. rewrite <- Hhi. lia.
  - unfold ge_bound, float_floor, int_min, int_max. cbn [cmp_bound]. change (64 - 1) with 63.
    destruct negative; lia.
Qed.

Lemma bounds_case t n lo hi v :
  (match t with TDec _ _ => True | _ => - 2 ^ 63 <= n < 2 ^ 63 end) ->
  val_ok t v -> plain v -> bounds t n = Some (lo, hi) ->
  ge_bound v lo = (n <=? floor1 t v) /\ ge_bound v hi = (n + 1 <=? floor1 t v).
Proof.
  intros Hn Hv Hp Hb. destruct t as [bits|p s| |]; destruct v as [z|z|x]; try done; cbn [bounds floor1] in *.
  - apply int_case in Hb as [-> ->]. unfold ge_bound. cbn [cmp_bound].
    rewrite !ge_compare. done.
  - apply dec_case in Hb as (Hs & -> & -> & _). rewrite dec_floor by done.
    unfold ge_bound. cbn [cmp_bound]. rewrite !ge_compare.
    pose proof (pow10_pos s Hs) as Hpos.
    split; apply eq_true_iff_eq; rewrite !Z.leb_le; symmetry; apply div_floor_le; done.
  - apply float_case; [done|done| |done]. destruct x; [|done..]. cbn in Hv. lia.
  - destruct (float_bounds n) as [[lo' hi']|] eqn:Ef; [|done]. cbn [mbind option_bind] in Hb.
    cbn zeta in Hb. destruct (_ || _) eqn:Eb; [done|].
    apply (inj Some) in Hb. injection Hb as Hlo Hhi.
    assert (lo = lo' /\ hi = hi') as [-> ->] by lia.
    eapply float_case; [done|done| |done]. destruct x; [|done..]. cbn in Hv. lia.
Qed.

Lemma preimage_right t op l v g :
  lit_ok t l -> val_ok t v -> plain v -> preimage_filter t op l = Some g ->
  g v = original t op l v.
Proof.
  intros Hl Hv Hp Hg. unfold preimage_filter in Hg.
  destruct (lit_as_integer l) as [n|] eqn:En; [|done]. cbn [mbind option_bind] in Hg.
  destruct (bounds t n) as [[lo hi]|] eqn:Eb; [|done]. cbn [mbind option_bind] in Hg.
  apply (inj Some) in Hg. subst g.
  assert (match t with TDec _ _ => True | _ => - 2 ^ 63 <= n < 2 ^ 63 end) as Hn.
  { destruct t; [|done|..]; destruct l; try done; cbn in Hl, En; injection En as <-; done. }
  unfold original. rewrite (lit_spec l n); [| |done].
  2:{ destruct l; [done|]. destruct t; try done. apply Hl. }
  destruct (bounds_case t n lo hi v Hn Hv Hp Eb). by apply rewritten_spec.
Qed.
