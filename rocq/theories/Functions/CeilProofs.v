From Coq Require Import ZArith QArith Qround Lia.
From stdpp Require Import prelude list numbers.
From Verif Require Import Functions.CeilModel Functions.CeilSpec.
#[local] Open Scope Z_scope.

Lemma pow10_pos t : 0 <= t -> 0 < 10 ^ t.
Proof. intros. apply Z.pow_pos_nonneg; lia. Qed.
Lemma to_pos_pow t : 0 <= t -> Z.pos (Z.to_pos (10 ^ t)) = 10 ^ t.
Proof. intros. apply Z2Pos.id, pow10_pos. done. Qed.

Lemma div_ceil_le a b k : 0 < b -> div_ceil a b <= k <-> a <= k * b.
Proof.
  intros Hb. unfold div_ceil. pose proof (Z.div_mod a b ltac:(lia)).
  pose proof (Z.mod_pos_bound a b Hb). destruct (a mod b =? 0) eqn:E; split; intros; nia.
Qed.
Lemma div_floor_le a b k : 0 < b -> k <= div_floor a b <-> k * b <= a.
Proof.
  intros Hb. unfold div_floor. pose proof (Z.div_mod a b ltac:(lia)).
  pose proof (Z.mod_pos_bound a b Hb). split; intros; nia.
Qed.

(** An order-theoretic statement of the result: [scaled f d r t'] says that r is d divided by t'. *)
Definition divides_to (f : fn) (a b r : Z) : Prop :=
  match f with
  | Ceil => forall k, r <= k <-> a <= k * b
  | Floor => forall k, k <= r <-> k * b <= a
  end.
Lemma div_fn_spec f a b : 0 < b -> divides_to f a b (div_fn f a b).
Proof. intros Hb. destruct f; intros k; [by apply div_ceil_le|by apply div_floor_le]. Qed.
Lemma divides_to_trans f a b c r q :
  0 < b -> 0 < c -> divides_to f a b r -> divides_to f r c q -> divides_to f a (b * c) q.
Proof.
  intros Hb Hc. destruct f; intros H1 H2 k.
  - cbn in H1, H2. rewrite (H2 k), H1. replace (k * (b * c)) with (k * c * b) by ring. done.
  - cbn in H1, H2. rewrite (H2 k), H1. replace (k * (b * c)) with (k * c * b) by ring. done.
Qed.

(** number v s <= k * unit, in integers. *)
Lemma number_le_unit v s k t : 0 <= s ->
  (number v s <= inject_Z k * unit_of t)%Q <->
  (if 0 <=? t then v * 10 ^ t <= k * 10 ^ s else v <= k * 10 ^ (- t) * 10 ^ s).
Proof.
  intros Hs. unfold number, unit_of, Qle. destruct (0 <=? t) eqn:E; cbn [Qnum Qden Qmult inject_Z].
  - rewrite Pos.mul_1_l, !to_pos_pow by lia. rewrite Z.mul_1_r. done.
  - rewrite to_pos_pow by lia. rewrite Z.mul_1_r. done.
Qed.
Lemma unit_le_number v s k t : 0 <= s ->
  (inject_Z k * unit_of t <= number v s)%Q <->
  (if 0 <=? t then k * 10 ^ s <= v * 10 ^ t else k * 10 ^ (- t) * 10 ^ s <= v).
Proof.
  intros Hs. unfold number, unit_of, Qle. destruct (0 <=? t) eqn:E; cbn [Qnum Qden Qmult inject_Z].
  - rewrite Pos.mul_1_l, !to_pos_pow by lia. rewrite Z.mul_1_r. done.
  - rewrite to_pos_pow by lia. rewrite Z.mul_1_r. done.
Qed.
Lemma number_eq_unit v s k t : 0 <= s ->
  (number v s == inject_Z k * unit_of t)%Q <->
  (if 0 <=? t then v * 10 ^ t = k * 10 ^ s else v = k * 10 ^ (- t) * 10 ^ s).
Proof.
  intros Hs. unfold number, unit_of, Qeq. destruct (0 <=? t) eqn:E; cbn [Qnum Qden Qmult inject_Z].
  - rewrite Pos.mul_1_l, !to_pos_pow by lia. rewrite Z.mul_1_r. done.
  - rewrite to_pos_pow by lia. rewrite Z.mul_1_r. done.
Qed.

(** A quotient is what the specification asks for. *)
Lemma rounds_to_quotient f v s t r :
  0 <= s -> t <= s ->
  divides_to f v (10 ^ (s - t)) r ->
  rounds_to f (number v s) t (inject_Z r * unit_of t).
Proof.
  intros Hs Hts Hd. split; [by exists r|].
  assert (forall k, (number v s <= inject_Z k * unit_of t)%Q <-> v <= k * 10 ^ (s - t)) as Hle.
  { intros k. rewrite number_le_unit by done. destruct (0 <=? t) eqn:E.
    - replace (10 ^ s) with (10 ^ (s - t) * 10 ^ t) by (rewrite <- Z.pow_add_r by lia; f_equal; lia).
      pose proof (pow10_pos t ltac:(lia)). rewrite Z.mul_assoc. rewrite <- Z.mul_le_mono_pos_r by done. done.
    - rewrite <- Z.mul_assoc, <- Z.pow_add_r by lia. replace (- t + s) with (s - t) by lia. done. }
  assert (forall k, (inject_Z k * unit_of t <= number v s)%Q <-> k * 10 ^ (s - t) <= v) as Hge.
  { intros k. rewrite unit_le_number by done. destruct (0 <=? t) eqn:E.
    - replace (10 ^ s) with (10 ^ (s - t) * 10 ^ t) by (rewrite <- Z.pow_add_r by lia; f_equal; lia).
      pose proof (pow10_pos t ltac:(lia)). rewrite Z.mul_assoc. rewrite <- Z.mul_le_mono_pos_r by done. done.
    - rewrite <- Z.mul_assoc, <- Z.pow_add_r by lia. replace (- t + s) with (s - t) by lia. done. }
  assert (forall i j, i <= j -> (inject_Z i * unit_of t <= inject_Z j * unit_of t)%Q) as Hmono.
  { intros i j Hij. apply Qmult_le_compat_r; [by rewrite <- Zle_Qle|].
    unfold unit_of. destruct (0 <=? t) eqn:E; [done|].
    change 0%Q with (inject_Z 0). rewrite <- Zle_Qle. apply Z.pow_nonneg. lia. }
  destruct f; cbn in Hd.
  - split; [apply Hle, Hd; lia|]. intros k Hk. apply Hmono, Hd, Hle, Hk.
  - split; [apply Hge, Hd; lia|]. intros k Hk. apply Hmono, Hd, Hge, Hk.
Qed.

(** Numbers that have the places already are left alone. *)
Lemma rounds_to_self f v s t : 0 <= s -> s <= t -> rounds_to f (number v s) t (number v s).
Proof.
  intros Hs Hst. split.
  - exists (v * 10 ^ (t - s)). apply number_eq_unit; [done|]. replace (0 <=? t) with true by lia.
    rewrite <- Z.mul_assoc, <- Z.pow_add_r by lia. replace (t - s + s) with t by lia. done.
  - destruct f; (split; [apply Qle_refl|done]).
Qed.

Lemma rounds_to_eq f x t y y' : (y == y')%Q -> rounds_to f x t y -> rounds_to f x t y'.
Proof.
  intros He [[k Hk] H]. split; [exists k; by rewrite <- He|].
  destruct f; destruct H as [H1 H2]; (split; [by rewrite <- He|intros j Hj; rewrite <- He; auto]).
Qed.
Lemma rounds_to_eq_l f x x' t y : (x == x')%Q -> rounds_to f x t y -> rounds_to f x' t y.
Proof.
  intros He [[k Hk] H]. split; [by exists k|].
  destruct f; destruct H as [H1 H2]; (split; [by rewrite <- He|intros j Hj; apply H2; by rewrite He]).
Qed.

Lemma fn_rounds f v s t :
  0 <= s ->
  rounds_to f (number v s) t
    (number (ceil_floor_with_target_scale f v s t) (if t <? 0 then 0 else Z.min s t)).
Proof.
  intros Hs. unfold ceil_floor_with_target_scale. destruct (t <? 0) eqn:Et.
  - set (iv := match s ?= 0 with Gt => _ | Lt => _ | Eq => _ end).
    assert (divides_to f v (10 ^ s) iv) as Hiv.
    { unfold iv. destruct (Z.compare_spec s 0) as [->|?|?]; [|lia|].
      - destruct f; cbn; intros k; rewrite Z.pow_0_r, Z.mul_1_r; done.
      - apply div_fn_spec, pow10_pos. lia. }
    pose proof (div_fn_spec f iv (10 ^ (- t)) (pow10_pos (- t) ltac:(lia))) as Hq.
    pose proof (divides_to_trans f _ _ _ _ _ (pow10_pos s Hs) (pow10_pos (-t) ltac:(lia)) Hiv Hq) as Ht.
    rewrite <- Z.pow_add_r in Ht by lia. replace (s + - t) with (s - t) in Ht by lia.
    refine (rounds_to_eq _ _ _ _ _ _ (rounds_to_quotient f v s t _ Hs ltac:(lia) Ht)).
    symmetry. apply number_eq_unit; [done|]. replace (0 <=? t) with false by lia.
    rewrite Z.pow_0_r, Z.mul_1_r. done.
  - destruct (0 <=? t - s) eqn:Ed.
    + rewrite Z.min_l by lia. apply rounds_to_self; lia.
    + rewrite Z.min_r by lia. replace (- (t - s)) with (s - t) by lia.
      pose proof (div_fn_spec f v (10 ^ (s - t)) (pow10_pos (s - t) ltac:(lia))) as Hq.
      refine (rounds_to_eq _ _ _ _ _ _ (rounds_to_quotient f v s t _ Hs ltac:(lia) Hq)).
      symmetry. apply number_eq_unit; [lia|]. replace (0 <=? t) with true by lia. done.
Qed.

(** The size of the result. *)
Lemma div_fn_bound f a b M : 0 < b -> 0 <= M -> Z.abs a <= M * b -> Z.abs (div_fn f a b) <= M.
Proof.
  intros Hb HM Ha. destruct f; cbn [div_fn].
  - assert (div_ceil a b <= M) by (apply div_ceil_le; nia).
    enough (~ div_ceil a b <= - M - 1) by lia. rewrite div_ceil_le by done. nia.
  - assert (- M <= div_floor a b) by (apply div_floor_le; nia).
    enough (~ M + 1 <= div_floor a b) by lia. rewrite div_floor_le by done. nia.
Qed.

Lemma pow10_mono a b : 0 <= a -> a <= b -> 10 ^ a <= 10 ^ b.
Proof. intros. apply Z.pow_le_mono_r; lia. Qed.
Lemma pow10_lt a b : 0 <= a -> a < b -> 10 ^ a < 10 ^ b.
Proof. intros. apply Z.pow_lt_mono_r; lia. Qed.

Lemma fn_bound_neg f v p s t :
  0 <= s <= p -> t < 0 -> Z.abs v < 10 ^ p ->
  Z.abs (ceil_floor_with_target_scale f v s t) <= Z.max (10 ^ (p - s)) (10 ^ (- t)).
Proof.
  intros Hs Ht Hv. unfold ceil_floor_with_target_scale. replace (t <? 0) with true by lia.
  set (iv := match s ?= 0 with Gt => _ | Lt => _ | Eq => _ end).
  assert (Z.abs iv <= 10 ^ (p - s)) as Hiv.
  { unfold iv. destruct (Z.compare_spec s 0) as [->|?|?]; [|lia|].
    - rewrite Z.sub_0_r. lia.
    - apply div_fn_bound; [apply pow10_pos; lia|apply Z.pow_nonneg; lia|].
      rewrite <- Z.pow_add_r by lia. replace (p - s + s) with p by lia. lia. }
  clearbody iv. pose proof (pow10_pos (- t) ltac:(lia)) as Hpos.
  pose proof (pow10_pos (p - s) ltac:(lia)) as Hpos2.
  rewrite Z.abs_mul, (Z.abs_eq (10 ^ (- t))) by lia.
  destruct (Z_le_gt_dec (- t) (p - s)) as [Hle|Hgt].
  - assert (Z.abs (div_fn f iv (10 ^ (- t))) <= 10 ^ (p - s + t)) as Hb.
    { apply div_fn_bound; [done|apply Z.pow_nonneg; lia|].
      rewrite <- Z.pow_add_r by lia. replace (p - s + t + - t) with (p - s) by lia. done. }
    transitivity (10 ^ (p - s)); [|lia].
    replace (p - s) with ((p - s + t) + - t) by lia. rewrite (Z.pow_add_r 10 (p - s + t)) by lia. nia.
  - assert (Z.abs (div_fn f iv (10 ^ (- t))) <= 1) as Hb.
    { apply div_fn_bound; [done|lia|]. pose proof (pow10_mono (p - s) (- t) ltac:(lia) ltac:(lia)). lia. }
    nia.
Qed.
Lemma fn_bound_nonneg f v p s t :
  0 <= s <= p -> 0 <= t < s -> Z.abs v < 10 ^ p ->
  Z.abs (ceil_floor_with_target_scale f v s t) <= 10 ^ (p - s + t).
Proof.
  intros Hs Ht Hv. unfold ceil_floor_with_target_scale. replace (t <? 0) with false by lia.
  replace (0 <=? t - s) with false by lia.
  apply div_fn_bound; [apply pow10_pos; lia|apply Z.pow_nonneg; lia|].
  replace (- (t - s)) with (s - t) by lia. rewrite <- Z.pow_add_r by lia.
  replace (p - s + t + (s - t)) with p by lia. lia.
Qed.

Lemma decimal_fn_fits f p s v t d :
  0 <= s <= p -> 0 < p <= 38 -> Z.abs v < 10 ^ p ->
  0 <= default 0 t \/ p - s < 38 ->
  decimal_fn f p s v t = Some d -> dec_fits d.
Proof.
  intros Hs Hp Hv Hc. unfold decimal_fn. set (u := default 0 t) in *. clearbody u.
  destruct (u <? -37) eqn:E37; [done|]. unfold round_decimal_base.
  destruct (u <? 0) eqn:Eu; intros [= <-]; unfold dec_fits; cbn [d_precision d_value].
  - pose proof (fn_bound_neg f v p s u Hs ltac:(lia) Hv) as Hb.
    set (q := Z.min (Z.max (p - s + 1) (- u + 1)) 38).
    assert (10 ^ (p - s) < 10 ^ q) by (apply pow10_lt; lia).
    assert (10 ^ (- u) < 10 ^ q) by (apply pow10_lt; lia). lia.
  - destruct (Z_lt_ge_dec u s) as [Hlt|Hge].
    + pose proof (fn_bound_nonneg f v p s u Hs ltac:(lia) Hv) as Hb.
      rewrite (Z.min_r s u) by lia.
      assert (10 ^ (p - s + u) < 10 ^ (Z.min (p - s + 1 + u) 38)) by (apply pow10_lt; lia). lia.
    + unfold ceil_floor_with_target_scale. rewrite Eu. replace (0 <=? u - s) with true by lia.
      rewrite (Z.min_l s u) by lia.
      pose proof (pow10_mono p (Z.min (p - s + 1 + s) 38) ltac:(lia) ltac:(lia)). lia.
Qed.

Lemma decimal_fn_rounds f p s v t d :
  0 <= s -> decimal_fn f p s v t = Some d ->
  rounds_to f (number v s) (default 0 t) (dec_number d).
Proof.
  intros Hs. unfold decimal_fn. set (u := default 0 t) in *. clearbody u.
  destruct (u <? -37) eqn:E37; [done|]. unfold round_decimal_base.
  pose proof (fn_rounds f v s u Hs) as H.
  destruct (u <? 0) eqn:Eu; intros [= <-]; exact H.
Qed.

Lemma int_fn_decimal f bits v t :
  int_fn f bits v t = decimal_fn f (int_precision bits) 0 v (Some t).
Proof.
  unfold int_fn, decimal_fn. change (default 0 (Some t)) with t. destruct (t <? -37); [done|].
  destruct (round_decimal_base _ _ _) as [p' s']. do 2 f_equal.
  unfold ceil_floor_with_target_scale. destruct (0 <=? t) eqn:E; [|done].
  replace (t <? 0) with false by lia. replace (0 <=? t - 0) with true by lia. done.
Qed.

Lemma round_away_int z : round_away (inject_Z z) = z.
Proof.
  unfold round_away. assert (forall n, Qfloor (inject_Z n + (1 # 2)) = n) as Hf.
  { intros n. unfold Qfloor, Qplus. cbn [Qnum Qden inject_Z]. 
    change (Z.pos (1 * 2)) with 2. change (1 * 1) with 1.
    replace (n * 2 + 1) with (1 + n * 2) by lia.
    rewrite Z.div_add by lia. rewrite Z.div_small by lia. lia. }
  destruct (Qle_bool 0 (inject_Z z)); [apply Hf|].
  change (Qopp (inject_Z z)) with (inject_Z (- z)). rewrite Hf. lia.
Qed.

Lemma cast_exact v s : 0 <= s -> cast_to_decimal (number v s) s = v.
Proof.
  intros Hs. unfold cast_to_decimal.
  assert (forall q q', (q == q')%Q -> round_away q = round_away q') as Hm.
  { intros q q' Hq. unfold round_away.
    assert (Qle_bool 0 q = Qle_bool 0 q') as ->.
    { destruct (Qle_bool 0 q) eqn:E1, (Qle_bool 0 q') eqn:E2; try done; exfalso.
      - apply Qle_bool_iff in E1. rewrite Hq in E1. apply Qle_bool_iff in E1. congruence.
      - apply Qle_bool_iff in E2. rewrite <- Hq in E2. apply Qle_bool_iff in E2. congruence. }
    destruct (Qle_bool 0 q'); [|f_equal]; apply Qfloor_comp; by rewrite Hq. }
  rewrite (Hm _ (inject_Z v)); [apply round_away_int|].
  unfold number, Qeq. cbn [Qnum Qden Qmult inject_Z].
  rewrite Pos.mul_1_r, to_pos_pow, Z.mul_1_r by done. done.
Qed.
