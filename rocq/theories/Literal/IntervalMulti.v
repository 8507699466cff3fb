(** Literals with several units. *)
From Coq Require Import NArith ZArith ZifyN ZifyBool Ascii String Lia.
From stdpp Require Import prelude list strings.
From Verif Require Import Lib.Text Functions.IntModel Functions.WindowProofs Literal.NumberModel Literal.NumberSpec
  Literal.NumberProofs Literal.IntervalModel Literal.IntervalSpec Literal.IntervalProofs.
#[local] Open Scope Z_scope.

Lemma fits_bounds (bits n : Z) : fits bits n = true <-> int_min bits <= n <= int_max bits.
Proof. unfold fits. rewrite andb_true_iff, !Z.leb_le. done. Qed.
Lemma checked_fits (bits n : Z) : fits bits n = true -> checked bits n = Some n.
Proof. apply checked_some. Qed.
Lemma checked_inv (bits n r : Z) : checked bits n = Some r -> r = n.
Proof. unfold checked. destruct (fits bits n); congruence. Qed.
Lemma delta_inv (n r : Z) : delta n = Some r -> r = n.
Proof. unfold delta. destruct (Z.abs n <=? delta_max); congruence. Qed.
Lemma delta_fits (n : Z) : Z.abs n <= delta_max -> delta n = Some n.
Proof. intros H. unfold delta. by rewrite (proj2 (Z.leb_le _ _) H). Qed.

Lemma int_value_read (bits : Z) (v : value) (n : Z) :
  0 < bits -> int_value bits v n -> value_int bits v = Some n /\ fits bits n = true.
Proof.
  intros Hb. induction 1 as [sg d Hs [Hd Hne] Hf|sg d Hs [Hd Hne] Hf|v n H [IH1 IH2] Hn]; cbn [value_int].
  - rewrite parse_int_numeral by done. by rewrite checked_fits.
  - rewrite parse_int_numeral by done. by rewrite checked_fits.
  - assert (Hf : fits bits (- n) = true).
    { apply fits_bounds. apply fits_bounds in IH2. unfold int_min, int_max in *. lia. }
    rewrite IH1. cbn [mbind option_bind]. by rewrite wrap_id.
Qed.
(** The seconds of the code fit 32 bits. *)
Lemma parse_second_read (s sign : text) caps fraction :
  written Second s sign caps fraction ->
  let t := total micros_in caps + fraction_micros fraction in
  0 <= t /\
  (forall r, parse_second s = Some r -> exists n us, r = (is_minus sign, n, us) /\ 0 <= n /\ 0 <= us /\ t = n * US_SECOND + us) /\
  (t < 4294967296000000 -> exists r, parse_second s = Some r).
Proof.
  intros Hw. pose proof (proj2 (regex_written Second s sign caps fraction) Hw) as Hr.
  destruct Hw as (lead & body & frac & trail & _ & _ & Hmap & Hshows & Hfr & _).
  pose proof (shows_numbers _ _ Hshows) as Hnums.
  apply map_fst_cons in Hmap as (d & caps' & -> & Hmap). destruct caps'; [|done].
  apply Forall_cons_1 in Hnums as [Hnum _]. cbn [snd] in Hnum.
  destruct (fraction_value_exact fraction (shows_fraction_number _ _ _ Hfr)) as [Hfv Hfb].
  unfold parse_second. rewrite Hr. cbn [mbind option_bind]. rewrite Hfv. rewrite total_cons, total_nil.
  cbn [micros_in]. unfold parse_u32. change (2 ^ 32) with 4294967296.
  cbv zeta. split; [lia|]. split.
  - intros r. destruct (Z.ltb_spec (Z.of_N (dec_value d)) 4294967296); [|done].
    cbn [mbind option_bind]. rewrite negative_minus. intros [= <-]. do 2 eexists. split; [done|]. unfold US_SECOND. lia.
  - intros Ht. destruct (Z.ltb_spec (Z.of_N (dec_value d)) 4294967296); [|lia]. by eexists.
Qed.
Lemma second_value_read (v : value) (t : Z) :
  second_value v t ->
  (forall r, value_second v = Some r -> exists b n us, r = (b, n, us) /\ 0 <= n /\ 0 <= us /\ t = opposite_if b (n * US_SECOND + us)) /\
  (Z.abs t < 4294967296000000 -> exists r, value_second v = Some r).
Proof.
  induction 1 as [s sign caps fraction Hw|s sign caps fraction Hw|v t H [IH1 IH2]]; cbn [value_second].
  - destruct (parse_second_read s sign caps fraction Hw) as (H1 & H2 & H3). split.
    + intros r Hr. destruct (H2 r Hr) as (n & us & -> & ? & ? & Ht). do 3 eexists. split; [done|]. by rewrite Ht.
    + intros Ht. apply H3. unfold opposite_if in Ht. destruct (is_minus sign); lia.
  - destruct (parse_second_read s sign caps fraction Hw) as (H1 & H2 & H3). split.
    + intros r Hr. destruct (H2 r Hr) as (n & us & -> & ? & ? & Ht). do 3 eexists. split; [done|]. by rewrite Ht.
    + intros Ht. apply H3. unfold opposite_if in Ht. destruct (is_minus sign); lia.
  - split.
    + intros r. destruct (value_second v) as [[[b n] us]|]; [|done]. cbn [mbind option_bind]. intros [= <-].
      destruct (IH1 _ eq_refl) as (? & ? & ? & [= <- <- <-] & Hn & Hu & Ht). do 3 eexists. split; [done|]. split; [done|]. split; [done|].
      rewrite Ht. unfold opposite_if. destruct b; cbn [negb]; lia.
    + intros Ht. destruct IH2 as [[[b n] us] ->]; [lia|]. by eexists.
Qed.

(** ** One item *)
Lemma add_time_inv (d x months : Z) (o : option Z) r :
  (forall y, o = Some y -> y = x) -> add_time d o months = Some r -> r = (months, d + x).
Proof.
  intros Ho. unfold add_time. destruct o as [y|]; [|done]. cbn [mbind option_bind]. rewrite (Ho y eq_refl).
  destruct (delta (d + x)) as [z|] eqn:E; [|done]. apply delta_inv in E as ->. cbn. by intros [= <-].
Qed.
Lemma item_sound (m0 t0 m t : Z) (i : value * unit) r :
  item_says i m t -> add_item (m0, t0) i = Some r -> r = (m0 + m, t0 + t).
Proof.
  destruct i as [v u]. intros Hi. assert (Hd : forall k n y, delta_of k n = Some y -> y = n * k) by (intros k n y; apply delta_inv).
  destruct u; cbn [item_says add_item] in *.
  - destruct Hi as (n & Hi & -> & ->). destruct (int_value_read 32 v n) as [-> _]; [done|done|]. cbn [mbind option_bind].
    destruct (checked 32 (n * 12)) eqn:E1; [|done]. apply checked_inv in E1 as ->. cbn [mbind option_bind].
    destruct (checked 32 (m0 + n * 12)) eqn:E2; [|done]. apply checked_inv in E2 as ->. cbn. intros [= <-]. f_equal. lia.
  - destruct Hi as [Hi ->]. destruct (int_value_read 32 v m) as [-> _]; [done|done|]. cbn [mbind option_bind].
    destruct (checked 32 (m0 + m)) eqn:E2; [|done]. apply checked_inv in E2 as ->. cbn. intros [= <-]. f_equal. lia.
  - destruct Hi as (n & Hi & -> & ->). destruct (int_value_read 64 v n) as [-> _]; [done|done|]. cbn [mbind option_bind].
    intros ->%(add_time_inv _ (n * 604800000000)); [f_equal; lia|]. intros y. apply Hd.
  - destruct Hi as (n & Hi & -> & ->). destruct (int_value_read 64 v n) as [-> _]; [done|done|]. cbn [mbind option_bind].
    intros ->%(add_time_inv _ (n * 86400000000)); [f_equal; lia|]. intros y. apply Hd.
  - destruct Hi as (n & Hi & -> & ->). destruct (int_value_read 64 v n) as [-> _]; [done|done|]. cbn [mbind option_bind].
    intros ->%(add_time_inv _ (n * 3600000000)); [f_equal; lia|]. intros y. apply Hd.
  - destruct Hi as (n & Hi & -> & ->). destruct (int_value_read 64 v n) as [-> _]; [done|done|]. cbn [mbind option_bind].
    intros ->%(add_time_inv _ (n * 60000000)); [f_equal; lia|]. intros y. apply Hd.
  - destruct Hi as [Hi ->]. destruct (second_value_read v t Hi) as [H1 _].
    destruct (value_second v) as [[[b n] us]|]; [|done]. cbn [mbind option_bind].
    destruct (H1 _ eq_refl) as (? & ? & ? & [= <- <- <-] & _ & _ & ->).
    destruct (delta (t0 + (if b then -1 else 1) * (n * US_SECOND))) eqn:E1; [|done]. apply delta_inv in E1 as ->. cbn [mbind option_bind].
    destruct (delta (_ + _ + (if b then -1 else 1) * us)) eqn:E2; [|done]. apply delta_inv in E2 as ->. cbn [mbind option_bind].
    intros [= <-]. unfold opposite_if. destruct b; f_equal; lia.
  - destruct Hi as (n & Hi & -> & ->). destruct (int_value_read 64 v n) as [-> _]; [done|done|]. cbn [mbind option_bind].
    intros ->%(add_time_inv _ (n * 1000)); [f_equal; lia|]. intros y. apply Hd.
  - destruct Hi as [Hi ->]. destruct (int_value_read 64 v t) as [-> _]; [done|done|]. cbn [mbind option_bind].
    intros ->%(add_time_inv _ t); [f_equal; lia|]. by intros y [= <-].
Qed.
Lemma item_accepts (m0 t0 m t : Z) (i : value * unit) :
  item_says i m t -> fits 32 m = true -> fits 32 (m0 + m) = true -> Z.abs t0 + Z.abs t <= delta_max ->
  (i.2 = USecond -> Z.abs t < 4294967296000000) ->
  add_item (m0, t0) i = Some (m0 + m, t0 + t).
Proof.
  intros Hi Hm Hmm Ht Hsec.
  assert (Hsome : is_Some (add_item (m0, t0) i)).
  { destruct i as [v u]. cbn [snd] in Hsec.
    assert (Htime : forall n k months, t = n * k -> is_Some (add_time t0 (delta_of k n) months)).
    { intros n k months ->. unfold add_time, delta_of. rewrite delta_fits by lia. cbn [mbind option_bind].
      rewrite delta_fits by lia. by eexists. }
    destruct u; cbn [item_says add_item] in *.
    - destruct Hi as (n & Hi & -> & ->). destruct (int_value_read 32 v n) as [-> _]; [done|done|]. cbn [mbind option_bind].
      rewrite checked_fits by done. cbn [mbind option_bind]. rewrite checked_fits by done. by eexists.
    - destruct Hi as [Hi ->]. destruct (int_value_read 32 v m) as [-> _]; [done|done|]. cbn [mbind option_bind].
      rewrite checked_fits by done. by eexists.
    - destruct Hi as (n & Hi & -> & ->). destruct (int_value_read 64 v n) as [-> _]; [done|done|]. cbn [mbind option_bind]. by apply Htime.
    - destruct Hi as (n & Hi & -> & ->). destruct (int_value_read 64 v n) as [-> _]; [done|done|]. cbn [mbind option_bind]. by apply Htime.
    - destruct Hi as (n & Hi & -> & ->). destruct (int_value_read 64 v n) as [-> _]; [done|done|]. cbn [mbind option_bind]. by apply Htime.
    - destruct Hi as (n & Hi & -> & ->). destruct (int_value_read 64 v n) as [-> _]; [done|done|]. cbn [mbind option_bind]. by apply Htime.
    - destruct Hi as [Hi ->]. destruct (second_value_read v t Hi) as [H1 H2].
      destruct (H2 (Hsec eq_refl)) as [[[b n] us] Hv]. rewrite Hv. cbn [mbind option_bind].
      destruct (H1 _ Hv) as (? & ? & ? & [= <- <- <-] & Hn & Hu & Ht').
      assert (Hn' : 0 <= n * US_SECOND) by (unfold US_SECOND; lia). unfold opposite_if in Ht'.
      rewrite delta_fits by (destruct b; lia). cbn [mbind option_bind]. rewrite delta_fits by (destruct b; lia). by eexists.
    - destruct Hi as (n & Hi & -> & ->). destruct (int_value_read 64 v n) as [-> _]; [done|done|]. cbn [mbind option_bind]. by apply Htime.
    - destruct Hi as [Hi ->]. destruct (int_value_read 64 v t) as [-> _]; [done|done|]. cbn [mbind option_bind].
      unfold add_time. cbn [mbind option_bind]. rewrite delta_fits by lia. by eexists. }
  destruct Hsome as [r Hr]. rewrite Hr. f_equal. by eapply item_sound.
Qed.

(** ** All items *)
Definition says_all (items : list (value * unit)) (parts : list (Z * Z)) : Prop :=
  Forall2 (fun i mt => item_says i mt.1 mt.2) items parts.
Lemma items_sound (items : list (value * unit)) (parts : list (Z * Z)) (m0 t0 : Z) r :
  says_all items parts -> add_items (m0, t0) items = Some r ->
  r = (m0 + sum (map fst parts), t0 + sum (map snd parts)).
Proof.
  intros H. revert m0 t0. induction H as [|i [m t] items parts Hi _ IH]; intros m0 t0; cbn [add_items].
  - intros [= <-]. cbn. f_equal; lia.
  - destruct (add_item (m0, t0) i) as [[m1 t1]|] eqn:E; [|done]. cbn [mbind option_bind].
    apply (item_sound _ _ m t) in E; [|done]. injection E as -> ->.
    intros ->%IH. cbn [map sum foldr fst snd]. unfold sum. f_equal; lia.
Qed.
Lemma opposite_quot (b : bool) (n k : Z) : k <> 0 -> opposite_if b (Z.quot n k) = Z.quot (opposite_if b n) k.
Proof. intros Hk. destruct b; [|done]. cbn. by rewrite Z.quot_opp_l. Qed.
Lemma opposite_zero (b : bool) (n : Z) : opposite_if b n = 0 <-> n = 0.
Proof. destruct b; cbn; lia. Qed.
Lemma negate_if_inv (b : bool) (bits n r : Z) : negate_if b bits n = Some r -> r = opposite_if b n.
Proof. destruct b; cbn; [apply checked_inv|congruence]. Qed.
Lemma finish_sound (negated : bool) (m t : Z) v :
  finish negated m t = Some v -> v = interval_of (opposite_if negated m) (opposite_if negated t).
Proof.
  unfold finish, interval_of.
  destruct (decide (m = 0)) as [->|Hm].
  - rewrite (bool_decide_true (0 = 0)) by done. rewrite (bool_decide_true (opposite_if negated 0 = 0)) by (by apply opposite_zero).
    destruct (checked 64 t) eqn:E1; [|done]. apply checked_inv in E1 as ->. cbn [mbind option_bind].
    destruct (negate_if negated 64 t) eqn:E2; [|done]. apply negate_if_inv in E2 as ->. cbn. by intros [= <-].
  - rewrite (bool_decide_false (m = 0)) by done. rewrite (bool_decide_false (opposite_if negated m = 0)) by (by rewrite opposite_zero).
    destruct (decide (t = 0)) as [->|Ht].
    + rewrite (bool_decide_true (0 = 0)) by done. rewrite (bool_decide_true (opposite_if negated 0 = 0)) by (by apply opposite_zero).
      destruct (negate_if negated 32 m) eqn:E2; [|done]. apply negate_if_inv in E2 as ->. cbn. by intros [= <-].
    + rewrite (bool_decide_false (t = 0)) by done. rewrite (bool_decide_false (opposite_if negated t = 0)) by (by rewrite opposite_zero).
      destruct (checked 64 _) eqn:E1; [|done]. apply checked_inv in E1 as ->. cbn [mbind option_bind].
      destruct (negate_if negated 32 m) eqn:E2; [|done]. apply negate_if_inv in E2 as ->. cbn [mbind option_bind].
      destruct (negate_if negated 64 (Z.quot t US_DAY)) eqn:E3; [|done]. apply negate_if_inv in E3 as ->. cbn [mbind option_bind].
      destruct (checked 32 _) eqn:E4; [|done]. apply checked_inv in E4 as ->. cbn [mbind option_bind].
      destruct (negate_if negated 64 _) eqn:E5; [|done]. apply negate_if_inv in E5 as ->. cbn [mbind option_bind].
      change US_DAY with 86400000000. intros [= <-]. rewrite opposite_quot by done. f_equal. f_equal.
      rewrite Z.rem_eq by done. rewrite <- opposite_quot by done. destruct negated; cbn [opposite_if]; lia.
Qed.
Lemma multi_sound (negated : bool) (items : list (value * unit)) (parts : list (Z * Z)) v :
  says_all items parts -> parse_multi negated items = Some v ->
  v = interval_of (opposite_if negated (sum (map fst parts))) (opposite_if negated (sum (map snd parts))).
Proof.
  intros H. unfold parse_multi. destruct (add_items (0, 0) items) as [[m t]|] eqn:E; [|done].
  apply (items_sound _ _ _ _ _ H) in E. injection E as -> ->. cbn [mbind option_bind]. apply finish_sound.
Qed.

Lemma sum_cons (n : Z) (l : list Z) : sum (n :: l) = n + sum l.
Proof. done. Qed.
Lemma sum_abs_nonneg (l : list Z) : 0 <= sum (map Z.abs l).
Proof. induction l as [|n l IH]; [done|]. cbn [map]. rewrite sum_cons. lia. Qed.
Lemma sum_abs (l : list Z) : Z.abs (sum l) <= sum (map Z.abs l).
Proof. induction l as [|n l IH]; [done|]. cbn [map]. rewrite !sum_cons. lia. Qed.
Lemma items_accept (items : list (value * unit)) (parts : list (Z * Z)) (m0 t0 : Z) :
  says_all items parts ->
  Forall2 (fun i (mt : Z * Z) => i.2 = USecond -> Z.abs mt.2 < 4294967296000000) items parts ->
  Z.abs m0 + sum (map Z.abs (map fst parts)) <= int_max 32 ->
  Z.abs t0 + sum (map Z.abs (map snd parts)) <= delta_max ->
  add_items (m0, t0) items = Some (m0 + sum (map fst parts), t0 + sum (map snd parts)).
Proof.
  intros H. revert m0 t0. induction H as [|i [m t] items parts Hi _ IH]; intros m0 t0 Hs Hm Ht; cbn [add_items].
  - cbn. do 2 f_equal; lia.
  - apply Forall2_cons_1 in Hs as [Hs1 Hs2]. cbn [map fst snd] in *. rewrite !sum_cons in *.
    pose proof (sum_abs_nonneg (map fst parts)). pose proof (sum_abs_nonneg (map snd parts)).
    destruct i32_bounds as [E1 E2].
    rewrite (item_accepts m0 t0 m t); [|done|apply fits_bounds; lia|apply fits_bounds; lia|lia|done].
    cbn [mbind option_bind]. rewrite IH by (first [done|lia]). do 2 f_equal; lia.
Qed.
Lemma multi_accepts (negated : bool) (items : list (value * unit)) (parts : list (Z * Z)) :
  says_all items parts ->
  Forall2 (fun i (mt : Z * Z) => i.2 = USecond -> Z.abs mt.2 < 4294967296000000) items parts ->
  sum (map Z.abs (map fst parts)) <= int_max 32 -> sum (map Z.abs (map snd parts)) <= int_max 64 ->
  is_Some (parse_multi negated items).
Proof.
  intros H Hs Hm Ht. unfold parse_multi. destruct i32_bounds as [E1 E2]. destruct i64_bounds as [E3 E4].
  assert (Hdm : int_max 64 <= delta_max) by (rewrite E4, delta_max_value; lia).
  rewrite (items_accept items parts) by (first [done|lia]). cbn [mbind option_bind]. rewrite !Z.add_0_l.
  pose proof (sum_abs (map fst parts)) as Hm'. pose proof (sum_abs (map snd parts)) as Ht'.
  set (m := sum (map fst parts)) in *. set (t := sum (map snd parts)) in *.
  assert (Bm : Z.abs m <= 2147483647) by lia. assert (Bt : Z.abs t <= 9223372036854775807) by lia.
  assert (Hneg : forall bits n, (bits = 32 \/ bits = 64) -> Z.abs n <= int_max bits -> negate_if negated bits n = Some (opposite_if negated n)).
  { intros bits n Hb Hn. destruct negated; cbn; [|done]. apply checked_fits, fits_bounds. destruct Hb as [-> | ->]; lia. }
  unfold finish. destruct (bool_decide (m = 0)).
  { rewrite checked_fits by (apply fits_bounds; lia). cbn [mbind option_bind]. rewrite Hneg by (first [by right|lia]). by eexists. }
  destruct (bool_decide (t = 0)).
  { rewrite Hneg by (first [by left|lia]). by eexists. }
  change US_DAY with 86400000000.
  pose proof (Z.quot_rem' t 86400000000) as Hqr.
  assert (Hrem : Z.abs (Z.rem t 86400000000) < 86400000000) by (rewrite <- Z.rem_abs by lia; apply Z.rem_bound_pos; lia).
  replace (t - Z.quot t 86400000000 * 86400000000) with (Z.rem t 86400000000) by lia.
  revert Hqr Hrem. generalize (Z.quot t 86400000000) as q, (Z.rem t 86400000000) as r. intros q r Hqr Hrem.
  rewrite checked_fits by (apply fits_bounds; lia). cbn [mbind option_bind].
  rewrite Hneg by (first [by left|lia]). cbn [mbind option_bind].
  rewrite Hneg by (first [by right|lia]). cbn [mbind option_bind].
  rewrite checked_fits by (apply fits_bounds; destruct negated; cbn [opposite_if]; lia). cbn [mbind option_bind].
  rewrite Hneg by (first [by right|lia]). by eexists.
Qed.
