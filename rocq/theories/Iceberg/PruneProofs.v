From Coq Require Import NArith ZArith ZifyN ZifyBool Lia.
From stdpp Require Import prelude list.
From Verif.Lib Require Import Text ListFacts.
From Verif.Iceberg Require Import ValueModel TransformModel TransformSpec TransformProofs PruneModel PruneSpec.
Local Open Scope Z_scope.

(** * The order on literals *)
Fixpoint zcmp (a b : list Z) : comparison :=
  match a, b with
  | [], [] => Eq | [], _ :: _ => Lt | _ :: _, [] => Gt
  | x :: a, y :: b => match Z.compare x y with Eq => zcmp a b | c => c end
  end.
Definition key (p : prim) : list Z :=
  Z.of_nat (kind p) ::
  match p with
  | PBool b => [if b then 1 else 0]
  | PInt z | PLong z | PInt128 z => [z]
  | PFloat b => [fkey32 b] | PDouble b => [fkey64 b]
  | PUInt128 n => [Z.of_N n]
  | PString s | PBinary s => map Z.of_N s
  end.
Lemma bytes_zcmp a b : bytes_cmp a b = zcmp (map Z.of_N a) (map Z.of_N b).
Proof.
  revert b. induction a as [|x a IH]; intros [|y b]; try done. cbn [bytes_cmp map zcmp].
  rewrite N2Z.inj_compare. rewrite IH. done.
Qed.
Lemma prim_cmp_key a b : prim_cmp a b = zcmp (key a) (key b).
Proof.
  destruct a, b; try reflexivity; cbn [prim_cmp key zcmp kind]; rewrite Z.compare_refl; cbn [zcmp];
    try (destruct (Z.compare _ _); reflexivity).
  - by destruct b, b0.
  - apply bytes_zcmp.
  - rewrite N2Z.inj_compare. by destruct (n ?= n0)%N.
  - apply bytes_zcmp.
Qed.
Lemma zcmp_antisym a b : zcmp a b = CompOpp (zcmp b a).
Proof.
  revert b. induction a as [|x a IH]; intros [|y b]; try done. cbn [zcmp].
  rewrite (Z.compare_antisym y x). destruct (Z.compare y x) eqn:E; cbn [CompOpp]; try done.
Qed.
Lemma zcmp_eq a b : zcmp a b = Eq <-> a = b.
Proof.
  revert b. induction a as [|x a IH]; intros [|y b]; try done. cbn [zcmp].
  destruct (Z.compare_spec x y); subst; try (split; [done|intros [= ? ?]; lia]).
  rewrite IH. split; [by intros ->|by intros [= ->]].
Qed.
Lemma zcmp_trans a b c : zcmp a b <> Gt -> zcmp b c <> Gt -> zcmp a c <> Gt.
Proof.
  revert b c. induction a as [|x a IH]; intros [|y b] [|z c]; try done. cbn [zcmp].
  destruct (Z.compare_spec x y), (Z.compare_spec y z), (Z.compare_spec x z); try done; try lia. apply IH.
Qed.
Lemma prim_cmp_antisym a b : prim_cmp a b = CompOpp (prim_cmp b a).
Proof. rewrite !prim_cmp_key. apply zcmp_antisym. Qed.
Lemma prim_cmp_refl a : prim_cmp a a = Eq.
Proof. rewrite prim_cmp_key. by apply zcmp_eq. Qed.
Lemma below_trans a b c : below a b -> below b c -> below a c.
Proof. unfold below. rewrite !prim_cmp_key. apply zcmp_trans. Qed.
Lemma below_refl a : below a a.
Proof. unfold below. by rewrite prim_cmp_refl. Qed.
Lemma prim_cmp_eq_below a b : prim_cmp a b = Eq <-> below a b /\ below b a.
Proof.
  unfold below. rewrite (prim_cmp_antisym b a). destruct (prim_cmp a b); cbn [CompOpp]; split; intros H; try done.
  - by destruct H.
  - by destruct H.
Qed.
Lemma prim_cmp_gt a b : prim_cmp a b = Gt <-> ~ below a b.
Proof. unfold below. destruct (prim_cmp a b); naive_solver. Qed.
Lemma prim_cmp_lt a b : prim_cmp a b = Lt <-> ~ below b a.
Proof. rewrite prim_cmp_antisym. unfold below. destruct (prim_cmp b a); cbn; naive_solver. Qed.
Lemma prim_lt_false a b : prim_lt a b = false <-> below b a.
Proof. unfold prim_lt, below. rewrite (prim_cmp_antisym b a). by destruct (prim_cmp a b). Qed.
Lemma prim_gt_false a b : prim_gt a b = false <-> below a b.
Proof. unfold prim_gt, below. by destruct (prim_cmp a b). Qed.
Lemma prim_eq_true a b : prim_eq a b = true <-> below a b /\ below b a.
Proof. rewrite <- prim_cmp_eq_below. unfold prim_eq. by destruct (prim_cmp a b). Qed.
Lemma below_kind a b : below a b -> below b a -> kind a = kind b.
Proof.
  intros H1 H2. assert (prim_cmp a b = Eq) as E by by apply prim_cmp_eq_below.
  rewrite prim_cmp_key in E. apply zcmp_eq in E. by injection E as E%Nat2Z.inj _.
Qed.

(** * Truncating strings keeps their order *)
Lemma bytes_cmp_app p a b : bytes_cmp (p ++ a) (p ++ b) = bytes_cmp a b.
Proof. induction p as [|x p IH]; [done|]. cbn. by rewrite N.compare_refl. Qed.
Lemma bytes_cmp_differ a b x y : length a = length b -> a <> b -> bytes_cmp (a ++ x) (b ++ y) = bytes_cmp a b /\ bytes_cmp a b <> Eq.
Proof.
  revert b. induction a as [|c a IH]; intros [|d b]; try done. cbn [app bytes_cmp length].
  intros [= Hl] Hn. destruct (N.compare_spec c d) as [->|H|H]; try done.
  apply IH; [done|]. by intros ->.
Qed.
Lemma chars_differ c d x y : utf8_char c -> utf8_char d -> c <> d ->
  bytes_cmp (c ++ x) (d ++ y) = bytes_cmp c d /\ bytes_cmp c d <> Eq.
Proof.
  intros (b & bs & -> & _ & _ & Hl) (b' & bs' & -> & _ & _ & Hl') Hn. cbn [app bytes_cmp].
  destruct (N.compare_spec b b') as [->|H|H]; try done.
  apply bytes_cmp_differ; [congruence|]. by intros ->.
Qed.
Lemma take_mono cs ds n : Forall utf8_char cs -> Forall utf8_char ds ->
  bytes_cmp (concat cs) (concat ds) <> Gt -> bytes_cmp (concat (take n cs)) (concat (take n ds)) <> Gt.
Proof.
  intros Hc. revert ds n. induction Hc as [|c cs Hc Hcs IH]; intros ds n Hd.
  - intros _. destruct n; [done|]. cbn [take concat]. by destruct (concat (take (S n) ds)).
  - destruct n; [done|]. destruct Hd as [|d ds Hd Hds].
    + destruct Hc as (b & bs & -> & _). cbn. done.
    + cbn [take concat]. destruct (decide (c = d)) as [->|Hn].
      * rewrite !bytes_cmp_app. by apply IH.
      * destruct (chars_differ c d (concat cs) (concat ds) Hc Hd Hn) as [-> _].
        by destruct (chars_differ c d (concat (take n cs)) (concat (take n ds)) Hc Hd Hn) as [-> _].
Qed.

(** * Transforms keep the order *)
Lemma below_int a b : below (PInt a) (PInt b) <-> a <= b.
Proof. reflexivity. Qed.
Lemma below_long a b : below (PLong a) (PLong b) <-> a <= b.
Proof. reflexivity. Qed.
Lemma in_month_mono d d' k k' : in_month month_start d k -> in_month month_start d' k' -> d <= d' -> k <= k'.
Proof.
  intros [H1 H2] [H3 H4] Hd. destruct (Z_le_gt_dec k k') as [|H]; [done|].
  pose proof (month_start_mono (k' + 1) k ltac:(lia)). lia.
Qed.
Lemma in_year_mono d d' k k' : in_year month_start d k -> in_year month_start d' k' -> d <= d' -> k <= k'.
Proof.
  intros [H1 H2] [H3 H4] Hd. destruct (Z_le_gt_dec k k') as [|H]; [done|].
  pose proof (month_start_mono (12 * (k' + 1)) (12 * k) ltac:(lia)). lia.
Qed.
Lemma year_mono d d' : d <= d' -> year_of_day d <= year_of_day d'.
Proof. intros H. pose proof (in_year_mono _ _ _ _ (year_of_day_spec d) (year_of_day_spec d') H). lia. Qed.
Lemma month_mono d d' : d <= d' -> month_of_day d <= month_of_day d'.
Proof.
  intros H. destruct (month_of_day_spec d) as [H1 _], (month_of_day_spec d') as [H2 _].
  by apply (in_month_mono d d').
Qed.
Lemma truncate_int_plain w x : (0 < w < 2 ^ 31)%N -> truncate_plain w (PInt x) ->
  truncate_int w x = Ret (Some (PInt (Z.of_N w * (x / Z.of_N w)))).
Proof.
  intros Hw [Hx Hr]. pose proof (Z.mod_pos_bound x (Z.of_N w) ltac:(lia)).
  unfold truncate_int, rem_euclid, wrap32. rewrite (wrap_id 32 (Z.of_N w)) by lia.
  rewrite decide_False by lia. rewrite decide_False by lia.
  rewrite Z.abs_eq by lia. rewrite (wrap_id 32) by lia.
  do 3 f_equal. pose proof (Z.div_mod x (Z.of_N w) ltac:(lia)). lia.
Qed.
Lemma truncate_long_plain w x : (0 < w < 2 ^ 31)%N -> truncate_plain w (PLong x) ->
  truncate_long w x = Ret (Some (PLong (Z.of_N w * (x / Z.of_N w)))).
Proof.
  intros Hw [Hx Hr]. pose proof (Z.mod_pos_bound x (Z.of_N w) ltac:(lia)).
  unfold truncate_long, rem_euclid, wrap64. rewrite decide_False by lia.
  rewrite Z.abs_eq by lia. rewrite (wrap_id 64) by lia.
  do 3 f_equal. pose proof (Z.div_mod x (Z.of_N w) ltac:(lia)). lia.
Qed.
Lemma to_micros_mono ty a b : a <= b -> to_micros ty a <= to_micros ty b.
Proof. intros H. unfold to_micros. destruct ty; try done. by apply Z.div_le_mono. Qed.
Lemma clamp32_mono a b : - 2 ^ 31 <= a -> a <= b -> clamp32 a <= clamp32 b.
Proof. intros H H'. unfold clamp32. destruct (decide _), (decide _); lia. Qed.
Lemma day_bounds ty v : typed ty (PLong v) -> - 2 ^ 31 <= to_micros ty v / micros_per_day.
Proof.
  intros [Hok _]. cbn [prim_ok] in Hok. unfold to_micros, micros_per_day.
  destruct ty; Z.to_euclidean_division_equations; lia.
Qed.
Lemma hour_bounds ty v : typed ty (PLong v) -> ty ∈ [TyTs; TyTsNs] -> hour_plain ty (PLong v) ->
  - 2 ^ 31 <= to_micros ty v / 3600000000.
Proof.
  intros [Hok _] Ht Hp. cbn [prim_ok hour_plain] in *. unfold to_micros.
  destruct ty; try (exfalso; clear - Ht; apply (bool_decide_eq_true_2 _) in Ht; vm_compute in Ht; discriminate).
  - destruct Hp as [Hp|Hp]; [done|]. Z.to_euclidean_division_equations; lia.
  - Z.to_euclidean_division_equations; lia.
Qed.
Lemma plain_day ty v : (forall start, calendar start -> date_plain start ty v) ->
  (ty = TyDate -> 0 <= day_of ty v) /\ chrono_day (day_of ty v) = true.
Proof.
  intros H. destruct (H _ month_start_calendar) as [H1 H2]. split; [done|].
  by apply (chrono_day_plain month_start); [apply month_start_calendar|].
Qed.
Lemma plain_ts ty v : ty ∈ [TyTs; TyTsNs] -> (forall start, calendar start -> date_plain start ty (PLong v)) ->
  chrono_day (to_micros ty v / micros_per_day) = true.
Proof. intros _ [_ H]%plain_day. rewrite micros_day. exact H. Qed.

Definition mono_at (t : transform) (ty : ptype) (a b : prim) : Prop :=
  exists a' b', apply_transform t ty (Some a) = Ret (Some a') /\ apply_transform t ty (Some b) = Ret (Some b') /\
    below a' b'.
Lemma mono_id t ty a b : below a b -> apply_transform t ty (Some a) = Ret (Some a) ->
  apply_transform t ty (Some b) = Ret (Some b) -> mono_at t ty a b.
Proof. intros H1 H2 H3. exists a, b. done. Qed.
Lemma typed_cases ty a b : typed ty a -> typed ty b ->
  (exists x y, a = PInt x /\ b = PInt y /\ ty ∈ [TyInt; TyDate]) \/
  (exists x y, a = PLong x /\ b = PLong y /\ ty ∈ [TyLong; TyTime; TyTs; TyTsNs]) \/
  (exists x y, a = PString x /\ b = PString y /\ ty = TyString) \/
  ((forall x, a <> PInt x) /\ (forall x, a <> PLong x) /\ (forall x, a <> PString x) /\
   (forall x, b <> PInt x) /\ (forall x, b <> PLong x) /\ (forall x, b <> PString x)).
Proof.
  intros [_ Ha] [_ Hb].
  destruct ty; destruct a; try exact (False_ind _ Ha); destruct b; try exact (False_ind _ Hb);
    try (by (do 3 right)).
  - left. eexists _, _. split; [done|]. split; [done|]. by apply (bool_decide_unpack _).
  - right. left. eexists _, _. split; [done|]. split; [done|]. by apply (bool_decide_unpack _).
  - left. eexists _, _. split; [done|]. split; [done|]. by apply (bool_decide_unpack _).
  - right. left. eexists _, _. split; [done|]. split; [done|]. by apply (bool_decide_unpack _).
  - right. left. eexists _, _. split; [done|]. split; [done|]. by apply (bool_decide_unpack _).
  - right. left. eexists _, _. split; [done|]. split; [done|]. by apply (bool_decide_unpack _).
  - right. right. left. by eexists _, _.
Qed.
Lemma transform_mono t ty a b :
  preserves_order t = true -> typed ty a -> typed ty b -> orderly t ty a -> orderly t ty b -> below a b ->
  mono_at t ty a b.
Proof.
  intros Ht Ha Hb Hoa Hob Hab.
  destruct (typed_cases ty a b Ha Hb) as [(x & y & -> & -> & Hty)|[(x & y & -> & -> & Hty)|[(x & y & -> & -> & ->)|Hother]]].
  - (* integers and dates *)
    apply below_int in Hab.
    destruct t; try discriminate Ht; try (apply mono_id; [by apply below_int| |]; reflexivity).
    + cbn [orderly] in Hoa, Hob. destruct Hoa as [Hw Hpa], Hob as [_ Hpb].
      exists (PInt (Z.of_N w * (x / Z.of_N w))), (PInt (Z.of_N w * (y / Z.of_N w))).
      split; [exact (truncate_int_plain w x Hw Hpa)|]. split; [exact (truncate_int_plain w y Hw Hpb)|].
      apply below_int. pose proof (Z.div_le_mono x y (Z.of_N w) ltac:(lia) Hab). nia.
    + destruct (decide (ty = TyDate)) as [->|Hd].
      2: { apply mono_id; [by apply below_int| |]; destruct ty; try done. }
      cbn [orderly] in Hoa, Hob. specialize (Hoa ltac:(by apply (bool_decide_unpack _))).
      specialize (Hob ltac:(by apply (bool_decide_unpack _))).
      apply plain_day in Hoa as [Hx1 Hx2], Hob as [Hy1 Hy2]. specialize (Hx1 eq_refl). specialize (Hy1 eq_refl).
      cbn [day_of] in *. exists (PInt (year_of_day x - 1970)), (PInt (year_of_day y - 1970)).
      cbn [apply_transform]. unfold days_to_year. rewrite !decide_True by done. rewrite Hx2, Hy2.
      split; [reflexivity|]. split; [reflexivity|]. apply below_int. pose proof (year_mono x y Hab). lia.
    + destruct (decide (ty = TyDate)) as [->|Hd].
      2: { apply mono_id; [by apply below_int| |]; destruct ty; try done. }
      cbn [orderly] in Hoa, Hob. specialize (Hoa ltac:(by apply (bool_decide_unpack _))).
      specialize (Hob ltac:(by apply (bool_decide_unpack _))).
      apply plain_day in Hoa as [Hx1 Hx2], Hob as [Hy1 Hy2]. specialize (Hx1 eq_refl). specialize (Hy1 eq_refl).
      cbn [day_of] in *. exists (PInt (month_of_day x)), (PInt (month_of_day y)).
      cbn [apply_transform]. unfold days_to_months. rewrite !decide_True by done. rewrite Hx2, Hy2.
      split; [reflexivity|]. split; [reflexivity|]. apply below_int. by apply month_mono.
    + apply mono_id; [by apply below_int| |]; destruct ty; reflexivity.
    + apply mono_id; [by apply below_int| |]; destruct ty; reflexivity.
  - (* longs *)
    apply below_long in Hab.
    destruct t; try discriminate Ht; try (apply mono_id; [by apply below_long| |]; reflexivity).
    { cbn [orderly] in Hoa, Hob. destruct Hoa as [Hw Hpa], Hob as [_ Hpb].
      exists (PLong (Z.of_N w * (x / Z.of_N w))), (PLong (Z.of_N w * (y / Z.of_N w))).
      split; [exact (truncate_long_plain w x Hw Hpa)|]. split; [exact (truncate_long_plain w y Hw Hpb)|].
      apply below_long. pose proof (Z.div_le_mono x y (Z.of_N w) ltac:(lia) Hab). nia. }
    all: assert (ty = TyLong \/ ty = TyTime \/ ty ∈ [TyTs; TyTsNs]) as Hts by
      (clear - Hty; rewrite !elem_of_cons, elem_of_nil in *; tauto).
    all: destruct Hts as [->|[->|Hts]]; [apply mono_id; [by apply below_long| |]; reflexivity
      |apply mono_id; [by apply below_long| |]; reflexivity|].
    all: pose proof (to_micros_mono ty x y Hab) as Hm.
    + assert (ty ∈ [TyDate; TyTs; TyTsNs]) as Hd by (rewrite elem_of_cons; by right).
      pose proof (plain_ts ty x Hts (Hoa Hd)) as Hx. pose proof (plain_ts ty y Hts (Hob Hd)) as Hy.
      exists (PInt (year_of_day (to_micros ty x / micros_per_day) - 1970)),
        (PInt (year_of_day (to_micros ty y / micros_per_day) - 1970)).
      assert (forall z, chrono_day (to_micros ty z / micros_per_day) = true ->
        apply_transform Year ty (Some (PLong z)) = Ret (Some (PInt (year_of_day (to_micros ty z / micros_per_day) - 1970)))) as E.
      { intros z Hz. rewrite !elem_of_cons, elem_of_nil in Hts. clear - Hz Hts.
        destruct Hts as [->|[->|[]]]; cbn [apply_transform]; unfold micros_to_year; rewrite Hz; reflexivity. }
      split; [by apply E|]. split; [by apply E|]. apply below_int.
      pose proof (year_mono _ _ (Z.div_le_mono _ _ micros_per_day ltac:(done) Hm)). lia.
    + assert (ty ∈ [TyDate; TyTs; TyTsNs]) as Hd by (rewrite elem_of_cons; by right).
      pose proof (plain_ts ty x Hts (Hoa Hd)) as Hx. pose proof (plain_ts ty y Hts (Hob Hd)) as Hy.
      exists (PInt (month_of_day (to_micros ty x / micros_per_day))),
        (PInt (month_of_day (to_micros ty y / micros_per_day))).
      assert (forall z, chrono_day (to_micros ty z / micros_per_day) = true ->
        apply_transform Month ty (Some (PLong z)) = Ret (Some (PInt (month_of_day (to_micros ty z / micros_per_day))))) as E.
      { intros z Hz. rewrite !elem_of_cons, elem_of_nil in Hts. clear - Hz Hts.
        destruct Hts as [->|[->|[]]]; cbn [apply_transform]; rewrite micros_to_months_eq by exact Hz; reflexivity. }
      split; [by apply E|]. split; [by apply E|]. apply below_int.
      apply (month_mono _ _ (Z.div_le_mono _ _ micros_per_day ltac:(done) Hm)).
    + exists (PInt (clamp32 (to_micros ty x / micros_per_day))), (PInt (clamp32 (to_micros ty y / micros_per_day))).
      assert (forall z, apply_transform Day ty (Some (PLong z)) = Ret (Some (PInt (clamp32 (to_micros ty z / micros_per_day))))) as E.
      { intros z. rewrite !elem_of_cons, elem_of_nil in Hts. clear - Hts.
        destruct Hts as [->|[->|[]]]; reflexivity. }
      split; [by apply E|]. split; [by apply E|]. apply below_int. apply clamp32_mono; [by apply day_bounds|].
      apply (Z.div_le_mono _ _ micros_per_day ltac:(done) Hm).
    + exists (PInt (clamp32 (to_micros ty x / 3600000000))), (PInt (clamp32 (to_micros ty y / 3600000000))).
      assert (forall z, apply_transform Hour ty (Some (PLong z)) = Ret (Some (PInt (clamp32 (to_micros ty z / 3600000000))))) as E.
      { intros z. rewrite !elem_of_cons, elem_of_nil in Hts. clear - Hts.
        destruct Hts as [->|[->|[]]]; reflexivity. }
      split; [by apply E|]. split; [by apply E|]. apply below_int. apply clamp32_mono; [by apply hour_bounds; [| |apply Hoa]|].
      apply (Z.div_le_mono _ _ 3600000000 ltac:(done) Hm).
  - (* strings *)
    destruct t; try discriminate Ht; try (apply mono_id; [done| |]; reflexivity).
    cbn [orderly] in Hoa, Hob. destruct Hoa as [Hw (cs & Hcs & ->)], Hob as [_ (ds & Hds & ->)].
    exists (PString (concat (take (N.to_nat w) cs))), (PString (concat (take (N.to_nat w) ds))).
    cbn [apply_transform]. rewrite !take_chars_concat by done. split; [reflexivity|]. split; [reflexivity|].
    unfold below in *. cbn [prim_cmp] in *. by apply take_mono.
  - destruct Hother as (H1 & H2 & H3 & H4 & H5 & H6).
    assert (forall p, (forall x, p <> PInt x) -> (forall x, p <> PLong x) -> (forall x, p <> PString x) ->
      apply_transform t ty (Some p) = Ret (Some p)) as E.
    { clear - Ht. intros p H1 H2 H3. destruct t; try discriminate Ht; destruct ty; destruct p; try reflexivity;
        exfalso; (by eapply H1) || (by eapply H2) || (by eapply H3). }
    apply mono_id; [done| |]; by apply E.
Qed.
Lemma bucket_ret h n : (0 < n < 2 ^ 31)%N -> exists x, bucket_n h n = Ret (Some (PInt x)).
Proof.
  intros Hn. unfold bucket_n, wrap32. rewrite wrap_id by lia. rewrite decide_False by lia. by eexists.
Qed.
Lemma cmp_eq_plain a b : prim_cmp a b = Eq -> a = b \/ (exists x y, a = PFloat x /\ b = PFloat y) \/ (exists x y, a = PDouble x /\ b = PDouble y).
Proof.
  assert (forall s s', bytes_cmp s s' = Eq -> s = s') as Hs.
  { induction s as [|x s IH]; intros [|y s']; try done. cbn. destruct (N.compare_spec x y) as [->|H|H]; try done.
    intros E. by rewrite (IH _ E). }
  destruct a, b; try discriminate; cbn [prim_cmp]; intros H.
  - left. by destruct b, b0.
  - left. f_equal. by apply Z.compare_eq.
  - left. f_equal. by apply Z.compare_eq.
  - right. left. by eexists _, _.
  - right. right. by eexists _, _.
  - left. f_equal. by apply Z.compare_eq.
  - left. f_equal. by apply Hs.
  - left. f_equal. by apply N.compare_eq.
  - left. f_equal. by apply Hs.
Qed.
Lemma transform_total t ty a : ignored t = false -> typed ty a -> orderly t ty a ->
  exists a', apply_transform t ty (Some a) = Ret (Some a').
Proof.
  intros Hi Ha Ho. destruct (preserves_order t) eqn:Hp.
  - destruct (transform_mono t ty a a Hp Ha Ha Ho Ho (below_refl a)) as (a' & _ & H & _). by exists a'.
  - destruct t; try discriminate. cbn [orderly] in Ho. cbn [apply_transform].
    destruct a; try (by eexists); match goal with |- context [bucket_n ?h n] => destruct (bucket_ret h n Ho) as [x ->] end; by eexists.
Qed.
Lemma transform_cong t ty a b a' b' : ignored t = false -> typed ty a -> typed ty b -> orderly t ty a -> orderly t ty b ->
  prim_cmp a b = Eq -> apply_transform t ty (Some a) = Ret (Some a') -> apply_transform t ty (Some b) = Ret (Some b') ->
  prim_cmp a' b' = Eq.
Proof.
  intros Hi Ha Hb Hoa Hob Hab E1 E2. destruct (preserves_order t) eqn:Hp.
  - apply prim_cmp_eq_below in Hab as [H1 H2].
    destruct (transform_mono t ty a b Hp Ha Hb Hoa Hob H1) as (x & y & X1 & X2 & X3).
    destruct (transform_mono t ty b a Hp Hb Ha Hob Hoa H2) as (y' & x' & Y1 & Y2 & Y3).
    rewrite E1 in X1, Y2. rewrite E2 in X2, Y1. injection X1 as <-. injection X2 as <-. injection Y1 as <-. injection Y2 as <-.
    by apply prim_cmp_eq_below.
  - destruct t; try discriminate. destruct (cmp_eq_plain a b Hab) as [->|[(x & y & -> & ->)|(x & y & -> & ->)]].
    + rewrite E1 in E2. injection E2 as ->. apply prim_cmp_refl.
    + cbn [apply_transform] in E1, E2. injection E1 as <-. injection E2 as <-. done.
    + cbn [apply_transform] in E1, E2. injection E1 as <-. injection E2 as <-. done.
Qed.

(** * Filters *)
Lemma eval_unalias w r e : eval w r (unalias e) = eval w r e.
Proof. induction e; done. Qed.
Lemma strip_uncast e : uncast e -> strip e = unalias e.
Proof. induction e; try done. Qed.
Lemma comparison_true w r o a b : (match o with OAnd | OOther _ => False | _ => True end) ->
  eval w r (EBin o a b) = Some (PBool true) ->
  exists x y, eval w r a = Some x /\ eval w r b = Some y /\ kind x = kind y /\ comparison_holds o (w_cmp w x y) = true.
Proof.
  intros Ho H. cbn [eval] in H.
  assert (PBool <$> compare_values w o (eval w r a) (eval w r b) = Some (PBool true)) as H'.
  { destruct o; try done. }
  clear H. destruct (eval w r a) as [x|]; [|done]. destruct (eval w r b) as [y|]; [|done].
  cbn [compare_values] in H'. destruct (decide (kind x = kind y)) as [Hk|]; [|done].
  exists x, y. repeat split; try done. cbn in H'. by injection H'.
Qed.
(** What a comparison says about the order of the literals. *)
Definition is_float (p : prim) : Prop := match p with PFloat _ | PDouble _ => True | _ => False end.
Lemma world_gt w a b : world_ok w -> kind a = kind b -> w_cmp w a b = Gt -> below b a /\ (~ is_float a -> ~ below a b).
Proof.
  intros Hw Hk E. specialize (Hw a b Hk). unfold below. rewrite (prim_cmp_antisym b a).
  destruct a; try (rewrite Hw in E; rewrite E; cbn; split; [done|intros _ X; by apply X]);
    rewrite E in Hw; (split; [by destruct (prim_cmp _ _)|cbn; tauto]).
Qed.
Lemma world_lt w a b : world_ok w -> kind a = kind b -> w_cmp w a b = Lt -> below a b /\ (~ is_float a -> ~ below b a).
Proof.
  intros Hw Hk E. specialize (Hw a b Hk). unfold below. rewrite (prim_cmp_antisym b a).
  destruct a; try (rewrite Hw in E; rewrite E; cbn; split; [done|intros _ X; by apply X]);
    rewrite E in Hw; (split; [by destruct (prim_cmp _ _)|cbn; tauto]).
Qed.
Lemma world_eq w a b : world_ok w -> kind a = kind b -> w_cmp w a b = Eq -> prim_cmp a b = Eq.
Proof.
  intros Hw Hk E. specialize (Hw a b Hk).
  destruct a; try (rewrite Hw in E; exact E); rewrite E in Hw; exact Hw.
Qed.
Lemma strict_int ty p v lower : typed ty p -> typed ty v ->
  (if lower : bool then below p v /\ (~ is_float v -> ~ below v p) else below v p /\ (~ is_float v -> ~ below p v)) ->
  let q := bound_literal ty p lower false in
  typed ty q /\ (q = p \/ neighbour p q) /\ if lower then below q v else below v q.
Proof.
  intros Hp Hv H q. subst q. unfold bound_literal.
  assert (forall q, adjust_exclusive ty p lower = Some q ->
    typed ty q /\ neighbour p q /\ if lower then below q v else below v q) as Hq.
  { intros q Eq. destruct (typed_cases ty p v Hp Hv) as [(x & y & -> & -> & Hty)|[(x & y & -> & -> & Hty)|[(x & y & -> & -> & ->)|Hother]]].
    - destruct Hp as [_ Hp']. destruct ty; try discriminate Eq.
      + cbn [adjust_exclusive] in Eq. unfold shift in Eq. case_decide as Hd; [|discriminate Eq].
        injection Eq as <-. change (2 ^ (32 - 1)) with (2 ^ 31) in Hd. split; [split; [exact Hd|exact I]|].
        split; [cbn; destruct lower; lia|].
        destruct lower; rewrite !below_int in *; destruct H as [H1 H2]; specialize (H2 ltac:(intros [])); lia.
      + cbn [adjust_exclusive] in Eq. unfold shift in Eq. case_decide as Hd; [|discriminate Eq].
        injection Eq as <-. change (2 ^ (32 - 1)) with (2 ^ 31) in Hd. split; [split; [exact Hd|exact I]|].
        split; [cbn; destruct lower; lia|].
        destruct lower; rewrite !below_int in *; destruct H as [H1 H2]; specialize (H2 ltac:(intros [])); lia.
    - destruct Hp as [_ Hp']. destruct ty; try discriminate Eq;
        (cbn [adjust_exclusive] in Eq; unfold shift in Eq; case_decide as Hd; [|discriminate Eq];
        injection Eq as <-; change (2 ^ (64 - 1)) with (2 ^ 63) in Hd; (split; [split; [exact Hd|exact I]|]);
        (split; [cbn; destruct lower; lia|]);
        destruct lower; rewrite !below_long in *; destruct H as [H1 H2]; specialize (H2 ltac:(intros [])); lia).
    - discriminate Eq.
    - destruct Hother as (H1 & H2 & _). exfalso. destruct ty; try discriminate Eq; destruct p; try discriminate Eq;
        (by eapply H1) || (by eapply H2). }
  destruct (adjust_exclusive ty p lower) as [q|] eqn:E.
  - destruct (Hq q eq_refl) as (A & B & C). split; [exact A|]. split; [by right|exact C].
  - split; [exact Hp|]. split; [by left|]. destruct lower; by destruct H.
Qed.

Lemma supported_shape specs e : classify specs e <> Unsupported ->
  (exists o l r, e = EBin o l r /\ match o with OAnd | OOther _ => False | _ => True end) \/
  (exists e' items, e = EIn e' false items /\ forallb is_literal items = true).
Proof.
  intros H. destruct e as [| | | |o l r|e' [] items|]; try (by destruct H).
  - left. exists o, l, r. split; [done|]. destruct o; try exact I; by destruct H.
  - right. exists e', items. split; [done|]. cbn [classify] in H.
    destruct (strip e'); try (by destruct H). by destruct (forallb is_literal items); [|destruct H].
Qed.
Definition agrees (w : world) (r : row) (specs : list (list pfield)) (e : expr) : Prop :=
  classify specs e <> Unsupported /\ uncast_filter e /\ matches w r e.

Lemma eq_filter_ok w sc specs r e c p : world_ok w -> agrees w r specs e -> (c, p) ∈ eq_filter sc e ->
  exists v, r c = Some v /\ prim_cmp v p = Eq /\ (c, p, false) ∈ compared e.
Proof.
  intros Hw (Hs & Hu & Hm) Hin.
  destruct (supported_shape specs e Hs) as [(o & l & r' & -> & Ho)|(e' & items & -> & _)]; [|by apply elem_of_nil in Hin].
  destruct Hu as [Hul Hur]. destruct o; try exact (False_ind _ Ho); try (by apply elem_of_nil in Hin).
  destruct (comparison_true w r OEq l r' I Hm) as (x & y & Hx & Hy & Hk & Hc).
  assert (prim_cmp x y = Eq) as Exy.
  { apply (world_eq w); try done. by destruct (w_cmp w x y). }
  cbn [eq_filter compared] in *. rewrite !strip_uncast in Hin by done.
  rewrite <- eval_unalias in Hx, Hy.
  destruct (unalias l) as [cl|[vl|]| | | | |]; try (by apply elem_of_nil in Hin).
  - destruct (unalias r') as [|[vr|]| | | | |]; try (by apply elem_of_nil in Hin).
    destruct (known sc cl); [|by apply elem_of_nil in Hin]. apply elem_of_list_singleton in Hin as [= -> ->].
    cbn [eval] in Hx, Hy. injection Hy as <-. exists x. split; [done|]. split; [done|]. by apply elem_of_list_singleton.
  - destruct (unalias r') as [cr| | | | | |]; try (by apply elem_of_nil in Hin).
    destruct (known sc cr); [|by apply elem_of_nil in Hin]. apply elem_of_list_singleton in Hin as [= -> ->].
    cbn [eval] in Hx, Hy. injection Hx as <-. exists y. split; [done|]. split; [|by apply elem_of_list_singleton].
    rewrite prim_cmp_antisym, Exy. done.
Qed.

Lemma or3_true a b : or3 a b = Some true -> a = Some true \/ b = Some true.
Proof. destruct a as [[]|], b as [[]|]; cbn; intros H; tauto. Qed.
Lemma elem_of_literal_items p items : p ∈ literal_items items <-> ELit (Some p) ∈ items.
Proof.
  unfold literal_items. rewrite elem_of_flat_map. split.
  - intros (e & He & Hp). destruct e as [|[v|]| | | | |]; try (by apply elem_of_nil in Hp).
    apply elem_of_list_singleton in Hp as ->. done.
  - intros H. exists (ELit (Some p)). split; [done|]. by apply elem_of_list_singleton.
Qed.
Lemma in_filter_ok w sc specs r e c : world_ok w -> agrees w r specs e ->
  (exists p, (c, p) ∈ in_filter sc e) ->
  (exists v p, r c = Some v /\ prim_cmp v p = Eq /\ (c, p) ∈ in_filter sc e) /\
  (forall p, (c, p) ∈ in_filter sc e -> (c, p, false) ∈ compared e).
Proof.
  intros Hw (Hs & Hu & Hm) [p0 Hin].
  destruct (supported_shape specs e Hs) as [(o & l & r' & -> & Ho)|(e' & items & -> & Hlit)].
  { destruct o; try (exact (False_ind _ Ho)); by apply elem_of_nil in Hin. }
  cbn [in_filter compared uncast_filter] in *. rewrite strip_uncast in * by done.
  unfold matches in Hm. cbn [eval] in Hm. rewrite <- (eval_unalias w r e') in Hm.
  destruct (unalias e') as [c'| | | | | |]; try (by apply elem_of_nil in Hin).
  destruct (known sc c'); [|by apply elem_of_nil in Hin].
  apply elem_of_map_iff in Hin as (q & [= <- _] & _).
  split.
  - cbn [eval] in Hm.
    assert (exists i, i ∈ items /\ compare_values w OEq (r c) (eval w r i) = Some true) as (i & Hi & Hci).
    { clear Hlit Hs. assert (foldr (fun i acc => or3 (compare_values w OEq (r c) (eval w r i)) acc) (Some false) items = Some true) as H.
      { match type of Hm with PBool <$> ?x = _ => destruct x as [[]|] eqn:E; [reflexivity|discriminate Hm|discriminate Hm] end. }
      clear Hm. induction items as [|i items IH]; [discriminate H|]. cbn [foldr] in H.
      apply or3_true in H as [H|H]; [exists i; split; [left|done]|].
      destruct (IH H) as (j & Hj & Hcj). exists j. split; [by right|done]. }
    assert (is_literal i = true) as Hl by (apply forallb_elem with (x := i) in Hlit; done).
    destruct i as [|vi| | | | |]; try discriminate Hl. cbn [eval] in Hci.
    destruct (r c) as [v|] eqn:Ev; [|discriminate Hci]. destruct vi as [p|]; [|discriminate Hci].
    exists v, p. split; [done|]. cbn [compare_values] in Hci. case_decide as Hk; [|discriminate Hci].
    split; [apply (world_eq w); [done|done|]; by destruct (w_cmp w v p)|].
    apply elem_of_map_iff. exists p. split; [done|]. by apply elem_of_literal_items.
  - intros p Hp. apply elem_of_map_iff in Hp as (q' & [= ->] & Hq). apply elem_of_map_iff. by exists q'.
Qed.

Lemma range_filter_ok w sc specs r e b : world_ok w -> agrees w r specs e -> b ∈ range_filter sc false e ->
  exists v, r (b_col b) = Some v /\ kind v = kind (b_lit b) /\ (b_col b, b_lit b, negb (b_incl b)) ∈ compared e /\
    if b_incl b then (if b_lower b then below (b_lit b) v else below v (b_lit b))
    else if b_lower b then below (b_lit b) v /\ (~ is_float v -> ~ below v (b_lit b))
    else below v (b_lit b) /\ (~ is_float v -> ~ below (b_lit b) v).
Proof.
  intros Hw (Hs & Hu & Hm) Hin.
  destruct (supported_shape specs e Hs) as [(o & l & r' & -> & Ho)|(e' & items & -> & _)]; [|by apply elem_of_nil in Hin].
  destruct Hu as [Hul Hur].
  destruct (comparison_true w r o l r' Ho Hm) as (x & y & Hx & Hy & Hk & Hc).
  rewrite <- eval_unalias in Hx, Hy. cbn [compared].
  assert (forall p, is_float p <-> is_float p) by done.
  assert (kind x = kind y -> (is_float x <-> is_float y)) as Hf by (destruct x, y; cbn; intros; (tauto || lia)).
  specialize (Hf Hk).
  destruct o; try (exact (False_ind _ Ho)); try (by apply elem_of_nil in Hin);
    cbn [range_filter] in Hin; rewrite !strip_uncast in Hin by done;
    (destruct (unalias l) as [cl|[vl|]| | | | |]; try (by apply elem_of_nil in Hin));
    (destruct (unalias r') as [cr|[vr|]| | | | |]; try (by apply elem_of_nil in Hin));
    (match type of Hin with context [known sc ?c] => destruct (known sc c); [|by apply elem_of_nil in Hin] end);
    apply elem_of_list_singleton in Hin as ->; cbn [b_col b_lit b_incl b_lower eval] in *;
    (injection Hx as <- || injection Hy as <-);
    (match goal with H : r _ = Some ?v |- _ => exists v; split; [exact H|] end);
    (split; [congruence|]); (split; [by apply elem_of_list_singleton|]).
  all: destruct (w_cmp w _ _) eqn:Ew; try discriminate Hc.
  all: first [apply (world_gt w) in Ew; [|done|done] | apply (world_lt w) in Ew; [|done|done] | apply (world_eq w) in Ew; [|done|done]; apply prim_cmp_eq_below in Ew].
  all: tauto.
Qed.

(** * Partition constraints *)
Definition satisfied (k : constraint) (v : prim) : Prop :=
  match k with
  | CEq p => prim_cmp v p = Eq
  | CIn ps => exists p, p ∈ ps /\ prim_cmp v p = Eq
  | CRange rg =>
      (forall m i, r_min rg = Some (m, i) -> i = true /\ below m v) /\
      (forall m i, r_max rg = Some (m, i) -> i = true /\ below v m)
  end.
Lemma satisfied_value k v : satisfied k v -> may_match_value k (Some v) = true.
Proof.
  destruct k as [p|ps|[mn mx]]; cbn [satisfied may_match_value].
  - unfold prim_eq. by intros ->.
  - intros (p & Hp & E). apply existsb_exists. exists p. split; [by apply elem_of_list_In|]. unfold prim_eq. by rewrite E.
  - cbn [r_min r_max]. intros [H1 H2]. unfold value_in_range. cbn [r_min r_max]. apply andb_true_iff. split.
    + destruct mn as [[m i]|]; [|done]. destruct (H1 m i eq_refl) as [-> H].
      rewrite (proj2 (prim_lt_false v m) H). cbn. by rewrite andb_false_r.
    + destruct mx as [[m i]|]; [|done]. destruct (H2 m i eq_refl) as [-> H].
      rewrite (proj2 (prim_gt_false v m) H). cbn. by rewrite andb_false_r.
Qed.
Lemma satisfied_bounds k v lo hi : satisfied k v ->
  (forall l, lo = Some l -> below l v) -> (forall h, hi = Some h -> below v h) -> may_match_bounds k lo hi = true.
Proof.
  intros Hk Hlo Hhi.
  assert (forall p, prim_cmp v p = Eq -> literal_in_bounds p lo hi = true) as Hp.
  { intros p [H1 H2]%prim_cmp_eq_below. unfold literal_in_bounds. apply andb_true_iff. split.
    - destruct lo as [l|]; [|done]. rewrite (proj2 (prim_lt_false p l)); [done|]. by apply (below_trans _ v); [apply Hlo|].
    - destruct hi as [h|]; [|done]. rewrite (proj2 (prim_gt_false p h)); [done|]. by apply (below_trans _ v); [|apply Hhi]. }
  destruct k as [p|ps|[mn mx]]; cbn [satisfied may_match_bounds] in *.
  - by apply Hp.
  - destruct Hk as (p & Hin & E). apply existsb_exists. exists p. split; [by apply elem_of_list_In|]. by apply Hp.
  - cbn [r_min r_max] in Hk. destruct Hk as [H1 H2]. unfold range_in_bounds. cbn [r_min r_max]. apply andb_true_iff. split.
    + destruct mn as [[m i]|]; [|done]. destruct hi as [h|]; [|done]. destruct (H1 m i eq_refl) as [-> H].
      rewrite (proj2 (prim_gt_false m h)); [cbn; by rewrite andb_false_r|]. by apply (below_trans _ v); [|apply Hhi].
    + destruct mx as [[m i]|]; [|done]. destruct lo as [l|]; [|done]. destruct (H2 m i eq_refl) as [-> H].
      rewrite (proj2 (prim_lt_false m l)); [cbn; by rewrite andb_false_r|]. by apply (below_trans _ v); [apply Hlo|].
Qed.

Lemma elem_of_for_column c l p : p ∈ for_column c l <-> (c, p) ∈ l.
Proof.
  unfold for_column. rewrite elem_of_map_iff. split.
  - intros ([c' p'] & -> & H). apply elem_of_list_filter in H as [<- H]. done.
  - intros H. exists (c, p). split; [done|]. by apply elem_of_list_filter.
Qed.
Lemma dedup_elem seen l p : p ∈ l ->
  (exists q, q ∈ dedup seen l /\ prim_cmp p q = Eq) \/ existsb (prim_eq p) seen = true.
Proof.
  revert seen. induction l as [|x l IH]; intros seen Hp; [by apply elem_of_nil in Hp|].
  cbn [dedup]. apply elem_of_cons in Hp as [->|Hp].
  - destruct (existsb (prim_eq x) seen) eqn:E; [by right|]. left. exists x. split; [left|apply prim_cmp_refl].
  - destruct (existsb (prim_eq x) seen) eqn:E; [by apply IH|].
    destruct (IH (x :: seen) Hp) as [(q & Hq & Ec)|Hs]; [left; exists q; split; [by right|done]|].
    cbn [existsb] in Hs. apply orb_true_iff in Hs as [Hs|Hs]; [|by right].
    left. exists x. split; [left|]. by apply prim_cmp_eq_below, prim_eq_true.
Qed.
Lemma dedup_sub seen l p : p ∈ dedup seen l -> p ∈ l.
Proof.
  revert seen. induction l as [|x l IH]; intros seen; [done|]. cbn [dedup]. destruct (existsb _ _).
  - intros H. right. by apply (IH seen).
  - rewrite !elem_of_cons. intros [->|H]; [by left|right; by apply (IH (x :: seen))].
Qed.
Lemma prim_cmp_eq_trans a b c : prim_cmp a b = Eq -> prim_cmp b c = Eq -> prim_cmp a c = Eq.
Proof.
  rewrite !prim_cmp_eq_below. intros [H1 H2] [H3 H4]. split; eapply below_trans; done.
Qed.
Lemma tighten_one better cur cand x : tighten better cur cand = Some x -> x = cand \/ cur = Some x.
Proof.
  unfold tighten. destruct cur as [[v i]|]; [|intros [= <-]; by left].
  destruct (_ || _); [intros [= <-]; by left|intros ->; by right].
Qed.
Lemma fold_bounds bs rg :
  (forall x, r_min (fold_left add_bound bs rg) = Some x -> r_min rg = Some x \/
     exists b, b ∈ bs /\ b_lower b = true /\ x = (b_lit b, b_incl b)) /\
  (forall x, r_max (fold_left add_bound bs rg) = Some x -> r_max rg = Some x \/
     exists b, b ∈ bs /\ b_lower b = false /\ x = (b_lit b, b_incl b)).
Proof.
  revert rg. induction bs as [|b bs IH]; intros rg; [split; intros x; by left|].
  cbn [fold_left]. destruct (IH (add_bound rg b)) as [H1 H2]. split; intros x Hx.
  - destruct (H1 x Hx) as [H|(b' & Hb & Hl & ->)]; [|right; exists b'; split; [by right|done]].
    unfold add_bound in H. destruct (b_lower b) eqn:El; cbn [r_min] in H; [|by left].
    apply tighten_one in H as [->|H]; [|by left]. right. exists b. split; [left|done].
  - destruct (H2 x Hx) as [H|(b' & Hb & Hl & ->)]; [|right; exists b'; split; [by right|done]].
    unfold add_bound in H. destruct (b_lower b) eqn:El; cbn [r_max] in H; [by left|].
    apply tighten_one in H as [->|H]; [|by left]. right. exists b. split; [left|done].
Qed.

Section field.
Context (w : world) (sc : schema) (specs : list (list pfield)) (r : row) (fs : list expr) (f : pfield) (ty : ptype).
Hypothesis (Hw : world_ok w) (Hrow : typed_row sc r) (Hsc : sc f.1 = Some ty) (Hig : ignored f.2 = false).
Hypothesis (Hag : forall e, e ∈ fs -> agrees w r specs e).
Hypothesis (Hord : forall p s e, e ∈ fs -> (f.1, p, s) ∈ compared e ->
  typed ty p /\ orderly f.2 ty p /\ (s = true -> forall q, neighbour p q -> prim_ok q -> orderly f.2 ty q)).
Hypothesis (Hov : forall p, r f.1 = Some p -> orderly f.2 ty p).

Lemma transform_compared p s e : e ∈ fs -> (f.1, p, s) ∈ compared e ->
  exists p', transform_literal f.2 ty p = Some (Some p').
Proof.
  intros He Hc. destruct (Hord p s e He Hc) as (Ht & Ho & _). unfold transform_literal.
  destruct (transform_total f.2 ty p Hig Ht Ho) as [p' ->]. by exists p'.
Qed.
Lemma transform_literal_ret p p' : transform_literal f.2 ty p = Some (Some p') <-> apply_transform f.2 ty (Some p) = Ret (Some p').
Proof. unfold transform_literal. destruct (apply_transform _ _ _); [done|]. split; [by intros [= ->]|by intros [= ->]]. Qed.

Definition good (k : constraint) : Prop := exists v v', r f.1 = Some v /\
  apply_transform f.2 ty (Some v) = Ret (Some v') /\ satisfied k v'.

Lemma equal_literal v p s e v' p' : e ∈ fs -> (f.1, p, s) ∈ compared e -> r f.1 = Some v -> prim_cmp v p = Eq ->
  apply_transform f.2 ty (Some v) = Ret (Some v') -> transform_literal f.2 ty p = Some (Some p') -> prim_cmp v' p' = Eq.
Proof.
  intros He Hc Hv Heq E1 E2%transform_literal_ret. destruct (Hord p s e He Hc) as (Ht & Ho & _).
  by apply (transform_cong f.2 ty v p v' p' Hig (Hrow _ _ _ Hsc Hv) Ht (Hov _ Hv) Ho Heq E1 E2).
Qed.
Lemma row_transform v : r f.1 = Some v -> exists v', apply_transform f.2 ty (Some v) = Ret (Some v').
Proof. intros Hv. apply transform_total; [done|by apply (Hrow f.1)|by apply Hov]. Qed.

Lemma eqs_ok : exists eqs, mapM (transform_literal f.2 ty) (for_column f.1 (eq_filters sc fs)) = Some eqs /\
  Forall good (map CEq (omap id eqs)).
Proof.
  destruct (mapM (transform_literal f.2 ty) (for_column f.1 (eq_filters sc fs))) as [eqs|] eqn:E.
  - exists eqs. split; [done|]. apply mapM_Some in E. rewrite Forall_forall. intros k Hk.
    apply elem_of_map_iff in Hk as (p' & -> & Hp). apply elem_of_list_omap in Hp as (o & Ho & Eo). cbn in Eo. subst o.
    apply elem_of_list_lookup in Ho as [i Hi]. destruct (Forall2_lookup_r _ _ _ _ _ E Hi) as (p & Hp & Ep).
    apply elem_of_list_lookup_2, elem_of_for_column in Hp. unfold eq_filters in Hp.
    apply elem_of_flat_map in Hp as (e & He & Hin).
    destruct (eq_filter_ok w sc specs r e f.1 p Hw (Hag e He) Hin) as (v & Hv & Heq & Hc).
    destruct (row_transform v Hv) as [v' Ev]. exists v, v'. split; [done|]. split; [done|]. cbn.
    by apply (equal_literal v p false e).
  - exfalso. apply mapM_None in E. apply Exists_exists in E as (p & Hp & Ep).
    apply elem_of_for_column in Hp. apply elem_of_flat_map in Hp as (e & He & Hin).
    destruct (eq_filter_ok w sc specs r e f.1 p Hw (Hag e He) Hin) as (_ & _ & _ & Hc).
    destruct (transform_compared p false e He Hc) as [p' Hp']. congruence.
Qed.

Lemma ins_ok : exists ins, mapM (transform_literal f.2 ty) (for_column f.1 (in_filters sc fs)) = Some ins /\
  Forall good (match dedup [] (omap id ins) with [] => [] | _ => [CIn (dedup [] (omap id ins))] end).
Proof.
  assert (forall p e, e ∈ fs -> (f.1, p) ∈ in_filter sc e -> (f.1, p, false) ∈ compared e) as Hcmp.
  { intros p e He Hp. by apply (in_filter_ok w sc specs r e f.1 Hw (Hag e He) (ex_intro _ p Hp)). }
  destruct (mapM (transform_literal f.2 ty) (for_column f.1 (in_filters sc fs))) as [ins|] eqn:E.
  - exists ins. split; [done|]. apply mapM_Some in E.
    destruct (dedup [] (omap id ins)) as [|q0 vs] eqn:Ed; [done|]. rewrite <- Ed. apply Forall_singleton.
    assert (q0 ∈ omap id ins) as H0 by (apply (dedup_sub []); rewrite Ed; left).
    apply elem_of_list_omap in H0 as (o & Ho & Eo). cbn in Eo. subst o.
    apply elem_of_list_lookup in Ho as [i Hi]. destruct (Forall2_lookup_r _ _ _ _ _ E Hi) as (p & Hp & Ep).
    apply elem_of_list_lookup_2, elem_of_for_column, elem_of_flat_map in Hp as (e & He & Hin).
    destruct (in_filter_ok w sc specs r e f.1 Hw (Hag e He) (ex_intro _ p Hin)) as [(v & pm & Hv & Heq & Hpm) _].
    destruct (row_transform v Hv) as [v' Ev]. exists v, v'. split; [done|]. split; [done|]. cbn [satisfied].
    assert (pm ∈ for_column f.1 (in_filters sc fs)) as Hm.
    { apply elem_of_for_column, elem_of_flat_map. by exists e. }
    apply elem_of_list_lookup in Hm as [j Hj]. destruct (Forall2_lookup_l _ _ _ _ _ E Hj) as (om & Hom & Eom).
    destruct (transform_compared pm false e He (Hcmp _ _ He Hpm)) as [pm' Hpm'].
    rewrite Hpm' in Eom. injection Eom as <-.
    assert (pm' ∈ omap id ins) as Hin'.
    { apply elem_of_list_omap. exists (Some pm'). split; [by apply elem_of_list_lookup_2 in Hom|done]. }
    destruct (dedup_elem [] (omap id ins) pm' Hin') as [(q & Hq & Eq)|Hs]; [|discriminate Hs].
    exists q. split; [done|]. apply (prim_cmp_eq_trans _ pm'); [|done].
    by apply (equal_literal v pm false e _ _ He (Hcmp _ _ He Hpm)).
  - exfalso. apply mapM_None in E. apply Exists_exists in E as (p & Hp & Ep).
    apply elem_of_for_column, elem_of_flat_map in Hp as (e & He & Hin).
    destruct (transform_compared p false e He (Hcmp _ _ He Hin)) as [p' Hp']. congruence.
Qed.

Lemma bound_ok lower x : (exists b, b ∈ filter (fun b => b_col b = f.1) (flat_map (range_filter sc false) fs) /\ b_lower b = lower /\
    x = (b_lit b, b_incl b)) -> preserves_order f.2 = true ->
  exists v v' q, r f.1 = Some v /\ apply_transform f.2 ty (Some v) = Ret (Some v') /\
    transform_bound f.2 ty lower (Some x) = Some (Some (q, true)) /\ if lower then below q v' else below v' q.
Proof.
  intros (b & Hb & <- & ->) Hpo. apply elem_of_list_filter in Hb as [Hcol Hb].
  apply elem_of_flat_map in Hb as (e & He & Hb).
  destruct (range_filter_ok w sc specs r e b Hw (Hag e He) Hb) as (v & Hv & Hk & Hc & Hcmp).
  rewrite Hcol in Hv, Hc. destruct (Hord _ _ e He Hc) as (Ht & Ho & Hn).
  pose proof (Hrow _ _ _ Hsc Hv) as Htv. destruct (row_transform v Hv) as [v' Ev].
  set (q := bound_literal ty (b_lit b) (b_lower b) (b_incl b)).
  assert (typed ty q /\ orderly f.2 ty q /\ if b_lower b then below q v else below v q) as (Hq1 & Hq2 & Hq3).
  { subst q. destruct (b_incl b) eqn:Ei; [done|].
    destruct (strict_int ty (b_lit b) v (b_lower b) Ht Htv Hcmp) as (H1 & H2 & H3).
    split; [done|]. split; [|done]. destruct H2 as [->|H2]; [done|]. apply Hn; [done|done|]. by destruct H1. }
  destruct (transform_total f.2 ty q Hig Hq1 Hq2) as [q' Eq].
  exists v, v', q'. split; [done|]. split; [done|]. split.
  { unfold transform_bound. fold q. by rewrite (proj2 (transform_literal_ret q q') Eq). }
  destruct (b_lower b).
  - destruct (transform_mono f.2 ty q v Hpo Hq1 Htv Hq2 (Hov _ Hv) Hq3) as (a & c & A & B & C).
    rewrite Eq in A. rewrite Ev in B. injection A as <-. injection B as <-. done.
  - destruct (transform_mono f.2 ty v q Hpo Htv Hq1 (Hov _ Hv) Hq2 Hq3) as (a & c & A & B & C).
    rewrite Ev in A. rewrite Eq in B. injection A as <-. injection B as <-. done.
Qed.
Lemma range_ok : exists rng,
  match column_range sc f.1 fs with None => Some None | Some rg => transform_range f.2 ty rg end = Some rng /\
  Forall good (match rng with Some rg => [CRange rg] | None => [] end).
Proof.
  unfold column_range.
  destruct (filter (fun b => b_col b = f.1) (flat_map (range_filter sc false) fs)) as [|b0 bs] eqn:Eb.
  { exists None. done. }
  unfold transform_range. destruct (preserves_order f.2) eqn:Hpo; [|by exists None].
  set (rg := fold_left add_bound (b0 :: bs) (Range None None)).
  destruct (fold_bounds (b0 :: bs) (Range None None)) as [Hmin Hmax]. fold rg in Hmin, Hmax.
  assert (forall lower o, (forall x, o = Some x -> exists b, b ∈ b0 :: bs /\ b_lower b = lower /\ x = (b_lit b, b_incl b)) ->
    (o = None /\ transform_bound f.2 ty lower o = Some None) \/
    exists v v' q, r f.1 = Some v /\ apply_transform f.2 ty (Some v) = Ret (Some v') /\
      transform_bound f.2 ty lower o = Some (Some (q, true)) /\ if lower then below q v' else below v' q) as Hb.
  { intros lower o Ho. destruct o as [x|]; [|by left]. right. apply bound_ok; [|done]. rewrite Eb. by apply Ho. }
  destruct (Hb true (r_min rg)) as [[Emn Tmn]|(v & v' & q & Hv & Ev & Tmn & Hq)].
  { intros x Hx. by destruct (Hmin x Hx). }
  - rewrite Tmn. destruct (Hb false (r_max rg)) as [[Emx Tmx]|(v & v' & q & Hv & Ev & Tmx & Hq)].
    { intros x Hx. by destruct (Hmax x Hx). }
    + rewrite Tmx. by exists None.
    + rewrite Tmx. eexists. split; [done|]. apply Forall_singleton. exists v, v'. split; [done|]. split; [done|].
      split; cbn [r_min r_max]; intros m i; [done|]. intros [= -> ->]. done.
  - rewrite Tmn. destruct (Hb false (r_max rg)) as [[Emx Tmx]|(v2 & v2' & q2 & Hv2 & Ev2 & Tmx & Hq2)].
    { intros x Hx. by destruct (Hmax x Hx). }
    + rewrite Tmx. eexists. split; [done|]. apply Forall_singleton. exists v, v'. split; [done|]. split; [done|].
      split; cbn [r_min r_max]; intros m i; [|done]. intros [= -> ->]. done.
    + rewrite Tmx. rewrite Hv in Hv2. injection Hv2 as <-. rewrite Ev in Ev2. injection Ev2 as <-.
      eexists. split; [done|]. apply Forall_singleton. exists v, v'. split; [done|]. split; [done|].
      split; cbn [r_min r_max]; intros m i; intros [= -> ->]; done.
Qed.
Lemma field_ok : exists cs, field_constraints sc fs f = Some cs /\ Forall good cs.
Proof.
  unfold field_constraints. rewrite Hig, Hsc.
  destruct eqs_ok as (eqs & E1 & H1), ins_ok as (ins & E2 & H2), range_ok as (rng & E3 & H3).
  rewrite E1. cbn [mbind option_bind]. rewrite E2. cbn [mbind option_bind]. rewrite E3. cbn [mbind option_bind].
  eexists. split; [done|]. rewrite !Forall_app. split; [done|]. split; [done|done].
Qed.
End field.

(** * Manifests and files *)
Lemma predicates_ok w sc specs r fs i spec part :
  world_ok w -> typed_row sc r -> (forall e, e ∈ fs -> agrees w r specs e) ->
  orderly_filters sc spec fs -> orderly_row sc spec r -> in_partition sc spec r part ->
  exists ps, predicates_from sc fs i spec = Some ps /\
    Forall (fun p : predicate => exists j v', p.1 = (i + j)%nat /\ part !! j = Some (Some v') /\ satisfied p.2 v') ps.
Proof.
  intros Hw Hrow Hag. revert i part. induction spec as [|f spec IH]; intros i part Hof Hor Hin.
  { exists []. done. }
  inversion Hin as [|? v0 ? part' Hf Hrest]; subst. cbn [predicates_from].
  destruct (IH (S i) part') as (ps & Eps & Hps).
  { intros f' ty c p s e Hf' H1 H2 H3 H4. apply (Hof f' ty c p s e); try done. by right. }
  { intros f' ty p Hf' H1 H2. apply (Hor f' ty p); try done. by right. }
  { done. }
  assert (Forall (fun p : predicate => exists j v', p.1 = (i + j)%nat /\ (v0 :: part') !! j = Some (Some v') /\ satisfied p.2 v') ps) as Hps'.
  { eapply Forall_impl; [exact Hps|]. intros p (j & v' & E & Hj & Hs). exists (S j), v'. split; [lia|done]. }
  destruct (ignored f.2) eqn:Hig.
  { assert (field_constraints sc fs f = Some []) as -> by (unfold field_constraints; by rewrite Hig).
    cbn [mbind option_bind]. rewrite Eps. cbn [mbind option_bind map app]. by exists ps. }
  destruct Hf as [Hf|(ty & Hsc & Ev0)]; [congruence|].
  destruct (field_ok w sc specs r fs f ty Hw Hrow Hsc Hig Hag) as (cs & Ecs & Hcs).
  { intros p s e He Hc. apply (Hof f ty f.1 p s e); try done. left. }
  { intros p Hp. apply (Hor f ty p); try done. left. }
  rewrite Ecs. cbn [mbind option_bind]. rewrite Eps. cbn [mbind option_bind].
  eexists. split; [done|]. apply Forall_app. split; [|done].
  rewrite Forall_forall in Hcs. rewrite Forall_forall. intros p Hp. apply elem_of_map_iff in Hp as (k & -> & Hk).
  destruct (Hcs k Hk) as (v & v' & Hv & Ev & Hs). exists 0%nat, v'. cbn [fst snd].
  split; [lia|]. split; [|done]. cbn. rewrite Hv in Ev0. rewrite Ev0 in Ev. by injection Ev as ->.
Qed.

Lemma pruning_agrees w specs r filters e : Forall uncast_filter filters -> Forall (matches w r) filters ->
  e ∈ pruning_filters specs filters -> agrees w r specs e.
Proof.
  intros Hu Hm He. apply elem_of_list_filter in He as [Hs He]. rewrite Forall_forall in Hu, Hm.
  split; [done|]. split; [by apply Hu|by apply Hm].
Qed.

Lemma partition_pruning_ok w sc specs spec filters m f r :
  world_ok w -> specs !! m_spec m = Some spec -> manifest_ok sc specs m -> f ∈ m_files m -> r ∈ d_rows f ->
  typed_row sc r -> Forall uncast_filter filters -> Forall (matches w r) filters ->
  orderly_filters sc spec filters -> orderly_row sc spec r ->
  exists ps, partition_predicates sc spec (pruning_filters specs filters) = Some ps /\
    manifest_may_match ps m = true /\ file_may_match ps f = true.
Proof.
  intros Hw Hspec Hm Hf Hr Hrow Hu Hmat Hof Hor.
  destruct (Hm f Hf) as (_ & Hsum & Hpart). specialize (Hpart spec Hspec). rewrite Forall_forall in Hpart.
  specialize (Hpart r Hr).
  destruct (predicates_ok w sc specs r (pruning_filters specs filters) 0 spec (d_partition f)) as (ps & Eps & Hps); try done.
  { intros e He. by apply (pruning_agrees w specs r filters). }
  { intros f' ty c p s e Hf' H1 H2 H3 H4. apply (Hof f' ty c p s e); try done. by apply elem_of_list_filter in H2 as [_ H2]. }
  exists ps. split; [done|]. rewrite Forall_forall in Hps. split.
  - unfold manifest_may_match. destruct (m_summaries m) as [sums|] eqn:Es; [|done].
    apply forallb_forall. intros p Hp. apply elem_of_list_In, Hps in Hp as (j & v' & -> & Hj & Hs). cbn [Nat.add].
    destruct (sums !! j) as [b|] eqn:Eb; [|done].
    destruct (Hsum sums eq_refl j b v' Eb Hj) as [Hlo Hhi]. by apply (satisfied_bounds _ v').
  - unfold file_may_match. apply forallb_forall. intros p Hp.
    apply elem_of_list_In, Hps in Hp as (j & v' & -> & Hj & Hs). cbn [Nat.add]. rewrite Hj. by apply satisfied_value.
Qed.

(** ** Planning does not panic *)
Lemma eq_filter_compared sc specs e c p : classify specs e <> Unsupported -> uncast_filter e ->
  (c, p) ∈ eq_filter sc e -> (c, p, false) ∈ compared e.
Proof.
  intros Hs Hu Hin.
  destruct (supported_shape specs e Hs) as [(o & l & r' & -> & Ho)|(e' & items & -> & _)]; [|by apply elem_of_nil in Hin].
  destruct Hu as [Hul Hur]. destruct o; try exact (False_ind _ Ho); try (by apply elem_of_nil in Hin).
  cbn [eq_filter compared] in *. rewrite !strip_uncast in Hin by done.
  destruct (unalias l) as [cl|[vl|]| | | | |]; try (by apply elem_of_nil in Hin);
  destruct (unalias r') as [cr|[vr|]| | | | |]; try (by apply elem_of_nil in Hin);
    (match type of Hin with context [known sc ?c] => destruct (known sc c); [|by apply elem_of_nil in Hin] end);
    apply elem_of_list_singleton in Hin as [= -> ->]; by apply elem_of_list_singleton.
Qed.
Lemma in_filter_compared sc specs e c p : classify specs e <> Unsupported -> uncast_filter e ->
  (c, p) ∈ in_filter sc e -> (c, p, false) ∈ compared e.
Proof.
  intros Hs Hu Hin.
  destruct (supported_shape specs e Hs) as [(o & l & r' & -> & Ho)|(e' & items & -> & Hlit)].
  { destruct o; try (exact (False_ind _ Ho)); by apply elem_of_nil in Hin. }
  cbn [in_filter compared uncast_filter] in *. rewrite strip_uncast in * by done.
  destruct (unalias e') as [c'| | | | | |]; try (by apply elem_of_nil in Hin).
  destruct (known sc c'); [|by apply elem_of_nil in Hin].
  apply elem_of_map_iff in Hin as (q & [= -> ->] & Hq). apply elem_of_map_iff. by exists q.
Qed.
Lemma range_filter_compared sc specs e b : classify specs e <> Unsupported -> uncast_filter e ->
  b ∈ range_filter sc false e -> (b_col b, b_lit b, negb (b_incl b)) ∈ compared e.
Proof.
  intros Hs Hu Hin.
  destruct (supported_shape specs e Hs) as [(o & l & r' & -> & Ho)|(e' & items & -> & _)]; [|by apply elem_of_nil in Hin].
  destruct Hu as [Hul Hur]. cbn [compared].
  destruct o; try (exact (False_ind _ Ho)); try (by apply elem_of_nil in Hin);
    cbn [range_filter] in Hin; rewrite !strip_uncast in Hin by done;
    (destruct (unalias l) as [cl|[vl|]| | | | |]; try (by apply elem_of_nil in Hin));
    (destruct (unalias r') as [cr|[vr|]| | | | |]; try (by apply elem_of_nil in Hin));
    (match type of Hin with context [known sc ?c] => destruct (known sc c); [|by apply elem_of_nil in Hin] end);
    apply elem_of_list_singleton in Hin as ->; by apply elem_of_list_singleton.
Qed.
Lemma adjust_neighbour ty p lower q : typed ty p -> adjust_exclusive ty p lower = Some q -> typed ty q /\ neighbour p q.
Proof.
  intros [_ Ht] E. destruct ty; destruct p; try exact (False_ind _ Ht); try discriminate E;
    cbn [adjust_exclusive] in E; unfold shift in E; (case_decide as Hd; [|discriminate E]); injection E as <-;
    (split; [split; [exact Hd|exact I]|]); cbn; destruct lower; lia.
Qed.
Lemma literals_total t ty l : ignored t = false -> (forall p, p ∈ l -> typed ty p /\ orderly t ty p) ->
  is_Some (mapM (transform_literal t ty) l).
Proof.
  intros Hi H. apply mapM_is_Some_2. rewrite Forall_forall. intros p Hp. destruct (H p Hp) as [Ht Ho].
  unfold compose, transform_literal. destruct (transform_total t ty p Hi Ht Ho) as [p' ->]. by eexists.
Qed.
Lemma field_total sc specs filters f : Forall uncast_filter filters ->
  (forall ty c p s e, sc f.1 = Some ty -> e ∈ filters -> (c, p, s) ∈ compared e -> c = f.1 ->
    typed ty p /\ orderly f.2 ty p /\ (s = true -> forall q, neighbour p q -> prim_ok q -> orderly f.2 ty q)) ->
  is_Some (field_constraints sc (pruning_filters specs filters) f).
Proof.
  intros Hu Hof. unfold field_constraints. destruct (ignored f.2) eqn:Hig; [by eexists|].
  destruct (sc f.1) as [ty|] eqn:Hsc; [|by eexists].
  assert (forall e, e ∈ pruning_filters specs filters -> classify specs e <> Unsupported /\ e ∈ filters /\ uncast_filter e) as Hfs.
  { intros e He. apply elem_of_list_filter in He as [Hs He]. rewrite Forall_forall in Hu. auto. }
  destruct (literals_total f.2 ty (for_column f.1 (eq_filters sc (pruning_filters specs filters))) Hig) as [eqs E1].
  { intros p Hp. apply elem_of_for_column, elem_of_flat_map in Hp as (e & He & Hin). destruct (Hfs e He) as (A & B & C).
    destruct (Hof ty f.1 p false e eq_refl B (eq_filter_compared sc specs e f.1 p A C Hin) eq_refl) as (X & Y & _). done. }
  rewrite E1. cbn [mbind option_bind].
  destruct (literals_total f.2 ty (for_column f.1 (in_filters sc (pruning_filters specs filters))) Hig) as [ins E2].
  { intros p Hp. apply elem_of_for_column, elem_of_flat_map in Hp as (e & He & Hin). destruct (Hfs e He) as (A & B & C).
    destruct (Hof ty f.1 p false e eq_refl B (in_filter_compared sc specs e f.1 p A C Hin) eq_refl) as (X & Y & _). done. }
  rewrite E2. cbn [mbind option_bind].
  assert (is_Some (match column_range sc f.1 (pruning_filters specs filters) with None => Some None | Some rg => transform_range f.2 ty rg end)) as [rng E3].
  { unfold column_range.
    destruct (filter (fun b => b_col b = f.1) (flat_map (range_filter sc false) (pruning_filters specs filters))) as [|b0 bs] eqn:Eb; [by eexists|].
    unfold transform_range. destruct (preserves_order f.2); [|by eexists].
    set (rg := fold_left add_bound (b0 :: bs) (Range None None)).
    destruct (fold_bounds (b0 :: bs) (Range None None)) as [Hmin Hmax]. fold rg in Hmin, Hmax.
    assert (forall lower o, (forall x, o = Some x -> exists b, b ∈ b0 :: bs /\ b_lower b = lower /\ x = (b_lit b, b_incl b)) ->
      is_Some (transform_bound f.2 ty lower o)) as Hb.
    { intros lower o Ho. destruct o as [[p incl]|]; [|by eexists].
      destruct (Ho _ eq_refl) as (b & Hb & <- & [= -> ->]). rewrite <- Eb in Hb.
      apply elem_of_list_filter in Hb as [Hcol Hb]. apply elem_of_flat_map in Hb as (e & He & Hb).
      destruct (Hfs e He) as (A & B & C). pose proof (range_filter_compared sc specs e b A C Hb) as Hc.
      destruct (Hof ty _ _ _ e eq_refl B Hc Hcol) as (Ht & Hor & Hn).
      assert (typed ty (bound_literal ty (b_lit b) (b_lower b) (b_incl b)) /\ orderly f.2 ty (bound_literal ty (b_lit b) (b_lower b) (b_incl b))) as [X Y].
      { unfold bound_literal. destruct (b_incl b); [done|].
        destruct (adjust_exclusive ty (b_lit b) (b_lower b)) as [q|] eqn:Eq; [|done].
        destruct (adjust_neighbour _ _ _ _ Ht Eq) as [Tq Nq]. split; [done|]. apply Hn; [done|done|]. by destruct Tq. }
      unfold transform_bound, transform_literal. destruct (transform_total f.2 ty _ Hig X Y) as [q' ->]. by eexists. }
    destruct (Hb true (r_min rg)) as [mn ->]; [intros x Hx; by destruct (Hmin x Hx)|].
    destruct (Hb false (r_max rg)) as [mx ->]; [intros x Hx; by destruct (Hmax x Hx)|].
    destruct mn, mx; by eexists. }
  rewrite E3. cbn [mbind option_bind]. by eexists.
Qed.
Lemma predicates_total sc specs spec filters i : Forall uncast_filter filters -> orderly_filters sc spec filters ->
  is_Some (predicates_from sc (pruning_filters specs filters) i spec).
Proof.
  intros Hu. revert i. induction spec as [|f spec IH]; intros i Hof; [by eexists|]. cbn [predicates_from].
  destruct (field_total sc specs filters f Hu) as [cs ->].
  { intros ty c p s e H1 H2 H3 H4. apply (Hof f ty c p s e); try done. left. }
  cbn [mbind option_bind]. destruct (IH (S i)) as [ps ->]; [|by eexists].
  intros f' ty c p s e H0 H1 H2 H3 H4. apply (Hof f' ty c p s e); try done. by right.
Qed.
Lemma load_total sc specs filters ms : Forall uncast_filter filters ->
  (forall spec, spec ∈ specs -> orderly_filters sc spec filters) ->
  is_Some (load_files sc specs (pruning_filters specs filters) ms).
Proof.
  intros Hu Hof. induction ms as [|m ms [rest IH]]; [by eexists|]. cbn [load_files].
  destruct (specs !! m_spec m) as [spec|] eqn:Es.
  - destruct (predicates_total sc specs spec filters 0 Hu (Hof spec (elem_of_list_lookup_2 _ _ _ Es))) as [ps Eps].
    unfold partition_predicates. rewrite Eps. cbn [mbind option_bind]. rewrite IH. cbn [mbind option_bind].
    destruct (manifest_may_match ps m); by eexists.
  - cbn [mbind option_bind]. rewrite IH. cbn [mbind option_bind]. by eexists.
Qed.

(** * Statistics *)
Lemma stats_bounds f r c v : stats_ok f -> r ∈ d_rows f -> r c = Some v ->
  all_null f c = false /\ (forall lo, stat c (d_lower f) = Some lo -> below lo v) /\ (forall hi, stat c (d_upper f) = Some hi -> below v hi).
Proof.
  intros [Hn Hs] Hr Hv. destruct (Hs c) as [Hnull Hb]. destruct (Hb r v Hr Hv) as [H1 H2]. split; [|done].
  unfold all_null, null_count. apply N.eqb_neq. rewrite Hn.
  destruct (stat c (d_nulls f)) as [n|] eqn:En; cbn [default from_option id].
  - rewrite (Hnull n eq_refl). intros E%Nat2N.inj.
    assert (forall l : list row, r ∈ l -> (length (filter (fun r : row => r c = None) l) < length l)%nat) as Hlt.
    { induction l as [|x l IH]; [by intros ?%elem_of_nil|]. intros Hin.
      destruct (decide (x c = None)) as [Hx|Hx].
      - rewrite filter_cons_True by done. cbn. apply elem_of_cons in Hin as [->|Hin]; [congruence|]. specialize (IH Hin). lia.
      - rewrite filter_cons_False by done. cbn. pose proof (filter_length (fun r : row => r c = None) l). lia. }
    specialize (Hlt _ Hr). lia.
  - destruct (d_rows f); [by apply elem_of_nil in Hr|]. cbn. lia.
Qed.
Lemma admits_ok f r c v o p : stats_ok f -> r ∈ d_rows f -> r c = Some v ->
  match o with
  | OEq => prim_cmp v p = Eq | OGt => below p v /\ ~ below v p | OGe => below p v
  | OLt => below v p /\ ~ below p v | OLe => below v p | _ => True end ->
  admits o (stat c (d_lower f)) (stat c (d_upper f)) p = true.
Proof.
  intros Hs Hr Hv Ho. destruct (stats_bounds f r c v Hs Hr Hv) as (_ & Hlo & Hhi).
  destruct o; cbn [admits]; try done.
  - apply prim_cmp_eq_below in Ho as [H1 H2]. unfold literal_in_bounds. apply andb_true_iff. split.
    + destruct (stat c (d_lower f)) as [l|]; [|done]. rewrite (proj2 (prim_lt_false p l)); [done|].
      by apply (below_trans _ v); [apply Hlo|].
    + destruct (stat c (d_upper f)) as [h|]; [|done]. rewrite (proj2 (prim_gt_false p h)); [done|].
      by apply (below_trans _ v); [|apply Hhi].
  - destruct (stat c (d_upper f)) as [h|]; [|done]. unfold prim_gt.
    rewrite (proj2 (prim_cmp_gt h p)); [done|]. intros X. apply Ho. apply (below_trans _ h); [by apply Hhi|done].
  - destruct (stat c (d_upper f)) as [h|]; [|done]. rewrite (proj2 (prim_lt_false h p)); [done|].
    by apply (below_trans _ v); [|apply Hhi].
  - destruct (stat c (d_lower f)) as [l|]; [|done]. unfold prim_lt.
    rewrite (proj2 (prim_cmp_lt l p)); [done|]. intros X. apply Ho. apply (below_trans _ l); [done|by apply Hlo].
  - destruct (stat c (d_lower f)) as [l|]; [|done]. rewrite (proj2 (prim_gt_false l p)); [done|].
    by apply (below_trans _ v); [apply Hlo|].
Qed.
Lemma contained_ok f r c v p vs : stats_ok f -> r ∈ d_rows f -> r c = Some v -> p ∈ vs -> v = p ->
  (forall lo hi, stat c (d_lower f) = Some lo -> stat c (d_upper f) = Some hi -> lo = hi) ->
  ~ is_float p -> contained f c vs = true.
Proof.
  intros Hs Hr Hv Hin -> Hsing Hnf. destruct (stats_bounds f r c p Hs Hr Hv) as (_ & Hlo & Hhi).
  unfold contained. destruct (stat c (d_lower f)) as [lo|] eqn:El; [|done].
  destruct (stat c (d_upper f)) as [hi|] eqn:Eh; [|done].
  pose proof (Hsing _ _ eq_refl eq_refl) as <-. apply existsb_exists. exists p. split; [by apply elem_of_list_In|].
  assert (prim_cmp p lo = Eq) as E by (apply prim_cmp_eq_below; split; [by apply Hhi|by apply Hlo]).
  destruct (cmp_eq_plain _ _ E) as [->|[(x & y & -> & ->)|(x & y & -> & ->)]]; [|by destruct Hnf|by destruct Hnf].
  by rewrite !bool_decide_eq_true_2.
Qed.
Lemma world_plain w a b c : world_ok w -> kind a = kind b -> ~ is_float a -> w_cmp w a b = c -> prim_cmp a b = c.
Proof. intros Hw Hk Hf. specialize (Hw a b Hk). destruct a; try (by rewrite Hw); by destruct Hf. Qed.
Lemma kind_float a b : kind a = kind b -> ~ is_float b -> ~ is_float a.
Proof. destruct a, b; cbn; try done; try lia; tauto. Qed.

Lemma no_floats_elim e c p s : no_floats [e] -> (c, p, s) ∈ compared e -> ~ is_float p.
Proof.
  intros H Hc Hf. specialize (H e c p s (elem_of_list_here _ _) Hc). by destruct p.
Qed.
Lemma stats_admit_ok w f r e : world_ok w -> stats_ok f -> r ∈ d_rows f -> matches w r e ->
  no_floats [e] -> single_valued [e] f ->
  (forall o l r', e = EBin o l r' -> match o with OAnd | OOther _ => False | _ => True end) ->
  (forall e' items, e = EIn e' false items -> forallb is_literal items = true) ->
  stats_admit f e = true.
Proof.
  intros Hw Hs Hr Hm Hnf Hsv Hop Hlit.
  destruct e as [| | | |o l r'|e' [] items|]; try done.
  - specialize (Hop _ _ _ eq_refl). destruct (comparison_true w r o l r' Hop Hm) as (x & y & Hx & Hy & Hk & Hc).
    cbn [stats_admit].
    destruct l as [c|[p|]| | | | |]; try done; destruct r' as [c'|[p'|]| | | | |]; try done; cbn [eval] in Hx, Hy.
    + injection Hy as <-.
      assert (~ is_float p') as Hf by (apply (no_floats_elim _ c p' (strict o) Hnf); by apply elem_of_list_singleton).
      destruct (stats_bounds f r c x Hs Hr Hx) as (-> & _ & _). cbn [negb andb].
      destruct (w_cmp w x p') eqn:Ew; apply (world_plain w) in Ew; try done; try (by apply (kind_float _ p')).
      all: rewrite (admits_ok f r c x o p' Hs Hr Hx) by
        (destruct o; try exact I; try discriminate Hc; unfold below; rewrite ?(prim_cmp_antisym p' x), Ew; cbn; naive_solver).
      all: destruct o; try done; try discriminate Hc. cbn [andb].
      apply (contained_ok f r c x p' [p']); try done; [by apply elem_of_list_singleton| |].
      * destruct (cmp_eq_plain _ _ Ew) as [->|[(a & b & -> & ->)|(a & b & -> & ->)]]; [done|by destruct Hf|by destruct Hf].
      * intros lo hi H1 H2. apply (Hsv _ c lo hi (elem_of_list_here _ _)); try done. by apply elem_of_list_singleton.
    + injection Hx as <-.
      assert (~ is_float p) as Hf by (apply (no_floats_elim _ c' p (strict o) Hnf); by apply elem_of_list_singleton).
      destruct (stats_bounds f r c' y Hs Hr Hy) as (-> & _ & _). cbn [negb andb].
      destruct (w_cmp w p y) eqn:Ew; apply (world_plain w) in Ew; try done.
      all: rewrite (admits_ok f r c' y (flip o) p Hs Hr Hy) by
        (destruct o; try exact I; try discriminate Hc; unfold below; cbn [flip]; rewrite ?(prim_cmp_antisym y p), Ew; cbn; naive_solver).
      all: destruct o; try done; try discriminate Hc. cbn [andb].
      apply (contained_ok f r c' y p [p]); try done; [by apply elem_of_list_singleton| |].
      * destruct (cmp_eq_plain _ _ Ew) as [->|[(a & b & -> & ->)|(a & b & -> & ->)]]; [done|by destruct Hf|by destruct Hf].
      * intros lo hi H1 H2. apply (Hsv _ c' lo hi (elem_of_list_here _ _)); try done. by apply elem_of_list_singleton.
  - by destruct e'.
  - specialize (Hlit _ _ eq_refl). destruct e' as [c| | | | | |]; try done. cbn [stats_admit].
    unfold matches in Hm. cbn [eval] in Hm.
    assert (exists i, i ∈ items /\ compare_values w OEq (r c) (eval w r i) = Some true) as (i & Hi & Hci).
    { clear Hlit Hnf Hsv Hop. assert (foldr (fun i acc => or3 (compare_values w OEq (r c) (eval w r i)) acc) (Some false) items = Some true) as H.
      { match type of Hm with PBool <$> ?x = _ => destruct x as [[]|] eqn:E; [reflexivity|discriminate Hm|discriminate Hm] end. }
      clear Hm. induction items as [|i items IH]; [discriminate H|]. cbn [foldr] in H.
      apply or3_true in H as [H|H]; [exists i; split; [left|done]|].
      destruct (IH H) as (j & Hj & Hcj). exists j. split; [by right|done]. }
    assert (is_literal i = true) as Hl by (apply forallb_elem with (x := i) in Hlit; done).
    destruct i as [|vi| | | | |]; try discriminate Hl. cbn [eval] in Hci.
    destruct (r c) as [v|] eqn:Ev; [|discriminate Hci]. destruct vi as [p|]; [|discriminate Hci].
    cbn [compare_values] in Hci. case_decide as Hk; [|discriminate Hci].
    assert (p ∈ literal_items items) as Hp by by apply elem_of_literal_items.
    assert (~ is_float p) as Hf.
    { apply (no_floats_elim _ c p false Hnf). cbn. apply elem_of_map_iff. by exists p. }
    destruct (w_cmp w v p) eqn:Ew; try discriminate Hci. apply (world_eq w) in Ew; try done.
    destruct (stats_bounds f r c v Hs Hr Ev) as (-> & _ & _). cbn [negb andb]. apply andb_true_iff. split.
    + apply existsb_exists. exists p. split; [by apply elem_of_list_In|]. by apply (admits_ok f r c v OEq p).
    + apply (contained_ok f r c v p); try done.
      * destruct (cmp_eq_plain _ _ Ew) as [->|[(a & b & -> & ->)|(a & b & -> & ->)]]; [done|by destruct Hf|by destruct Hf].
      * intros lo hi H1 H2. apply (Hsv _ c lo hi (elem_of_list_here _ _)); try done. by apply elem_of_list_singleton.
Qed.

(** * Queries *)
Lemma filter_flat_map_drop {A B} (P : B -> Prop) `{!forall x, Decision (P x)} (Q : A -> Prop) `{!forall x, Decision (Q x)}
  (g : A -> list B) (l : list A) :
  (forall f, f ∈ l -> ~ Q f -> forall r, r ∈ g f -> ~ P r) ->
  filter P (flat_map g (filter Q l)) = filter P (flat_map g l).
Proof.
  induction l as [|f l IH]; intros Hd; [done|]. cbn [flat_map].
  assert (filter P (flat_map g (filter Q l)) = filter P (flat_map g l)) as E.
  { apply IH. intros x Hx. apply Hd. by right. }
  destruct (decide (Q f)) as [Hq|Hq].
  - rewrite filter_cons_True by done. cbn [flat_map]. by rewrite !filter_app, E.
  - rewrite filter_cons_False by done. rewrite filter_app, E.
    assert (filter P (g f) = []) as ->; [|done].
    assert (forall r, r ∈ g f -> ~ P r) as Hn by (apply Hd; [left|done]). clear - Hn.
    induction (g f) as [|r rs IHr]; [done|]. rewrite filter_cons_False by (apply Hn; left).
    apply IHr. intros x Hx. apply Hn. by right.
Qed.
Lemma filter_ext_elem {A} (P Q : A -> Prop) `{!forall x, Decision (P x)} `{!forall x, Decision (Q x)} (l : list A) :
  (forall x, x ∈ l -> (P x <-> Q x)) -> filter P l = filter Q l.
Proof.
  induction l as [|x l IH]; intros Hd; [done|].
  assert (filter P l = filter Q l) as E by (apply IH; intros y Hy; apply Hd; by right).
  destruct (decide (P x)) as [Hp|Hp].
  - rewrite (filter_cons_True P) by done. rewrite filter_cons_True by (apply Hd; [left|done]). by rewrite E.
  - rewrite (filter_cons_False P) by done. rewrite filter_cons_False; [done|]. intros Hq. apply Hp, Hd; [left|done].
Qed.
Lemma flat_map_ext_elem {A B} (g h : A -> list B) l : (forall x, x ∈ l -> g x = h x) -> flat_map g l = flat_map h l.
Proof.
  induction l as [|x l IH]; intros Hd; [done|]. cbn. rewrite (Hd x (elem_of_list_here _ _)), IH; [done|].
  intros y Hy. apply Hd. by right.
Qed.

Section query.
Context (w : world) (sc : schema) (specs : list (list pfield)) (filters : list expr) (live : data_file -> option (list row)).
Context (ms : list manifest).
Hypothesis (Hw : world_ok w) (Hok : table_ok sc specs ms).
Hypothesis (Hu : Forall uncast_filter filters) (Hof : forall spec, spec ∈ specs -> orderly_filters sc spec filters).
Hypothesis (Hnf : no_floats filters) (Hsv : forall f, f ∈ table_files ms -> single_valued filters f) (Hlive : live_ok live).

Let all (r : row) : Prop := Forall (matches w r) filters.
Let fs := pruning_filters specs filters.

Lemma stats_keep m f r : m ∈ ms -> f ∈ m_files m -> r ∈ d_rows f -> all r -> forallb (stats_admit f) fs = true.
Proof.
  intros Hm Hf Hr Hall. apply forallb_forall. intros e He%elem_of_list_In.
  unfold fs in He. apply elem_of_list_filter in He as [Hs He]. pose proof Hall as Hall'.
  unfold all in Hall'. rewrite Forall_forall in Hall'.
  apply (stats_admit_ok w f r e Hw); [by apply (ok_stats _ _ _ Hok m)|done|by apply Hall'| | | |].
  - intros e' c p s ->%elem_of_list_singleton. by apply Hnf.
  - intros e' c lo hi ->%elem_of_list_singleton. apply Hsv; [|done]. apply elem_of_flat_map. by exists m.
  - intros o l r' ->. destruct (supported_shape specs _ Hs) as [(o' & l' & r'' & [= -> -> ->] & Ho)|(e' & items & ? & _)]; done.
  - intros e' items ->. destruct (supported_shape specs _ Hs) as [(o' & l' & r'' & ? & _)|(e'' & items' & [= -> ->] & Hl)]; done.
Qed.
Lemma live_sub f r : r ∈ live_rows live f -> r ∈ d_rows f.
Proof. unfold live_rows. destruct (live f) eqn:E; cbn; [by apply (Hlive f l)|done]. Qed.
Global Instance all_dec r : Decision (all r).
Proof. unfold all. apply _. Defined.

Lemma prune_none_rows files : (forall f, f ∈ files -> f ∈ table_files ms) ->
  filter all (flat_map (live_rows live) (prune_files fs None files)) = filter all (flat_map (live_rows live) files).
Proof.
  intros Hsub. unfold prune_files. apply filter_flat_map_drop. intros f Hf Hn r Hr Ha. apply Hn.
  apply Hsub, elem_of_flat_map in Hf as (m & Hm & Hf). apply (stats_keep m f r); try done. by apply live_sub.
Qed.
Lemma prune_none_sub files f : f ∈ prune_files fs None files -> f ∈ files.
Proof. unfold prune_files. by intros [_ ?]%elem_of_list_filter. Qed.
Lemma load_rows ms' : (forall m, m ∈ ms' -> m ∈ ms) -> exists files, load_files sc specs fs ms' = Some files /\
  (forall f, f ∈ files -> f ∈ table_files ms') /\
  filter all (flat_map (live_rows live) files) = filter all (flat_map (live_rows live) (table_files ms')).
Proof.
  induction ms' as [|m ms' IH]; intros Hsub.
  { exists []. done. }
  destruct IH as (files & El & Hin & E); [intros m' Hm'; apply Hsub; by right|].
  assert (m ∈ ms) as Hm by (apply Hsub; left).
  cbn [load_files].
  assert (forall here, (forall f, f ∈ here -> f ∈ m_files m) ->
    filter all (flat_map (live_rows live) here) = filter all (flat_map (live_rows live) (m_files m)) ->
    exists files0, Some (here ++ files) = Some files0 /\ (forall f, f ∈ files0 -> f ∈ table_files (m :: ms')) /\
      filter all (flat_map (live_rows live) files0) = filter all (flat_map (live_rows live) (table_files (m :: ms')))) as Hgoal.
  { intros here Hh Eh. eexists. split; [done|]. unfold table_files. cbn [flat_map]. split.
    - intros f [Hf|Hf]%elem_of_app; apply elem_of_app; [left; by apply Hh|right; by apply Hin].
    - rewrite !flat_map_app, !filter_app, Eh. f_equal. exact E. }
  assert (forall f, f ∈ m_files m -> f ∈ table_files ms) as Htab by (intros f Hf; apply elem_of_flat_map; by exists m).
  destruct (specs !! m_spec m) as [spec|] eqn:Es.
  - pose proof (Hof spec (elem_of_list_lookup_2 _ _ _ Es)) as Hofs.
    destruct (predicates_total sc specs spec filters 0 Hu Hofs) as [ps Eps].
    unfold partition_predicates. fold fs in Eps. rewrite Eps. cbn [mbind option_bind].
    assert (forall f r, f ∈ m_files m -> r ∈ d_rows f -> all r -> manifest_may_match ps m = true /\ file_may_match ps f = true) as Hkeep.
    { intros f r Hf Hr Ha.
      destruct (partition_pruning_ok w sc specs spec filters m f r Hw Es (ok_manifest _ _ _ Hok m Hm) Hf Hr
        (ok_typed _ _ _ Hok m f r Hm Hf Hr) Hu Ha Hofs (ok_orderly _ _ _ Hok m f r spec Hm Hf Hr Es)) as (ps' & Eps' & H1 & H2).
      unfold partition_predicates in Eps'. fold fs in Eps'. rewrite Eps in Eps'. injection Eps' as <-. done. }
    assert (filter all (flat_map (live_rows live) (filter (fun f => file_may_match ps f = true) (m_files m))) =
      filter all (flat_map (live_rows live) (m_files m))) as Epart.
    { apply filter_flat_map_drop. intros f Hf Hn r Hr Ha. apply Hn. apply (Hkeep f r); try done. by apply live_sub. }
    destruct (manifest_may_match ps m) eqn:Emm.
    + cbn [mbind option_bind]. rewrite El. cbn [mbind option_bind].
      destruct fs as [|e0 fs0] eqn:Efs; [by apply Hgoal|]. rewrite <- Efs.
      apply Hgoal.
      * intros f Hf%prune_none_sub. by apply elem_of_list_filter in Hf as [_ Hf].
      * rewrite prune_none_rows; [done|]. intros f Hf. apply elem_of_list_filter in Hf as [_ Hf]. by apply Htab.
    + cbn [mbind option_bind]. rewrite El. cbn [mbind option_bind]. apply (Hgoal []); [by intros f ?%elem_of_nil|].
      cbn [flat_map]. symmetry. rewrite filter_nil. apply elem_of_nil_inv. intros r [Ha Hr]%elem_of_list_filter.
      apply elem_of_flat_map in Hr as (f & Hf & Hr). by destruct (Hkeep f r Hf (live_sub _ _ Hr) Ha).
  - cbn [mbind option_bind]. rewrite El. cbn [mbind option_bind].
    destruct fs as [|e0 fs0] eqn:Efs; [by apply Hgoal|]. rewrite <- Efs. apply Hgoal.
    + intros f Hf. by apply prune_none_sub in Hf.
    + by apply prune_none_rows.
Qed.
Lemma scan_files_rows : exists files, scan_files sc specs filters None ms = Some files /\
  filter all (flat_map (live_rows live) files) = filter all (flat_map (live_rows live) (table_files ms)).
Proof.
  destruct (load_rows ms ltac:(done)) as (files & El & Hin & E).
  unfold scan_files. fold fs. rewrite El. cbn [mbind option_bind].
  destruct fs as [|e0 fs0] eqn:Efs; [by eexists|]. rewrite <- Efs. eexists. split; [done|].
  rewrite prune_none_rows by done. done.
Qed.
Lemma query_ok : query sc specs (keeps w) true live filters None ms = Some (answer w live filters ms).
Proof.
  destruct scan_files_rows as (files & Ef & E). unfold query, scan.
  assert (scan_files sc specs filters (match filter (fun e => classify specs e <> Exact) filters with [] => None | _ :: _ => None end) ms = Some files) as ->.
  { by destruct (filter _ filters). }
  cbn [mbind option_bind]. f_equal.
  set (exact := exact_filters specs filters).
  set (rest := filter (fun e => classify specs e <> Exact) filters).
  assert (forall l : list row, filter (fun r => forallb (fun e => keeps w e r) rest = true)
    (filter (fun r => forallb (fun e => keeps w e r) exact = true) l) = filter all l) as Hfil.
  { intros l. rewrite list_filter_filter. apply filter_ext_elem. intros r _. unfold all. rewrite Forall_forall.
    rewrite !forallb_forall. split.
    - intros [H1 H2] e He. destruct (decide (classify specs e = Exact)) as [Hc|Hc].
      + apply (bool_decide_eq_true _), H2, elem_of_list_In, elem_of_list_filter. done.
      + apply (bool_decide_eq_true _), H1, elem_of_list_In, elem_of_list_filter. done.
    - intros H. split; intros e He%elem_of_list_In%elem_of_list_filter; apply (bool_decide_eq_true _), H, He. }
  assert ((if forallb (fun f => match live f with None => true | Some _ => false end) files
    then filter (fun r => forallb (fun e => keeps w e r) exact = true) (flat_map d_rows files)
    else filter (fun r => forallb (fun e => keeps w e r) exact = true) (flat_map (fun f => default (d_rows f) (live f)) files)) =
    filter (fun r => forallb (fun e => keeps w e r) exact = true) (flat_map (live_rows live) files)) as ->.
  { destruct (forallb _ files) eqn:Ec; [|done]. f_equal. apply flat_map_ext_elem. intros f Hf.
    apply forallb_elem with (x := f) in Ec; [|done]. unfold live_rows. by destruct (live f). }
  assert ((match rest with [] => None | _ :: _ => None end : option N) = None) as -> by (by destruct rest).
  rewrite Hfil, E. done.
Qed.
End query.

(** * Limits *)
Lemma limit_files_rows lim rows files : Forall (fun f => d_count f = N.of_nat (length (d_rows f))) files -> (rows <= lim)%N ->
  take (N.to_nat (lim - rows)) (flat_map d_rows (limit_files lim rows files)) =
  take (N.to_nat (lim - rows)) (flat_map d_rows files).
Proof.
  intros Hc. revert rows. induction Hc as [|f files Hf Hc IH]; intros rows Hr; [done|].
  cbn [limit_files]. rewrite (proj2 (N.leb_le _ _) Hr). cbn [flat_map].
  destruct (lim <? rows + d_count f)%N eqn:E.
  - apply N.ltb_lt in E. cbn [flat_map]. rewrite app_nil_r. rewrite take_app_le by lia. done.
  - apply N.ltb_ge in E. rewrite !take_app_ge by lia. f_equal.
    replace (N.to_nat (lim - rows) - length (d_rows f))%nat with (N.to_nat (lim - (rows + d_count f))) by lia.
    apply IH. lia.
Qed.
Lemma load_no_filters sc specs ms : load_files sc specs [] ms = Some (table_files ms).
Proof.
  assert (forall i spec, predicates_from sc [] i spec = Some []) as Hp.
  { intros i spec. revert i. induction spec as [|f spec IH]; intros i; [done|]. cbn [predicates_from].
    assert (field_constraints sc [] f = Some []) as ->.
    { unfold field_constraints. destruct (ignored f.2); [done|]. by destruct (sc f.1). }
    cbn [mbind option_bind]. by rewrite IH. }
  induction ms as [|m ms IH]; [done|]. cbn [load_files]. destruct (specs !! m_spec m) as [spec|].
  - unfold partition_predicates. rewrite Hp. cbn [mbind option_bind].
    assert (manifest_may_match [] m = true) as -> by (unfold manifest_may_match; by destruct (m_summaries m)).
    cbn [mbind option_bind]. rewrite IH. done.
  - cbn [mbind option_bind]. rewrite IH. done.
Qed.
Lemma filter_true {A} (l : list A) : filter (fun _ : A => true = true) l = l.
Proof. induction l as [|x l IH]; [done|]. rewrite filter_cons_True by done. by rewrite IH. Qed.
Lemma limit_ok sc specs keep reader live n ms :
  (forall f, f ∈ table_files ms -> d_count f = N.of_nat (length (d_rows f)) /\ live f = None) ->
  query sc specs keep reader live [] (Some n) ms = Some (take (N.to_nat n) (flat_map d_rows (table_files ms))).
Proof.
  intros Hok. unfold query, scan, scan_files. cbn [filter list_filter pruning_filters exact_filters].
  change (pruning_filters specs []) with (@nil expr). rewrite load_no_filters. cbn [mbind option_bind].
  assert (forall l : list data_file, filter (fun f => forallb (stats_admit f) [] = true) l = l) as Hf by apply filter_true.
  unfold prune_files. rewrite Hf.
  assert (forall f, f ∈ limit_files n 0 (table_files ms) -> f ∈ table_files ms) as Hsub.
  { generalize (table_files ms) as l, 0%N as k. clear. induction l as [|x l IH]; intros k f; [done|]. cbn [limit_files].
    destruct (_ <=? _)%N; [|by intros ?%elem_of_nil]. rewrite !elem_of_cons. intros [->|H]; [by left|right].
    destruct (_ <? _)%N; [by apply elem_of_nil in H|]. by apply (IH (k + d_count x)%N). }
  assert (forallb (fun f => match live f with None => true | Some _ => false end) (limit_files n 0 (table_files ms)) = true) as ->.
  { apply forallb_forall. intros f Hf'%elem_of_list_In. destruct (Hok f (Hsub f Hf')) as [_ ->]. done. }
  assert ((if reader then filter (fun r : row => forallb (fun e => keep e r) [] = true) (flat_map d_rows (limit_files n 0 (table_files ms)))
    else flat_map d_rows (limit_files n 0 (table_files ms))) = flat_map d_rows (limit_files n 0 (table_files ms))) as E.
  { destruct reader; [apply filter_true|done]. }
  cbn [exact_filters filter list_filter] in *. rewrite E.
  pose proof (limit_files_rows n 0 (table_files ms)) as Hl. rewrite N.sub_0_r in Hl. rewrite Hl; [|rewrite Forall_forall; intros f Hf'; by apply Hok|lia].
  cbn [forallb]. rewrite filter_true. by rewrite take_take, Nat.min_id.
Qed.

(** * Exact filters *)
Lemma load_elem sc specs fs ms files f : load_files sc specs fs ms = Some files -> f ∈ files ->
  exists m, m ∈ ms /\ f ∈ m_files m /\ (fs <> [] -> forall spec, specs !! m_spec m = Some spec ->
    exists ps, partition_predicates sc spec fs = Some ps /\ file_may_match ps f = true).
Proof.
  revert files. induction ms as [|m ms IH]; intros files; [intros [= <-]; by intros ?%elem_of_nil|].
  cbn [load_files]. destruct (specs !! m_spec m) as [spec|] eqn:Es.
  - destruct (partition_predicates sc spec fs) as [ps|] eqn:Eps; [|done]. cbn [mbind option_bind].
    assert (forall here, (forall f, f ∈ here -> f ∈ m_files m /\ (fs <> [] -> file_may_match ps f = true)) ->
      (load_files sc specs fs ms ≫= fun rest => Some (here ++ rest)) = Some files -> f ∈ files ->
      exists m', m' ∈ m :: ms /\ f ∈ m_files m' /\ (fs <> [] -> forall spec, specs !! m_spec m' = Some spec ->
        exists ps, partition_predicates sc spec fs = Some ps /\ file_may_match ps f = true)) as Hgo.
    { intros here Hh E Hf. destruct (load_files sc specs fs ms) as [rest|] eqn:El; [|done].
      cbn [mbind option_bind] in E. injection E as <-. apply elem_of_app in Hf as [Hf|Hf].
      - exists m. split; [left|]. destruct (Hh f Hf) as [H1 H2]. split; [done|]. intros Hne spec' Es'.
        rewrite Es in Es'. injection Es' as <-. exists ps. auto.
      - destruct (IH rest eq_refl Hf) as (m' & Hm' & X). exists m'. split; [by right|done]. }
    destruct (manifest_may_match ps m); cbn [mbind option_bind]; intros E Hf.
    + apply (Hgo _) in E; [done| |done]. intros f' Hf'. destruct fs as [|e0 fs0]; [done|].
      apply prune_none_sub in Hf' || (unfold prune_files in Hf'; apply elem_of_list_filter in Hf' as [_ Hf']).
      apply elem_of_list_filter in Hf' as [H1 H2]. done.
    + apply (Hgo []) in E; [done| |done]. by intros f' ?%elem_of_nil.
  - cbn [mbind option_bind]. destruct (load_files sc specs fs ms) as [rest|] eqn:El; [|done].
    cbn [mbind option_bind]. intros [= <-] Hf. apply elem_of_app in Hf as [Hf|Hf].
    + exists m. split; [left|]. split; [|intros _ spec Es'; congruence].
      destruct fs as [|e0 fs0]; [done|]. unfold prune_files in Hf. by apply elem_of_list_filter in Hf as [_ Hf].
    + destruct (IH rest eq_refl Hf) as (m' & Hm' & X). exists m'. split; [by right|done].
Qed.

Lemma predicates_lookup sc fs i spec ps j fld : predicates_from sc fs i spec = Some ps -> spec !! j = Some fld ->
  exists cs, field_constraints sc fs fld = Some cs /\ forall k, k ∈ cs -> ((i + j)%nat, k) ∈ ps.
Proof.
  revert i ps j. induction spec as [|f spec IH]; intros i ps j; [done|]. cbn [predicates_from].
  destruct (field_constraints sc fs f) as [cs|] eqn:Ec; [|done]. cbn [mbind option_bind].
  destruct (predicates_from sc fs (S i) spec) as [ps'|] eqn:Ep; [|done]. cbn [mbind option_bind]. intros [= <-].
  destruct j as [|j]; cbn [lookup list_lookup].
  - intros [= <-]. exists cs. split; [done|]. intros k Hk. apply elem_of_app. left. apply elem_of_map_iff. exists k.
    rewrite Nat.add_0_r. done.
  - intros Hj. destruct (IH (S i) ps' j Ep Hj) as (cs' & H1 & H2). exists cs'. split; [done|]. intros k Hk.
    apply elem_of_app. right. replace (i + S j)%nat with (S i + j)%nat by lia. by apply H2.
Qed.
Lemma mapM_identity ty l : mapM (transform_literal Identity ty) l = Some (map Some l).
Proof. apply mapM_Some. induction l as [|p l IH]; [constructor|]. cbn [map]. by constructor. Qed.
Lemma omap_map_Some {A} (l : list A) : omap id (map Some l) = l.
Proof. induction l as [|x l IH]; [done|]. cbn. by rewrite IH. Qed.
Lemma identity_constraints sc fs c ty cs : sc c = Some ty -> field_constraints sc fs (c, Identity) = Some cs ->
  (forall p, (c, p) ∈ eq_filters sc fs -> CEq p ∈ cs) /\
  ((exists p, (c, p) ∈ in_filters sc fs) -> CIn (dedup [] (for_column c (in_filters sc fs))) ∈ cs).
Proof.
  intros Hsc. unfold field_constraints. cbn [fst snd ignored]. rewrite Hsc, !mapM_identity. cbn [mbind option_bind].
  destruct (match column_range sc c fs with None => Some None | Some r => transform_range Identity ty r end) as [rng|]; [|done].
  cbn [mbind option_bind]. intros [= <-]. rewrite !omap_map_Some. split.
  - intros p Hp. apply elem_of_app. left. apply elem_of_map_iff. exists p. split; [done|]. by apply elem_of_for_column.
  - intros [p Hp]. apply elem_of_app. right. apply elem_of_app. left.
    apply elem_of_for_column in Hp. destruct (dedup_elem [] _ p Hp) as [(q & Hq & _)|H]; [|done].
    destruct (dedup [] _) as [|q0 vs]; [by apply elem_of_nil in Hq|]. by apply elem_of_list_singleton.
Qed.
Lemma engine_eq w v p : world_ok w -> ~ is_float v -> prim_eq v p = true -> kind v = kind p /\ w_cmp w v p = Eq.
Proof.
  intros Hw Hf [H1 H2]%prim_eq_true. pose proof (below_kind v p H1 H2) as Hk. split; [done|].
  assert (prim_cmp v p = Eq) as E by by apply prim_cmp_eq_below. specialize (Hw v p Hk).
  destruct v; try (by rewrite Hw); by destruct Hf.
Qed.

Lemma scan_elem sc specs keep reader live filters limit ms rows r :
  scan sc specs keep reader live filters limit ms = Some rows -> r ∈ rows ->
  exists files, scan_files sc specs filters limit ms = Some files /\
    (((reader = true \/ exists f, f ∈ files /\ live f <> None) /\ forall e, e ∈ exact_filters specs filters -> keep e r = true) \/
     exists f, f ∈ files /\ r ∈ d_rows f).
Proof.
  unfold scan. destruct (scan_files sc specs filters limit ms) as [files|] eqn:Ef; [|done]. cbn [mbind option_bind].
  intros [= <-] Hr. exists files. split; [done|].
  match type of Hr with context [match limit with None => ?x | Some _ => _ end] => assert (r ∈ x) as Hr' end.
  { destruct limit as [n|]; [|done]. by apply elem_of_take in Hr as (i & Hi & _); apply elem_of_list_lookup_2 in Hi. }
  clear Hr. destruct (forallb _ files) eqn:Ec.
  - destruct reader.
    + apply elem_of_list_filter in Hr' as [H _]. left. split; [by left|]. intros e He. by apply forallb_elem with (x := e) in H.
    + right. by apply elem_of_flat_map in Hr'.
  - apply elem_of_list_filter in Hr' as [H _]. left. split.
    + right. clear - Ec. induction files as [|f files IH]; [done|]. cbn [forallb] in Ec.
      destruct (live f) eqn:El; [exists f; split; [left|congruence]|].
      destruct (IH Ec) as (f' & Hf' & Hl). exists f'. split; [by right|done].
    + intros e He. by apply forallb_elem with (x := e) in H.
Qed.
Lemma scan_files_elem sc specs filters limit ms files f : scan_files sc specs filters limit ms = Some files -> f ∈ files ->
  exists loaded, load_files sc specs (pruning_filters specs filters) ms = Some loaded /\ f ∈ loaded.
Proof.
  unfold scan_files. destruct (load_files _ _ _ _) as [loaded|]; [|done]. cbn [mbind option_bind]. intros [= <-] Hf.
  exists loaded. split; [done|].
  assert (forall fs lim, f ∈ prune_files fs lim loaded -> f ∈ loaded) as Hp.
  { intros fs lim. unfold prune_files. destruct lim as [lim|]; [|by intros [_ ?]%elem_of_list_filter].
    intros H. assert (f ∈ filter (fun f => forallb (stats_admit f) fs = true) loaded) as [_ ?]%elem_of_list_filter; [|done].
    revert H. generalize (filter (fun f => forallb (stats_admit f) fs = true) loaded) as l, 0%N as k. clear.
    induction l as [|x l IH]; intros k; [done|]. cbn [limit_files].
    destruct (_ <=? _)%N; [|by intros ?%elem_of_nil]. rewrite !elem_of_cons. intros [->|H]; [by left|right].
    destruct (_ <? _)%N; [by apply elem_of_nil in H|]. by apply (IH (k + d_count x)%N). }
  destruct (pruning_filters specs filters); destruct limit; try (by apply Hp in Hf); done.
Qed.

Lemma exact_identity w sc specs filters ms reader live limit rows r e :
  world_ok w -> scan sc specs (keeps w) reader live filters limit ms = Some rows -> r ∈ rows ->
  e ∈ filters -> classify specs e = Exact -> Forall uncast_filter filters ->
  (forall c p s, (c, p, s) ∈ compared e -> sc c <> None /\ partitioned_by specs ms c) -> compared e <> [] ->
  (forall e', e' ∈ filters -> is_list e = true -> is_list e' = true -> e' = e) ->
  matches w r e.
Proof.
  intros Hw Hscan Hr He Hcl Hu Hpart Hne Hone.
  destruct (scan_elem _ _ _ _ _ _ _ _ _ _ Hscan Hr) as (files & Ef & [[_ H]|(f & Hf & Hrf)]).
  { apply (bool_decide_eq_true _), H, elem_of_list_filter. done. }
  destruct (scan_files_elem _ _ _ _ _ _ _ Ef Hf) as (loaded & El & Hfl).
  destruct (load_elem _ _ _ _ _ _ El Hfl) as (m & Hm & Hfm & Hps).
  assert (e ∈ pruning_filters specs filters) as Hep by (apply elem_of_list_filter; split; [congruence|done]).
  assert (pruning_filters specs filters <> []) as Hnn by (intros E; rewrite E in Hep; by apply elem_of_nil in Hep).
  specialize (Hps Hnn). rewrite Forall_forall in Hu. pose proof (Hu e He) as Hue.
  assert (forall c p s, (c, p, s) ∈ compared e -> exists v ps i ty, r c = Some v /\ ~ is_float v /\ sc c = Some ty /\
    d_partition f !! i = Some (Some v) /\ file_may_match ps f = true /\
    exists cs, field_constraints sc (pruning_filters specs filters) (c, Identity) = Some cs /\
      forall k, k ∈ cs -> (i, k) ∈ ps) as Hc.
  { intros c p s Hcp. destruct (Hpart c p s Hcp) as [Hsc Hby]. destruct (sc c) as [ty|] eqn:Esc; [|done].
    destruct (Hby m f Hm Hfm) as (spec & i & v & Es & Hi & Hv & Hnf & Hrows).
    destruct (Hps spec Es) as (ps & Eps & Hmatch). rewrite Forall_forall in Hrows.
    exists v, ps, i, ty. split; [by apply Hrows|]. split; [clear - Hnf; destruct v; cbn in *; tauto|]. split; [done|]. split; [done|]. split; [done|].
    by apply (predicates_lookup sc _ 0 spec ps i). }
  assert (forall ps i v k, file_may_match ps f = true -> (i, k) ∈ ps -> d_partition f !! i = Some (Some v) -> may_match_value k (Some v) = true) as Hval.
  { intros ps i v k Hmm Hk Hv. unfold file_may_match in Hmm. apply forallb_elem with (x := (i, k)) in Hmm; [|done].
    cbn [fst snd] in Hmm. by rewrite Hv in Hmm. }
  destruct (supported_shape specs e ltac:(congruence)) as [(o & l & r' & -> & Ho)|(e' & items & -> & Hlit)].
  - destruct Hue as [Hul Hur]. unfold matches. cbn [eval]. rewrite <- (eval_unalias w r l), <- (eval_unalias w r r').
    cbn [classify] in Hcl. rewrite !strip_uncast in Hcl by done. cbn [compared] in Hne, Hc.
    assert (forall c p, eq_filter sc (EBin o l r') = [(c, p)] -> (c, p) ∈ eq_filters sc (pruning_filters specs filters)) as Hin.
    { intros c p E. apply elem_of_flat_map. exists (EBin o l r'). split; [done|]. rewrite E. by apply elem_of_list_singleton. }
    cbn [eq_filter] in Hin. rewrite !strip_uncast in Hin by done.
    destruct (unalias l) as [cl|[vl|]| | | | |]; try done; destruct (unalias r') as [cr|[vr|]| | | | |]; try done;
      (destruct o; try done; try (by unfold range_pushdown in Hcl; destruct (only_identity _ _)));
      (edestruct Hc as (v & ps & i & ty & Hv & Hnf & Hsc & Hd & Hmm & cs & Ecs & Hcs); [by apply elem_of_list_singleton|]);
      destruct (identity_constraints _ _ _ _ _ Hsc Ecs) as [Heq _];
      (match type of Hin with context [known sc ?c] => assert (known sc c = true) as Hkn by (unfold known; by rewrite Hsc); rewrite Hkn in Hin end);
      pose proof (Hval _ _ _ _ Hmm (Hcs _ (Heq _ (Hin _ _ eq_refl))) Hd) as Hmv; cbn [may_match_value] in Hmv;
      destruct (engine_eq w _ _ Hw Hnf Hmv) as [Hk Hcmp]; cbn [eval]; rewrite Hv; cbn [compare_values].
    + rewrite decide_True by done. by rewrite Hcmp.
    + rewrite decide_True by done.
      assert (w_cmp w vl v = Eq) as ->; [|done].
      assert (~ is_float vl) as Hnf' by (by apply (kind_float _ v)).
      pose proof (Hw vl v (eq_sym Hk)) as Hx. pose proof (world_plain w v vl Eq Hw Hk Hnf Hcmp) as Ey.
      rewrite (prim_cmp_antisym vl v), Ey in Hx. destruct vl; try exact Hx; exfalso; apply Hnf'; exact I.
  - cbn [uncast_filter] in Hue. unfold matches. cbn [eval]. rewrite <- (eval_unalias w r e').
    cbn [classify] in Hcl. rewrite strip_uncast in Hcl by done. cbn [compared] in Hne, Hc.
    destruct (unalias e') as [c| | | | | |] eqn:Eu; try done.
    destruct (literal_items items) as [|p0 ps0] eqn:Eit; [done|].
    destruct (Hc c p0 false) as (v & ps & i & ty & Hv & Hnf & Hsc & Hd & Hmm & cs & Ecs & Hcs); [by left|].
    destruct (identity_constraints _ _ _ _ _ Hsc Ecs) as [_ Hinc].
    assert (in_filter sc (EIn e' false items) = map (fun p => (c, p)) (literal_items items)) as Einf.
    { cbn [in_filter]. rewrite strip_uncast by done. rewrite Eu. unfold known. by rewrite Hsc. }
    assert ((c, p0) ∈ in_filters sc (pruning_filters specs filters)) as Hp0.
    { apply elem_of_flat_map. exists (EIn e' false items). split; [done|]. rewrite Einf, Eit. left. }
    pose proof (Hval _ _ _ _ Hmm (Hcs _ (Hinc (ex_intro _ p0 Hp0))) Hd) as Hmv. cbn [may_match_value] in Hmv.
    apply existsb_exists in Hmv as (q & Hq%elem_of_list_In & Hvq). apply dedup_sub, elem_of_for_column, elem_of_flat_map in Hq as (e2 & He2 & Hq).
    assert (e2 = EIn e' false items) as ->.
    { apply elem_of_list_filter in He2 as [Hs2 He2]. apply Hone; [done|done|].
      destruct (supported_shape specs e2 Hs2) as [(o & l & r' & -> & Ho)|(? & ? & -> & _)]; [|done].
      destruct o; try (exact (False_ind _ Ho)); by apply elem_of_nil in Hq. }
    rewrite Einf in Hq. apply elem_of_map_iff in Hq as (q' & [= <-] & Hq). apply elem_of_literal_items in Hq.
    destruct (engine_eq w _ _ Hw Hnf Hvq) as [Hk Hcmp]. cbn [eval]. rewrite Hv.
    assert (foldr (fun i acc => or3 (compare_values w OEq (Some v) (eval w r i)) acc) (Some false) items = Some true) as ->; [|done].
    clear - Hq Hk Hcmp. induction items as [|x items IH]; [by apply elem_of_nil in Hq|]. cbn [foldr].
    apply elem_of_cons in Hq as [<-|Hq].
    + cbn [eval compare_values]. rewrite decide_True by done. rewrite Hcmp. cbn [comparison_holds or3].
      by destruct (foldr _ _ _) as [[]|].
    + rewrite (IH Hq). by destruct (compare_values _ _ _ _) as [[]|].
Qed.

(** * Integer columns partitioned by identity are pruned exactly *)
Lemma below_total a b : ~ below a b -> below b a.
Proof. rewrite <- prim_cmp_gt. unfold below. rewrite (prim_cmp_antisym b a). by intros ->. Qed.
Definition sat_min (v : prim) (x : option (prim * bool)) : Prop :=
  match x with None => True | Some (m, i) => if i : bool then below m v else ~ below v m end.
Definition sat_max (v : prim) (x : option (prim * bool)) : Prop :=
  match x with None => True | Some (m, i) => if i : bool then below v m else ~ below m v end.
Lemma tighten_min_sat v cur cand : sat_min v (tighten prim_gt cur cand) <-> sat_min v cur /\ sat_min v (Some cand).
Proof.
  destruct cur as [[m i]|]; [|cbn; tauto]. destruct cand as [q j]. unfold tighten. cbn [fst snd].
  destruct (prim_gt q m) eqn:Eg; cbn [orb].
  - assert (~ below q m) as Hq by (intros H; apply prim_gt_false in H; congruence).
    pose proof (below_total _ _ Hq) as Hmq. cbn [sat_min]. split; [|tauto]. intros H. split; [|done].
    destruct j, i.
    + by apply (below_trans _ q).
    + intros Hv. apply Hq. by apply (below_trans _ v).
    + apply (below_trans _ q); [done|]. by apply below_total.
    + intros Hv. apply H. by apply (below_trans _ m).
  - apply prim_gt_false in Eg. destruct (prim_eq q m) eqn:Ee; cbn [andb].
    + apply prim_eq_true in Ee as [H1 H2]. destruct j, i; cbn [negb andb sat_min].
      * split; [intros H; split; [done|]; by apply (below_trans _ m)|tauto].
      * split; [|tauto]. intros H. split; [done|]. apply (below_trans _ m); [done|by apply below_total].
      * split; [|tauto]. intros H. split; [|done]. apply (below_trans _ q); [done|by apply below_total].
      * split; [|tauto]. intros H. split; [done|]. intros X. apply H. by apply (below_trans _ q).
    + cbn [sat_min]. split; [|tauto]. intros H. split; [done|].
      assert (~ below m q) as Hmq by (intros X; assert (prim_eq q m = true) as Y by (by apply prim_eq_true); congruence).
      destruct j, i.
      * by apply (below_trans _ m).
      * apply (below_trans _ m); [done|by apply below_total].
      * intros X. apply Hmq. by apply (below_trans _ v).
      * intros X. apply H. by apply (below_trans _ q).
Qed.
Lemma tighten_max_sat v cur cand : sat_max v (tighten prim_lt cur cand) <-> sat_max v cur /\ sat_max v (Some cand).
Proof.
  destruct cur as [[m i]|]; [|cbn; tauto]. destruct cand as [q j]. unfold tighten. cbn [fst snd].
  destruct (prim_lt q m) eqn:Eg; cbn [orb].
  - assert (~ below m q) as Hq by (intros H; apply prim_lt_false in H; congruence).
    pose proof (below_total _ _ Hq) as Hmq. cbn [sat_max]. split; [|tauto]. intros H. split; [|done].
    destruct j, i.
    + by apply (below_trans _ q).
    + intros Hv. apply Hq. by apply (below_trans _ v).
    + apply (below_trans _ q); [|done]. by apply below_total.
    + intros Hv. apply H. by apply (below_trans _ m).
  - apply prim_lt_false in Eg. destruct (prim_eq q m) eqn:Ee; cbn [andb].
    + apply prim_eq_true in Ee as [H1 H2]. destruct j, i; cbn [negb andb sat_max].
      * split; [intros H; split; [done|]; by apply (below_trans _ m)|tauto].
      * split; [|tauto]. intros H. split; [done|]. apply (below_trans _ m); [by apply below_total|done].
      * split; [|tauto]. intros H. split; [|done]. apply (below_trans _ q); [by apply below_total|done].
      * split; [|tauto]. intros H. split; [done|]. intros X. apply H. by apply (below_trans _ q).
    + cbn [sat_max]. split; [|tauto]. intros H. split; [done|].
      assert (~ below q m) as Hmq by (intros X; assert (prim_eq q m = true) as Y by (by apply prim_eq_true); congruence).
      destruct j, i.
      * by apply (below_trans _ m).
      * apply (below_trans _ m); [by apply below_total|done].
      * intros X. apply Hmq. by apply (below_trans _ v).
      * intros X. apply H. by apply (below_trans _ q).
Qed.
Definition sat_bound (v : prim) (b : bound) : Prop :=
  if b_lower b then sat_min v (Some (b_lit b, b_incl b)) else sat_max v (Some (b_lit b, b_incl b)).
Lemma fold_sat v bs rg : sat_min v (r_min (fold_left add_bound bs rg)) /\ sat_max v (r_max (fold_left add_bound bs rg)) <->
  (sat_min v (r_min rg) /\ sat_max v (r_max rg)) /\ Forall (sat_bound v) bs.
Proof.
  revert rg. induction bs as [|b bs IH]; intros rg; [cbn [fold_left]; rewrite Forall_nil; tauto|].
  cbn [fold_left]. rewrite IH, Forall_cons. unfold add_bound, sat_bound at 2. destruct (b_lower b); cbn [r_min r_max].
  - rewrite tighten_min_sat. tauto.
  - rewrite tighten_max_sat. tauto.
Qed.
Definition integer_type (ty : ptype) : Prop := ty ∈ [TyInt; TyLong; TyDate; TyTime; TyTs; TyTsNs].
Lemma integer_bound ty p v lower incl : integer_type ty -> typed ty p -> typed ty v -> (forall q, neighbour p q -> prim_ok q) ->
  if lower : bool then below (bound_literal ty p true incl) v <-> sat_min v (Some (p, incl))
  else below v (bound_literal ty p false incl) <-> sat_max v (Some (p, incl)).
Proof.
  intros Hty [_ Hp] [_ Hv] Hn. unfold integer_type in Hty.
  destruct ty; try (exfalso; clear - Hty; apply (bool_decide_eq_true_2 _) in Hty; vm_compute in Hty; discriminate);
    (destruct p as [|x|x| | | | | |]; try (exact (False_ind _ Hp)));
    (destruct v as [|y|y| | | | | |]; try (exact (False_ind _ Hv)));
    (destruct lower; destruct incl; [done| |done|]); cbn [bound_literal sat_min sat_max];
    first [ pose proof (Hn (PInt (x + 1)) (or_introl eq_refl)) as H1; pose proof (Hn (PInt (x - 1)) (or_intror eq_refl)) as H2
          | pose proof (Hn (PLong (x + 1)) (or_introl eq_refl)) as H1; pose proof (Hn (PLong (x - 1)) (or_intror eq_refl)) as H2 ];
    cbn [prim_ok] in H1, H2; cbn [adjust_exclusive]; unfold shift;
    rewrite decide_True by (cbn; lia); cbn [fmap option_fmap option_map];
    rewrite ?below_int, ?below_long; lia.
Qed.
Lemma integer_filter w sc c ty v r e : world_ok w -> sc c = Some ty -> typed ty v -> r c = Some v -> integer_type ty ->
  integer_comparison ty c e ->
  (matches w r e <-> (forall p, (c, p) ∈ eq_filter sc e -> prim_eq v p = true) /\ Forall (sat_bound v) (range_filter sc false e)).
Proof.
  intros Hw Hsc Htv Hv Hty (o & p & He & Ho & Htp & _).
  assert (forall a b, typed ty a -> typed ty b -> w_cmp w a b = prim_cmp a b /\ kind a = kind b) as Hcmp.
  { intros a b [_ Ha] [_ Hb]. unfold integer_type in Hty.
    assert (kind a = kind b) as Hk by (destruct ty; destruct a; try exact (False_ind _ Ha); destruct b; try exact (False_ind _ Hb); reflexivity).
    split; [|done]. specialize (Hw a b Hk). clear - Hw Ha Hty.
    destruct ty; try (exfalso; apply (bool_decide_eq_true_2 _) in Hty; vm_compute in Hty; discriminate);
      destruct a; try exact (False_ind _ Ha); exact Hw. }
  assert (known sc c = true) as Hkn by (unfold known; by rewrite Hsc).
  destruct (Hcmp v p Htv Htp) as [Evp Kvp], (Hcmp p v Htp Htv) as [Epv Kpv].
  assert (forall (c0 : nat) (P : prim -> Prop), (forall q, (c0, q) ∈ [(c0, p)] -> P q) <-> P p) as Hone.
  { intros c0 P. split; [intros H; apply H; left|intros H q [= ->]%elem_of_list_singleton; done]. }
  assert (forall (c0 : nat) (P : prim -> Prop), (forall q, (c0, q) ∈ ([] : list (nat * prim)) -> P q)) as Hnone.
  { by intros c0 P q ?%elem_of_nil. }
  assert (o = OEq \/ o = OGt \/ o = OGe \/ o = OLt \/ o = OLe) as Hcases by (clear - Ho; rewrite !elem_of_cons, elem_of_nil in Ho; tauto).
  destruct He as [-> | ->]; destruct Hcases as [->|[->|[->|[->| ->]]]]; unfold matches; cbn [eval eq_filter range_filter strip];
    rewrite Hkn, Hv; cbn [compare_values]; rewrite decide_True by done; rewrite ?Evp, ?Epv; cbn [fmap option_fmap option_map].
  all: try (rewrite Hone; rewrite Forall_nil; unfold prim_eq; rewrite ?(prim_cmp_antisym p v); destruct (prim_cmp v p); cbn; naive_solver).
  all: match goal with |- _ <-> ?A /\ ?B => assert (A <-> True) as -> by (split; [done|intros _; apply Hnone]) end.
  all: rewrite Forall_singleton; unfold sat_bound; cbn [b_lower b_lit b_incl sat_min sat_max]; unfold below;
    rewrite ?(prim_cmp_antisym p v); destruct (prim_cmp v p); cbn; naive_solver.
Qed.
Lemma satisfied_all_range v mn mx : value_in_range v (Range ((fun p => (p, true)) <$> mn) ((fun p => (p, true)) <$> mx)) = true <->
  (forall m, mn = Some m -> below m v) /\ (forall m, mx = Some m -> below v m).
Proof.
  unfold value_in_range. cbn [r_min r_max]. rewrite andb_true_iff.
  destruct mn as [m|], mx as [x|]; cbn [fmap option_fmap option_map]; rewrite ?andb_false_r, ?orb_false_r, ?negb_true_iff, ?prim_lt_false, ?prim_gt_false; naive_solver.
Qed.
Lemma identity_exact w sc c ty filters f v r :
  world_ok w -> sc c = Some ty -> integer_type ty -> Forall (integer_comparison ty c) filters ->
  typed ty v -> d_partition f = [Some v] -> r c = Some v ->
  exists ps, partition_predicates sc [(c, Identity)] filters = Some ps /\
    (file_may_match ps f = true <-> Forall (matches w r) filters).
Proof.
  intros Hw Hsc Hty Hint Htv Hd Hr. unfold partition_predicates. cbn [predicates_from].
  set (bs := filter (fun b => b_col b = c) (flat_map (range_filter sc false) filters)).
  assert (forall e, e ∈ filters -> (in_filter sc e = []) /\ (forall b, b ∈ range_filter sc false e -> b_col b = c /\ typed ty (b_lit b) /\
    (forall q, neighbour (b_lit b) q -> prim_ok q)) /\ (forall x, x ∈ eq_filter sc e -> x.1 = c)) as Hshape.
  { intros e He. rewrite Forall_forall in Hint. destruct (Hint e He) as (o & p & Hee & Ho & Htp & Hn).
    assert (o = OEq \/ o = OGt \/ o = OGe \/ o = OLt \/ o = OLe) as Hcases by (clear - Ho; rewrite !elem_of_cons, elem_of_nil in Ho; tauto).
    assert (known sc c = true) as Hkn by (unfold known; by rewrite Hsc).
    destruct Hee as [-> | ->]; destruct Hcases as [->|[->|[->|[->| ->]]]]; cbn [in_filter range_filter eq_filter strip]; rewrite Hkn;
      (split; [done|]); (split; [intros b Hb|intros x Hx]);
      try (by apply elem_of_nil in Hb); try (by apply elem_of_nil in Hx);
      try (apply elem_of_list_singleton in Hb as ->; done); apply elem_of_list_singleton in Hx as ->; done. }
  assert (in_filters sc filters = []) as Ein.
  { apply elem_of_nil_inv. intros x Hx. apply elem_of_flat_map in Hx as (e & He & Hx). destruct (Hshape e He) as [E _]. rewrite E in Hx. by apply elem_of_nil in Hx. }
  assert (forall b, b ∈ bs -> typed ty (b_lit b) /\ forall q, neighbour (b_lit b) q -> prim_ok q) as Hbs.
  { intros b Hb. apply elem_of_list_filter in Hb as [_ Hb]. apply elem_of_flat_map in Hb as (e & He & Hb).
    destruct (Hshape e He) as (_ & H & _). by apply H. }
  assert (Forall (matches w r) filters <-> (forall p, (c, p) ∈ eq_filters sc filters -> prim_eq v p = true) /\ Forall (sat_bound v) bs) as Hall.
  { rewrite Forall_forall. split.
    - intros H. split.
      + intros p Hp. apply elem_of_flat_map in Hp as (e & He & Hp). rewrite Forall_forall in Hint.
        by apply (integer_filter w sc c ty v r e Hw Hsc Htv Hr Hty (Hint e He)); [apply H|].
      + rewrite Forall_forall. intros b Hb. apply elem_of_list_filter in Hb as [_ Hb]. apply elem_of_flat_map in Hb as (e & He & Hb).
        rewrite Forall_forall in Hint. pose proof (H e He) as Hm. apply (integer_filter w sc c ty v r e Hw Hsc Htv Hr Hty (Hint e He)) in Hm as [_ Hm].
        rewrite Forall_forall in Hm. by apply Hm.
    - intros [H1 H2] e He. rewrite Forall_forall in Hint. apply (integer_filter w sc c ty v r e Hw Hsc Htv Hr Hty (Hint e He)).
      rewrite Forall_forall in H2. split.
      + intros p Hp. apply H1. apply elem_of_flat_map. by exists e.
      + rewrite Forall_forall. intros b Hb. apply H2. apply elem_of_list_filter.
        destruct (Hshape e He) as (_ & H & _). split; [by apply H|]. apply elem_of_flat_map. by exists e. }
  setoid_rewrite Hall. clear Hall. unfold field_constraints. cbn [fst snd ignored]. rewrite Hsc, Ein, !mapM_identity. cbn [for_column filter list_filter map mbind option_bind].
  change (map snd (filter (fun p : nat * prim => p.1 = c) (eq_filters sc filters))) with (for_column c (eq_filters sc filters)).
  assert (forall ks, file_may_match (map (pair 0%nat) ks ++ []) f = true <-> forall k, k ∈ ks -> may_match_value k (Some v) = true) as Hfm.
  { intros ks. rewrite app_nil_r. unfold file_may_match. rewrite forallb_forall. split.
    - intros H k Hk. specialize (H (0%nat, k)). cbn [fst snd] in H. rewrite Hd in H. apply H. apply elem_of_list_In, elem_of_map_iff. by exists k.
    - intros H x Hx%elem_of_list_In. apply elem_of_map_iff in Hx as (k & -> & Hk). cbn [fst snd]. rewrite Hd. by apply H. }
  assert ((forall k, k ∈ map CEq (for_column c (eq_filters sc filters)) -> may_match_value k (Some v) = true) <->
    forall p, (c, p) ∈ eq_filters sc filters -> prim_eq v p = true) as Heqs.
  { split.
    - intros H p Hp. apply (H (CEq p)). apply elem_of_map_iff. exists p. split; [done|]. by apply elem_of_for_column.
    - intros H k Hk. apply elem_of_map_iff in Hk as (p & -> & Hp). apply elem_of_for_column in Hp. by apply H. }
  unfold column_range. fold bs. destruct bs as [|b0 bs'] eqn:Eb.
  - cbn [mbind option_bind]. rewrite omap_map_Some. eexists. split; [done|]. rewrite Hfm, Forall_nil.
    cbn [omap list_omap dedup]. rewrite app_nil_r. rewrite Heqs. tauto.
  - rewrite <- Eb in *. clear b0 bs' Eb. set (rg := fold_left add_bound bs (Range None None)).
    destruct (fold_bounds bs (Range None None)) as [Hmin Hmax]. pose proof (fold_sat v bs (Range None None)) as Hsat. fold rg in Hmin, Hmax, Hsat.
    cbn [r_min r_max sat_min sat_max] in Hmin, Hmax, Hsat.
    unfold transform_range. cbn [preserves_order].
    set (mn := (fun x : prim * bool => bound_literal ty x.1 true x.2) <$> r_min rg).
    set (mx := (fun x : prim * bool => bound_literal ty x.1 false x.2) <$> r_max rg).
    assert (transform_bound Identity ty true (r_min rg) = Some ((fun p => (p, true)) <$> mn)) as ->.
    { unfold mn. by destruct (r_min rg) as [[p i]|]. }
    assert (transform_bound Identity ty false (r_max rg) = Some ((fun p => (p, true)) <$> mx)) as ->.
    { unfold mx. by destruct (r_max rg) as [[p i]|]. }
    assert ((forall m, mn = Some m -> below m v) <-> sat_min v (r_min rg)) as Hmn.
    { unfold mn. destruct (r_min rg) as [[p i]|] eqn:E; cbn [fmap option_fmap option_map fst snd]; [|cbn; naive_solver].
      destruct (Hmin (p, i) eq_refl) as [|(b & Hb & _ & [= -> ->])]; [done|]. destruct (Hbs b Hb) as [Ht Hn].
      rewrite <- (integer_bound ty (b_lit b) v true (b_incl b) Hty Ht Htv Hn). naive_solver. }
    assert ((forall m, mx = Some m -> below v m) <-> sat_max v (r_max rg)) as Hmx.
    { unfold mx. destruct (r_max rg) as [[p i]|] eqn:E; cbn [fmap option_fmap option_map fst snd]; [|cbn; naive_solver].
      destruct (Hmax (p, i) eq_refl) as [|(b & Hb & _ & [= -> ->])]; [done|]. destruct (Hbs b Hb) as [Ht Hn].
      rewrite <- (integer_bound ty (b_lit b) v false (b_incl b) Hty Ht Htv Hn). naive_solver. }
    pose proof (satisfied_all_range v mn mx) as Hrange. rewrite Hmn, Hmx in Hrange.
    assert (exists rng, (match (fun p => (p, true)) <$> mn, (fun p => (p, true)) <$> mx with
      | None, None => Some None | _, _ => Some (Some (Range ((fun p => (p, true)) <$> mn) ((fun p => (p, true)) <$> mx))) end) = Some rng /\
      ((forall k, k ∈ match rng with Some r => [CRange r] | None => [] end -> may_match_value k (Some v) = true) <->
       sat_min v (r_min rg) /\ sat_max v (r_max rg))) as (rng & Erng & Hrng).
    { setoid_rewrite <- Hrange. clear - w. destruct mn as [m|], mx as [x|]; cbn [fmap option_fmap option_map]; eexists; (split; [done|]).
      1-3: split; [intros H; apply (H (CRange _)); by apply elem_of_list_singleton|intros H k ->%elem_of_list_singleton; done].
      split; [done|by intros _ k ?%elem_of_nil]. }
    assert ((match Some ((fun p => (p, true)) <$> mn), Some ((fun p => (p, true)) <$> mx) with
      | Some None, Some None => Some None
      | Some mn0, Some mx0 => Some (Some (Range mn0 mx0)) | _, _ => None end) = Some rng) as ->.
    { destruct mn, mx; exact Erng. }
    cbn [mbind option_bind]. rewrite omap_map_Some. eexists. split; [done|]. rewrite Hfm. cbn [omap list_omap dedup app].
    assert (Forall (sat_bound v) bs <-> sat_min v (r_min rg) /\ sat_max v (r_max rg)) as Hs by tauto.
    clear Hsat Hrange Hmn Hmx Hmin Hmax Hfm. split.
    + intros H. split; [apply Heqs; intros k Hk; apply H, elem_of_app; by left|].
      apply Hs, Hrng. intros k Hk. apply H, elem_of_app. by right.
    + intros [H1 H2] k [Hk|Hk]%elem_of_app; [by apply Heqs|]. apply Hs in H2. by apply Hrng.
Qed.
Lemma take_elem {A} n (l : list A) x : x ∈ take n l -> x ∈ l.
Proof. intros H. rewrite <- (take_drop n l). apply elem_of_app. by left. Qed.
Lemma exact_applied w sc specs filters ms live limit rows r e :
  scan sc specs (keeps w) true live filters limit ms = Some rows -> r ∈ rows ->
  e ∈ filters -> classify specs e = Exact -> matches w r e.
Proof.
  unfold scan. destruct (scan_files sc specs filters limit ms) as [files|]; [|done]. cbn [mbind option_bind].
  intros [= <-] Hr He Hc.
  assert (forall (l : list row), r ∈ filter (fun r0 : row => forallb (fun e0 => keeps w e0 r0) (exact_filters specs filters) = true) l -> matches w r e) as H.
  { intros l [Hl _]%elem_of_list_filter. rewrite forallb_forall in Hl.
    apply (bool_decide_eq_true_1 (matches w r e)), (Hl e), elem_of_list_In. unfold exact_filters. by apply elem_of_list_filter. }
  destruct limit; [apply take_elem in Hr|]; destruct (forallb _ files); by eapply H.
Qed.

(** A filter is reported as exact only for columns that are partitioned by themselves wherever they are
    used for partitioning. *)
Lemma only_identity_true specs c : only_identity specs c = Some true ->
  (exists spec, spec ∈ specs /\ (c, Identity) ∈ spec) /\
  forall spec t, spec ∈ specs -> (c, t) ∈ spec -> t = Identity \/ t = Void \/ t = Unknown.
Proof.
  unfold only_identity. set (fs := filter _ _). intros H.
  assert (fs <> [] /\ forallb (fun f : pfield => is_identity f.2) fs = true) as [Hne Hall].
  { destruct fs; [done|]. by injection H. }
  clear H. rewrite forallb_forall in Hall.
  assert (forall f, f ∈ fs <-> (f.1 = c /\ ignored f.2 = false) /\ exists spec, f ∈ spec /\ spec ∈ specs) as Hin.
  { intros f. unfold fs. rewrite elem_of_list_filter, elem_of_list_In, in_concat.
    apply and_iff_compat_l. split; intros (spec & H1 & H2); exists spec; rewrite ?elem_of_list_In in *; done. }
  split.
  - destruct fs as [|f fs'] eqn:E; [done|]. assert (f ∈ f :: fs') as Hf by left.
    pose proof (Hall f ltac:(by apply elem_of_list_In)) as Hid.
    apply Hin in Hf as [[Hc _] (spec & H1 & H2)]. exists spec. split; [done|].
    destruct f as [c' t]. cbn in *. subst c'. by destruct t.
  - intros spec t Hs Ht. destruct (ignored t) eqn:Ei; [destruct t; try done; auto|]. left.
    assert ((c, t) ∈ fs) as Hf by (apply Hin; split; [done|by exists spec]).
    pose proof (Hall _ ltac:(by apply elem_of_list_In)) as Hid. cbn in Hid. by destruct t.
Qed.
Lemma exact_columns specs e c p s : classify specs e = Exact -> uncast_filter e -> (c, p, s) ∈ compared e ->
  (exists spec, spec ∈ specs /\ (c, Identity) ∈ spec) /\
  forall spec t, spec ∈ specs -> (c, t) ∈ spec -> t = Identity \/ t = Void \/ t = Unknown.
Proof.
  intros Hc Hu Hp. apply only_identity_true.
  assert (forall c', eq_in_pushdown specs c' = Exact -> only_identity specs c' = Some true) as He.
  { intros c'. unfold eq_in_pushdown. by destruct (only_identity specs c') as [[|]|]. }
  assert (forall c', range_pushdown specs c' <> Exact) as Hr.
  { intros c'. unfold range_pushdown. by destruct (only_identity specs c'). }
  destruct e as [| | | |o l r|e [|] items|]; try done; cbn [classify compared uncast_filter] in *.
  - destruct Hu as [Hu1 Hu2]. rewrite !strip_uncast in Hc by done.
    destruct (unalias l) as [c1|v1| | | | |], (unalias r) as [c2|v2| | | | |];
      try (by apply elem_of_nil in Hp); try (by destruct o).
    + destruct v2 as [v2|]; [|by apply elem_of_nil in Hp]. apply elem_of_list_singleton in Hp.
      injection Hp as -> -> ->. apply He. destruct o; try done; by apply Hr in Hc.
    + destruct v1 as [v1|]; [|by apply elem_of_nil in Hp]. apply elem_of_list_singleton in Hp.
      injection Hp as -> -> ->. apply He. destruct o; try done; by apply Hr in Hc.
  - rewrite strip_uncast in Hc by done. destruct (unalias e); try done.
    destruct (forallb is_literal items); [|done].
    apply elem_of_list_In, in_map_iff in Hp as (q & [= <- <- <-] & _). by apply He.
Qed.
