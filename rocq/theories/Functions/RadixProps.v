(** C87: numbers and bytes in other bases. *)
From Coq Require Import ZArith NArith ZifyN ZifyBool Ascii String Lia.
From stdpp Require Import prelude list.
From Verif.Lib Require Import Text.
From Verif.Functions Require Import IntModel RadixModel.
Local Open Scope Z_scope.

(** ** Specification *)
(** A digit stands for its place in the alphabet, in lower or in upper case. *)
Definition stands_for (c : N) (d : Z) : Prop :=
  0 <= d /\ (nth_error (str "0123456789ABCDEFGHIJKLMNOPQRSTUVWXYZ") (Z.to_nat d) = Some c \/
             nth_error (str "0123456789abcdefghijklmnopqrstuvwxyz") (Z.to_nat d) = Some c).
(** The number with these digits, the highest one first. *)
Definition value (base : Z) (ds : list Z) : Z := fold_left (fun a d => a * base + d) ds 0.
Definition magnitude (base : Z) (s : text) (n : Z) : Prop :=
  s <> [] /\ exists ds, Forall2 (fun c d => stands_for c d /\ d < base) s ds /\ value base ds = n.
(** The text of a number: perhaps a sign, then digits. *)
Definition number (base : Z) (s : text) (n : Z) : Prop :=
  magnitude base s n \/ (exists s', s = str "+" ++ s' /\ magnitude base s' n) \/ (exists s', s = str "-" ++ s' /\ magnitude base s' (- n)).
(** No plus, no small letters, no zeros in front. *)
Definition shortest (s : text) : Prop :=
  s = str "0" \/ exists s', (s = s' \/ s = str "-" ++ s') /\ (forall c, c ∈ s' -> 48 <= Z.of_N c <= 57 \/ 65 <= Z.of_N c <= 90) /\
    (forall c r, s' = c :: r -> c <> 48%N).
Definition i64 (n : Z) : Prop := - 2 ^ 63 <= n < 2 ^ 63.

(** ** Proofs *)
Lemma alphabet_check :
  forallb (fun c => forallb (fun d =>
    eqb (bool_decide (digit_value c = Some (Z.of_nat d)))
      (bool_decide (nth_error (str "0123456789ABCDEFGHIJKLMNOPQRSTUVWXYZ") d = Some c \/ nth_error (str "0123456789abcdefghijklmnopqrstuvwxyz") d = Some c)))
    (seq 0 36)) (map N.of_nat (seq 0 123)) = true.
Proof. vm_compute. reflexivity. Qed.
Lemma alphabet_small : forallb (fun c => (c <? 123)%N) (str "0123456789ABCDEFGHIJKLMNOPQRSTUVWXYZ" ++ str "0123456789abcdefghijklmnopqrstuvwxyz") = true.
Proof. vm_compute. reflexivity. Qed.
Lemma digit_value_bounds c d : digit_value c = Some d -> 0 <= d < 36 /\ (c < 123)%N.
Proof.
  unfold digit_value. destruct ((48 <=? c) && (c <=? 57))%N eqn:E1; [intros [= <-]; lia|].
  destruct ((65 <=? c) && (c <=? 90))%N eqn:E2; [intros [= <-]; lia|].
  destruct ((97 <=? c) && (c <=? 122))%N eqn:E3; [intros [= <-]; lia|done].
Qed.
Lemma digit_value_spec c d : digit_value c = Some d <-> stands_for c d.
Proof.
  assert (0 <= d < 36 -> (c < 123)%N -> digit_value c = Some d <-> stands_for c d) as H.
  { intros Hd Hc. pose proof alphabet_check as H. rewrite forallb_forall in H. specialize (H c).
    rewrite in_map_iff in H. specialize (H ltac:(exists (N.to_nat c); split; [lia|apply in_seq; lia])).
    rewrite forallb_forall in H. specialize (H (Z.to_nat d) ltac:(apply in_seq; lia)). apply eqb_prop in H.
    rewrite Z2Nat.id in H by lia. unfold stands_for. rewrite !bool_decide_decide in H. repeat case_decide; try done; split; intros; try tauto; try (split; [lia|done]). }
  split.
  - intros Hd. pose proof (digit_value_bounds _ _ Hd). apply H; [tauto|tauto|done].
  - intros Hs. apply H; [..|done]; destruct Hs as [Hd Hs].
    + assert (Z.to_nat d < 36)%nat; [|lia]. destruct Hs as [Hs|Hs]; apply nth_error_Some_length in Hs || (assert (nth_error _ (Z.to_nat d) <> None) as Hn by (rewrite Hs; done); apply nth_error_Some in Hn; exact Hn).
    + pose proof alphabet_small as Ha. rewrite forallb_forall in Ha. specialize (Ha c). assert ((c <? 123)%N = true); [|lia]. apply Ha.
      apply in_or_app. destruct Hs as [Hs|Hs]; apply nth_error_In in Hs; [by left|by right].
Qed.
Lemma value_acc base ds acc : fold_left (fun a d => a * base + d) ds acc = acc * base ^ Z.of_nat (length ds) + value base ds.
Proof.
  unfold value. revert acc. induction ds as [|d ds IH]; intros acc.
  - cbn [fold_left length]. change (base ^ Z.of_nat 0) with 1. lia.
  - cbn [fold_left length]. rewrite IH. rewrite (IH (0 * base + d)). rewrite Nat2Z.inj_succ, Z.pow_succ_r by lia. ring.
Qed.
Lemma value_app base l1 l2 : value base (l1 ++ l2) = value base l1 * base ^ Z.of_nat (length l2) + value base l2.
Proof. unfold value at 1. rewrite fold_left_app. rewrite value_acc. done. Qed.
Lemma read_digits_spec base acc s n :
  read_digits base acc s = Some n <->
  exists ds, Forall2 (fun c d => stands_for c d /\ d < base) s ds /\ fold_left (fun a d => a * base + d) ds acc = n.
Proof.
  revert acc. induction s as [|c s IH]; intros acc; cbn [read_digits].
  - split; [intros [= <-]; by exists []|]. intros (ds & H & <-). by apply Forall2_nil_inv_l in H as ->.
  - split.
    + destruct (digit_value c) as [d|] eqn:Ed; [|done]. cbn [mbind option_bind]. destruct (Z.ltb_spec d base); [|done].
      intros (ds & H1 & H2)%IH. exists (d :: ds). split; [|done]. constructor; [|done]. split; [by apply digit_value_spec|done].
    + intros (ds & H & E). apply Forall2_cons_inv_l in H as (d & ds' & [Hd Hlt] & Hf & ->). apply digit_value_spec in Hd.
      rewrite Hd. cbn [mbind option_bind]. rewrite (proj2 (Z.ltb_lt _ _) Hlt). apply IH. by exists ds'.
Qed.
Lemma magnitude_read base s n : s <> [] -> read_digits base 0 s = Some n <-> magnitude base s n.
Proof. intros Hne. rewrite read_digits_spec. unfold magnitude, value. naive_solver. Qed.
Lemma fits_i64 n : checked 64 n = Some n <-> i64 n.
Proof. unfold checked, fits, int_min, int_max, i64. change (2 ^ (64 - 1)) with (2 ^ 63). destruct (_ && _) eqn:E; split; intros; try done; try lia. Qed.
Lemma checked_64 n m : checked 64 n = Some m <-> n = m /\ i64 n.
Proof. rewrite <- fits_i64. unfold checked. destruct (fits 64 n); naive_solver. Qed.
Lemma sign_not_digit base s n c s' : magnitude base s n -> s = c :: s' -> c <> 43%N /\ c <> 45%N.
Proof.
  intros (_ & ds & H & _) ->. apply Forall2_cons_inv_l in H as (d & ds' & [Hd _] & _). apply digit_value_spec in Hd.
  split; intros ->; vm_compute in Hd; discriminate Hd.
Qed.
Lemma from_plus base c s : from_str_radix base (str "+" ++ c :: s) = n ← read_digits base 0 (c :: s); checked 64 (1 * n).
Proof. reflexivity. Qed.
Lemma from_minus base c s : from_str_radix base (str "-" ++ c :: s) = n ← read_digits base 0 (c :: s); checked 64 (-1 * n).
Proof. reflexivity. Qed.
Lemma from_str_radix_spec base s n : from_str_radix base s = Some n <-> number base s n /\ i64 n.
Proof.
  unfold number. split.
  - unfold from_str_radix. destruct s as [|c s]; [done|]. destruct (N.eqb_spec c 45) as [->|H1]; [|destruct (N.eqb_spec c 43) as [->|H2]].
    + destruct s as [|c s]; [done|]. destruct (read_digits base 0 (c :: s)) as [m|] eqn:E; [|done]. cbn [mbind option_bind].
      intros [<- Hf]%checked_64. apply magnitude_read in E; [|done]. split; [|done]. right; right. exists (c :: s). split; [done|].
      by replace (- (-1 * m)) with m by lia.
    + destruct s as [|c s]; [done|]. destruct (read_digits base 0 (c :: s)) as [m|] eqn:E; [|done]. cbn [mbind option_bind].
      intros [<- Hf]%checked_64. apply magnitude_read in E; [|done]. split; [|done]. right; left. exists (c :: s). split; [done|].
      by replace (1 * m) with m by lia.
    + destruct (read_digits base 0 (c :: s)) as [m|] eqn:E; [|done]. cbn [mbind option_bind].
      intros [<- Hf]%checked_64. apply magnitude_read in E; [|done]. split; [|done]. left. by replace (1 * m) with m by lia.
  - intros [[Hm|[(s' & -> & Hm)|(s' & -> & Hm)]] Hf].
    + pose proof (sign_not_digit base s n) as Hs. unfold from_str_radix. destruct s as [|c s]; [by destruct Hm as [? _]|].
      destruct (Hs c s Hm eq_refl) as [H1 H2]. destruct (N.eqb_spec c 45); [done|]. destruct (N.eqb_spec c 43); [done|].
      apply magnitude_read in Hm; [|done]. rewrite Hm. cbn [mbind option_bind]. rewrite Z.mul_1_l. by apply fits_i64.
    + destruct s' as [|c s']; [by destruct Hm as [? _]|]. apply magnitude_read in Hm; [|done].
      rewrite from_plus, Hm. cbn [mbind option_bind]. rewrite Z.mul_1_l. by apply fits_i64.
    + destruct s' as [|c s']; [by destruct Hm as [? _]|]. apply magnitude_read in Hm; [|done].
      rewrite from_minus, Hm. cbn [mbind option_bind]. replace (-1 * - n) with n by lia. by apply fits_i64.
Qed.
Lemma digit_char_spec d : 0 <= d < 36 -> stands_for (digit_char d) d /\ (48 <= Z.of_N (digit_char d) <= 57 \/ 65 <= Z.of_N (digit_char d) <= 90) /\ (digit_char d = 48%N -> d = 0).
Proof.
  intros H. rewrite <- digit_value_spec. unfold digit_char, digit_value.
  destruct (Z.ltb_spec d 10).
  - replace (0 <=? d) with true by lia. cbn [andb]. replace ((48 <=? Z.to_N (48 + d)) && (Z.to_N (48 + d) <=? 57))%N with true by lia. split; [f_equal; lia|lia].
  - replace ((0 <=? d) && false) with false by lia. replace ((10 <=? d) && (d <? 36)) with true by lia.
    replace ((48 <=? Z.to_N (55 + d)) && (Z.to_N (55 + d) <=? 57))%N with false by lia.
    replace ((65 <=? Z.to_N (55 + d)) && (Z.to_N (55 + d) <=? 90))%N with true by lia. split; [f_equal; lia|lia].
Qed.
Lemma radix_digits_spec fuel n base : 2 <= base <= 36 -> 0 < n < 2 ^ Z.of_nat fuel ->
  exists ds, Forall2 (fun c d => stands_for c d /\ d < base) (rev (radix_digits fuel n base)) ds /\ value base ds = n /\
    (forall c, c ∈ radix_digits fuel n base -> 48 <= Z.of_N c <= 57 \/ 65 <= Z.of_N c <= 90) /\
    (exists c l, rev (radix_digits fuel n base) = c :: l /\ c <> 48%N).
Proof.
  intros Hb. revert n. induction fuel as [|fuel IH]; intros n Hn; [change (2 ^ Z.of_nat 0) with 1 in Hn; lia|].
  rewrite Nat2Z.inj_succ, Z.pow_succ_r in Hn by lia. cbn [radix_digits].
  rewrite Z.rem_mod_nonneg, Z.quot_div_nonneg by lia. pose proof (Z.mod_pos_bound n base ltac:(lia)) as Hm.
  rewrite (Z.mod_small (n mod base) 256) by lia. destruct (digit_char_spec (n mod base) ltac:(lia)) as (D1 & D2 & D3).
  pose proof (Z.div_mod n base ltac:(lia)) as Hdm.
  destruct (Z.eqb_spec (n / base) 0) as [E|E].
  - exists [n mod base]. split; [|split; [|split]].
    + cbn. constructor; [|constructor]. split; [done|lia].
    + unfold value. cbn [fold_left]. lia.
    + intros c ->%elem_of_list_singleton. done.
    + exists (digit_char (n mod base)), []. split; [done|]. intros H%D3. lia.
  - assert (0 <= n / base) by (apply Z.div_pos; lia).
    destruct (IH (n / base)) as (ds & F & V & C & (c & l & L & N)).
    { split; [lia|]. apply Z.div_lt_upper_bound; [lia|]. nia. }
    cbn [rev]. exists (ds ++ [n mod base]). split; [|split; [|split]].
    + apply Forall2_app; [done|]. constructor; [|constructor]. split; [done|lia].
    + rewrite value_app, V. unfold value. cbn [fold_left length]. change (base ^ Z.of_nat 1) with (base ^ 1). rewrite Z.pow_1_r. lia.
    + intros c' [->|H']%elem_of_cons; [done|by apply C].
    + exists c, (l ++ [digit_char (n mod base)]). by rewrite L.
Qed.
Lemma to_radix_string_spec n base : 2 <= base <= 36 -> - 2 ^ 63 < n < 2 ^ 63 -> number base (to_radix_string n base) n /\ shortest (to_radix_string n base).
Proof.
  intros Hb Hn. unfold to_radix_string. destruct (Z.eqb_spec n 0) as [->|Hz].
  { split; [|by left]. left. split; [done|]. exists [0]. split; [|done]. constructor; [|constructor]. split; [|lia]. by apply digit_value_spec. }
  assert (wrap 64 (Z.abs n) = Z.abs n) as ->. { unfold wrap. change (2 ^ (64 - 1)) with (2 ^ 63). rewrite Z.mod_small; lia. }
  assert (0 < Z.abs n < 2 ^ Z.of_nat 64) as Hr. { change (2 ^ Z.of_nat 64) with (2 * 2 ^ 63). lia. }
  destruct (radix_digits_spec 64 (Z.abs n) base Hb Hr) as (ds & F & V & C & (c & l & L & N)). set (r := radix_digits 64 (Z.abs n) base) in *. clearbody r.
  assert (forall m, m = Z.abs n -> magnitude base (rev r) m) as HM. { intros m ->. split; [by rewrite L|]. by exists ds. }
  destruct (Z.ltb_spec n 0).
  - rewrite rev_app_distr. change (rev (str "-") ++ rev r) with (str "-" ++ rev r). split.
    + right; right. exists (rev r). split; [done|]. apply HM. lia.
    + right. exists (rev r). split; [by right|]. split; [|intros c' r' E; congruence]. intros c' H'. apply C. apply elem_of_list_In, in_rev, elem_of_list_In. done.
  - split; [left; apply HM; lia|]. right. exists (rev r). split; [by left|]. split; [|intros c' r' E; congruence]. intros c' H'. apply C. apply elem_of_list_In, in_rev, elem_of_list_In. done.
Qed.
Lemma bases from to : negb ((2 <=? from) && (from <=? 36)) || negb ((2 <=? to) && (to <=? 36)) = false <-> 2 <= from <= 36 /\ 2 <= to <= 36.
Proof. lia. Qed.

(** ** C87 *)
(** conv returns NULL exactly for wrong bases and for texts that are not a number of 64 bits. *)
Theorem C87_conv_null s from to :
  conv_column (Some s) from to <> None <-> 2 <= from <= 36 /\ 2 <= to <= 36 /\ exists n, number from s n /\ i64 n.
Proof.
  unfold conv_column. destruct (_ || _) eqn:Eb.
  - split; [done|]. intros (H1 & H2 & _). exfalso. assert (negb ((2 <=? from) && (from <=? 36)) || negb ((2 <=? to) && (to <=? 36)) = false) by (by apply bases). congruence.
  - apply bases in Eb as [Hf Ht]. cbn [mbind option_bind]. destruct (from_str_radix from s) as [n|] eqn:E; cbn [mbind option_bind].
    + split; [|done]. intros _. split; [done|]. split; [done|]. exists n. by apply from_str_radix_spec.
    + split; [done|]. intros (_ & _ & n & Hn). apply from_str_radix_spec in Hn. congruence.
Qed.
Print Assumptions C87_conv_null.
(** Otherwise it is the shortest text of the same number in the other base. *)
Theorem C87_conv s from to t : conv_column (Some s) from to = Some t ->
  exists n, number from s n /\ i64 n /\ (n <> - 2 ^ 63 -> number to t n /\ shortest t).
Proof.
  unfold conv_column. destruct (_ || _) eqn:Eb; [done|]. apply bases in Eb as [Hf Ht]. cbn [mbind option_bind].
  destruct (from_str_radix from s) as [n|] eqn:E; [|done]. cbn [mbind option_bind]. intros [= <-]. apply from_str_radix_spec in E as [E1 E2].
  exists n. split; [done|]. split; [done|]. intros Hn. apply to_radix_string_spec; [done|]. unfold i64 in E2. lia.
Qed.
Print Assumptions C87_conv.
Example C87_conv_example :
  conv_column (Some (str "-fF")) 16 2 = Some (str "-11111111") /\ conv_column (Some (str "0012")) 3 10 = Some (str "5") /\
  conv_column (Some (str "12")) 2 10 = None /\ conv_column (Some (str "9223372036854775808")) 10 16 = None.
Proof. split_and!; vm_compute; reflexivity. Qed.
(** Converting to another base and back gives the same number. *)
Theorem C87_conv_back s from to t u n :
  conv_column (Some s) from to = Some t -> number from s n -> n <> - 2 ^ 63 ->
  conv_column (Some t) to from = Some u -> number from u n.
Proof.
  intros H1 Hn Hmin H2. destruct (C87_conv _ _ _ _ H1) as (n1 & A1 & A2 & A3). destruct (C87_conv _ _ _ _ H2) as (n2 & B1 & B2 & B3).
  assert (forall b x m m', number b x m -> i64 m -> number b x m' -> i64 m' -> m = m') as U.
  { intros b x m m' X1 X2 Y1 Y2. assert (from_str_radix b x = Some m) as Z1 by (by apply from_str_radix_spec). assert (from_str_radix b x = Some m') as Z2 by (by apply from_str_radix_spec). congruence. }
  assert (forall b x m m', number b x m -> number b x m' -> m = m') as U'.
  { intros b x m m' X Y. assert (forall y k k', magnitude b y k -> magnitude b y k' -> k = k') as M.
    { intros y k k' K K'. assert (y <> []) as Hne by apply K. apply magnitude_read in K; [|done]. apply magnitude_read in K'; [|done]. congruence. }
    destruct X as [X|[(x1 & -> & X)|(x1 & -> & X)]], Y as [Y|[(y1 & E & Y)|(y1 & E & Y)]].
    - by eapply M.
    - subst x. by destruct (sign_not_digit _ _ _ _ _ X eq_refl).
    - subst x. by destruct (sign_not_digit _ _ _ _ _ X eq_refl).
    - by destruct (sign_not_digit _ _ _ _ _ Y eq_refl).
    - injection E as <-. by eapply M.
    - done.
    - by destruct (sign_not_digit _ _ _ _ _ Y eq_refl).
    - done.
    - injection E as <-. pose proof (M _ _ _ X Y). lia. }
  pose proof (U' _ _ _ _ A1 Hn) as ->. destruct (A3 Hmin) as [A4 _]. pose proof (U' _ _ _ _ A4 B1) as <-. by apply B3.
Qed.
Print Assumptions C87_conv_back.
(** The least number comes out as something that is not a number. *)
Theorem C87_conv_least_refuted : exists s t from to, number from s (- 2 ^ 63) /\ conv_column (Some s) from to = Some t /\ conv_column (Some t) to from = None.
Proof.
  exists (str "-9223372036854775808"), (to_radix_string (- 2 ^ 63) 16), 10, 16. split; [|split].
  - apply from_str_radix_spec. vm_compute. reflexivity.
  - vm_compute. reflexivity.
  - vm_compute. reflexivity.
Qed.
Print Assumptions C87_conv_least_refuted.
(** A constant NULL is read as a number in base 36, although NULL in a column stays NULL. *)
Theorem C87_constant_null_refuted : exists from to t, conv_column None from to = None /\ conv_constant None from to = Some t /\ t = str "1112745".
Proof. exists 36, 10, (str "1112745"). split_and!; vm_compute; reflexivity. Qed.
Print Assumptions C87_constant_null_refuted.
(** Ints mean different numbers in a column and as a constant. *)
Theorem C87_int_column_refuted : exists n from to, conv_int_column (Some n) from to = Some (str "101") /\ conv_int_constant (Some n) from to = Some (str "5").
Proof. exists 101, 2, 10. split; vm_compute; reflexivity. Qed.
Print Assumptions C87_int_column_refuted.
(** For constants the text of the decimal number is read in the first base. *)
Theorem C87_int_constant n from to t : - 2 ^ 63 < n < 2 ^ 63 -> conv_int_constant (Some n) from to = Some t ->
  exists s m, number 10 s n /\ shortest s /\ number from s m /\ (m <> - 2 ^ 63 -> number to t m).
Proof.
  intros Hn H. unfold conv_int_constant, conv_constant in H. cbn [mbind option_bind default from_option] in H.
  destruct (C87_conv _ _ _ _ H) as (m & A1 & A2 & A3). destruct (to_radix_string_spec n 10 ltac:(lia) Hn) as [B1 B2].
  exists (to_radix_string n 10), m. split_and!; try done. intros Hm. by apply A3.
Qed.
Print Assumptions C87_int_constant.

(** bin shows the 64 bits of a number, without the zeros in front. *)
Lemma bits_spec k v : Forall2 (fun c d => stands_for c d /\ d < 2) (bits k v) (map (fun c => Z.of_N c - 48) (bits k v)) /\
  value 2 (map (fun c => Z.of_N c - 48) (bits k v)) = v mod 2 ^ Z.of_nat k /\ length (bits k v) = k.
Proof.
  induction k as [|k (IH1 & IH2 & IH3)]; [split_and!; [constructor|by rewrite Z.mod_1_r|done]|]. cbn [bits map].
  set (b := (v / 2 ^ Z.of_nat k) mod 2). pose proof (Z.mod_pos_bound (v / 2 ^ Z.of_nat k) 2 ltac:(lia)) as Hb. fold b in Hb. split; [|split].
  - constructor; [|done]. destruct (b =? 1); (split; [apply digit_value_spec; vm_compute; reflexivity|done]).
  - change (?x :: ?l) with ([x] ++ l) at 1. rewrite value_app, IH2, map_length, IH3.
    assert (value 2 [Z.of_N (if b =? 1 then 49%N else 48%N) - 48] = b) as ->. { unfold value. cbn [fold_left]. destruct (Z.eqb_spec b 1); lia. }
    rewrite Nat2Z.inj_succ, Z.pow_succ_r by lia. assert (0 < 2 ^ Z.of_nat k) as Hp by (apply Z.pow_pos_nonneg; lia).
    rewrite (Z.mul_comm 2). rewrite Z.rem_mul_r by lia. fold b. lia.
  - cbn. by rewrite IH3.
Qed.
Theorem C87_bin n : i64 n ->
  magnitude 2 (bin n) (n mod 2 ^ 64) /\ (n < 0 -> length (bin n) = 64%nat) /\ (0 <= n -> shortest (bin n)).
Proof.
  intros Hn. unfold bin. assert (forall k, (0 < k)%nat -> n mod 2 ^ 64 < 2 ^ Z.of_nat k -> magnitude 2 (bits k (n mod 2 ^ 64)) (n mod 2 ^ 64)) as HM.
  { intros k Hk Hlt. destruct (bits_spec k (n mod 2 ^ 64)) as (B1 & B2 & B3). split; [intros E; rewrite E in B3; cbn in B3; lia|].
    eexists. split; [exact B1|]. rewrite B2. apply Z.mod_small. split; [|done]. apply Z.mod_pos_bound. lia. }
  destruct (Z.leb_spec 0 n) as [H0|H0].
  - rewrite (Z.mod_small n) in * by (unfold i64 in Hn; lia). split; [|split; [lia|]].
    + apply HM; [lia|]. destruct (Z.eqb_spec n 0) as [->|Hz]; [done|]. rewrite Z2Nat.id by lia. pose proof (Z.log2_spec n ltac:(lia)). pose proof (Z.log2_nonneg n).
      rewrite Z.max_l by lia. rewrite Z.add_1_r. lia.
    + intros _. destruct (Z.eqb_spec n 0) as [->|Hz]; [by left|]. right. pose proof (Z.log2_spec n ltac:(lia)) as Hl. pose proof (Z.log2_nonneg n).
      rewrite Z.max_l by lia. replace (Z.to_nat (Z.log2 n + 1)) with (S (Z.to_nat (Z.log2 n))) by lia. eexists. split; [by left|]. split.
      * generalize (S (Z.to_nat (Z.log2 n))) as k. clear. induction k as [|k IH]; intros c Hc; [by apply elem_of_nil in Hc|].
        cbn [bits] in Hc. apply elem_of_cons in Hc as [->|Hc]; [|by apply IH]. destruct (_ =? 1); lia.
      * intros c r E. cbn [bits] in E. injection E as <- _. rewrite Z2Nat.id by lia.
        assert (n / 2 ^ Z.log2 n = 1) as ->; [|done]. symmetry. apply (Z.div_unique n (2 ^ Z.log2 n) 1 (n - 2 ^ Z.log2 n)); [|lia].
        left. rewrite <- Z.add_1_r, Z.pow_add_r in Hl by lia. change (2 ^ 1) with 2 in Hl. lia.
  - split; [|split; [intros _; apply bits_spec|lia]]. apply HM; [lia|]. change (2 ^ Z.of_nat 64) with (2 ^ 64). apply Z.mod_pos_bound. lia.
Qed.
Print Assumptions C87_bin.
Example C87_bin_example : bin 13 = str "1101" /\ bin 0 = str "0" /\ bin (-2) = str "1111111111111111111111111111111111111111111111111111111111111110".
Proof. split_and!; vm_compute; reflexivity. Qed.

(** unhex accepts exactly the texts of hexadecimal digits, and keeps their number. *)
Lemma unhex_digit_spec c d : unhex_digit c = Some d <-> stands_for c (Z.of_N d) /\ (d < 16)%N.
Proof.
  rewrite <- digit_value_spec. unfold unhex_digit, digit_value.
  destruct ((48 <=? c) && (c <=? 57))%N eqn:E1; [split; [intros [= <-]; split; [f_equal; lia|lia]|intros [[= H] _]; f_equal; lia]|].
  destruct ((65 <=? c) && (c <=? 70))%N eqn:E2.
  { replace ((65 <=? c) && (c <=? 90))%N with true by lia. split; [intros [= <-]; split; [f_equal; lia|lia]|intros [[= H] _]; f_equal; lia]. }
  destruct ((65 <=? c) && (c <=? 90))%N eqn:E3.
  { replace ((97 <=? c) && (c <=? 102))%N with false by lia. split; [done|]. intros [[= H] ?]. lia. }
  destruct ((97 <=? c) && (c <=? 102))%N eqn:E4.
  { replace ((97 <=? c) && (c <=? 122))%N with true by lia. split; [intros [= <-]; split; [f_equal; lia|lia]|intros [[= H] _]; f_equal; lia]. }
  destruct ((97 <=? c) && (c <=? 122))%N eqn:E5; [|split; [done|by intros [? _]]]. split; [done|]. intros [[= H] ?]. lia.
Qed.
Lemma nibbles_check : forallb (fun x => forallb (fun y => (N.lor (N.shiftl x 4) y =? 16 * x + y)%N) (map N.of_nat (seq 0 16))) (map N.of_nat (seq 0 16)) = true.
Proof. vm_compute. reflexivity. Qed.
Lemma nibbles x y : (x < 16)%N -> (y < 16)%N -> N.lor (N.shiftl x 4) y = (16 * x + y)%N.
Proof.
  intros Hx Hy. pose proof nibbles_check as H. rewrite forallb_forall in H. specialize (H x). rewrite in_map_iff in H.
  specialize (H ltac:(exists (N.to_nat x); split; [lia|apply in_seq; lia])). rewrite forallb_forall in H. specialize (H y). rewrite in_map_iff in H.
  specialize (H ltac:(exists (N.to_nat y); split; [lia|apply in_seq; lia])). lia.
Qed.
Definition bytes_of (s : text) (b : list N) : Prop :=
  exists ds, Forall2 (fun c d => stands_for c d /\ d < 16) s ds /\
    Forall (fun x => x < 256)%N b /\ (length b = (length s + 1) / 2)%nat /\ value 256 (map Z.of_N b) = value 16 ds.
Lemma value_bound base ds : 2 <= base -> Forall (fun d => 0 <= d < base) ds -> 0 <= value base ds < base ^ Z.of_nat (length ds).
Proof.
  intros Hb. induction ds as [|d ds IH]; [done|]. intros [Hd Hds]%Forall_cons_1. specialize (IH Hds).
  change (d :: ds) with ([d] ++ ds). rewrite value_app. unfold value at 1 3. cbn [fold_left app length]. rewrite Nat2Z.inj_succ, Z.pow_succ_r by lia. nia.
Qed.
Lemma value_inj base l1 l2 : 2 <= base -> length l1 = length l2 -> Forall (fun d => 0 <= d < base) l1 -> Forall (fun d => 0 <= d < base) l2 ->
  value base l1 = value base l2 -> l1 = l2.
Proof.
  intros Hb. revert l2. induction l1 as [|x l1 IH]; intros [|y l2] Hl F1 F2 E; try done. apply Forall_cons_1 in F1 as [Hx F1]. apply Forall_cons_1 in F2 as [Hy F2].
  injection Hl as Hl. change (x :: l1) with ([x] ++ l1) in E. change (y :: l2) with ([y] ++ l2) in E. rewrite !value_app, Hl in E.
  pose proof (value_bound base l1 Hb F1) as V1. pose proof (value_bound base l2 Hb F2) as V2. rewrite Hl in V1. unfold value at 1 3 in E. cbn [fold_left] in E.
  assert (x = y) as -> by nia. f_equal. apply IH; [done..|]. lia.
Qed.
Lemma unhex_pairs_spec s : Nat.odd (length s) = false -> (forall b, unhex_pairs s = Some b -> bytes_of s b) /\
  (forall ds, Forall2 (fun c d => stands_for c d /\ d < 16) s ds -> exists b, unhex_pairs s = Some b).
Proof.
  assert (forall k s, (length s <= k)%nat -> Nat.odd (length s) = false -> (forall b, unhex_pairs s = Some b -> bytes_of s b) /\
    (forall ds, Forall2 (fun c d => stands_for c d /\ d < 16) s ds -> exists b, unhex_pairs s = Some b)) as H; [|by apply (H (length s))].
  clear s. induction k as [|k IH]; intros s Hk Ho.
  - destruct s; [|cbn in Hk; lia]. split; [|by exists []]. intros b [= <-]. exists []. split_and!; try done; constructor.
  - destruct s as [|a [|c s]]; [|done|].
    + split; [|by exists []]. intros b [= <-]. exists []. split_and!; try done; constructor.
    + cbn [length] in Hk, Ho. assert (Nat.odd (length s) = false) as Ho' by (rewrite !Nat.odd_succ, Nat.even_succ in Ho; done).
      destruct (IH s ltac:(lia) Ho') as [IH1 IH2]. cbn [unhex_pairs]. split.
      * intros b. destruct (unhex_digit a) as [x|] eqn:Ea; [|done]. destruct (unhex_digit c) as [y|] eqn:Ec; [|done].
        destruct (unhex_pairs s) as [r|] eqn:Er; [|done]. cbn [mbind option_bind]. intros [= <-].
        apply unhex_digit_spec in Ea as [Ea Hx]. apply unhex_digit_spec in Ec as [Ec Hy]. rewrite nibbles by done.
        destruct (IH1 r eq_refl) as (ds & F & B & L & V). exists (Z.of_N x :: Z.of_N y :: ds). split; [|split; [|split]].
        -- constructor; [split; [done|lia]|]. constructor; [split; [done|lia]|done].
        -- constructor; [lia|done].
        -- cbn [length]. rewrite L. replace (S (S (length s)) + 1)%nat with (length s + 1 + 1 * 2)%nat by lia. rewrite Nat.div_add by lia. lia.
        -- cbn [map]. change (?h :: ?t) with ([h] ++ t) at 1. rewrite value_app, V.
           change (Z.of_N x :: Z.of_N y :: ds) with ([Z.of_N x; Z.of_N y] ++ ds). rewrite value_app.
           assert (length ds = (2 * length (map Z.of_N r))%nat) as ->.
           { rewrite map_length, L. pose proof (Forall2_length _ _ _ F) as <-. assert (exists m, length s = (2 * m)%nat) as [m Hm].
             { rewrite <- Nat.negb_even in Ho'. apply negb_false_iff, Nat.even_spec in Ho' as [m ?]. by exists m. }
             rewrite Hm. replace (2 * m + 1)%nat with (1 + m * 2)%nat by lia. rewrite Nat.div_add by lia. cbn. lia. }
           rewrite Nat2Z.inj_mul, Z.pow_mul_r by lia. change (16 ^ Z.of_nat 2) with 256. unfold value at 1 3. cbn [fold_left]. lia.
      * intros ds F. apply Forall2_cons_inv_l in F as (d1 & ds1 & [D1 B1] & F & ->). apply Forall2_cons_inv_l in F as (d2 & ds2 & [D2 B2] & F & ->).
        destruct (IH2 ds2 F) as [r ->]. assert (unhex_digit a = Some (Z.to_N d1)) as ->.
        { apply unhex_digit_spec. pose proof D1 as [H0 _]. rewrite Z2N.id by done. split; [done|lia]. }
        assert (unhex_digit c = Some (Z.to_N d2)) as ->. { apply unhex_digit_spec. pose proof D2 as [H0 _]. rewrite Z2N.id by done. split; [done|lia]. }
        cbn [mbind option_bind]. eauto.
Qed.
Theorem C87_unhex s b : unhex s = Some b <-> bytes_of s b.
Proof.
  assert (forall b, unhex s = Some b -> bytes_of s b) as H1.
  { clear b. intros b. unfold unhex. destruct (Nat.odd (length s)) eqn:Ho; [|by apply unhex_pairs_spec].
    destruct s as [|a s]; [done|]. cbn [length] in Ho. rewrite Nat.odd_succ in Ho. assert (Nat.odd (length s) = false) as Ho' by (by rewrite <- Nat.negb_even, Ho).
    destruct (unhex_digit a) as [x|] eqn:Ea; [|done]. destruct (unhex_pairs s) as [r|] eqn:Er; [|done]. cbn [mbind option_bind]. intros [= <-].
    apply unhex_digit_spec in Ea as [Ea Hx]. destruct (proj1 (unhex_pairs_spec s Ho') r Er) as (ds & F & B & L & V). exists (Z.of_N x :: ds).
    assert (exists m, length s = (2 * m)%nat) as [m Hm]. { apply Nat.even_spec in Ho as [m ?]. by exists m. }
    assert (length r = m) as Hr. { rewrite L, Hm. replace (2 * m + 1)%nat with (1 + m * 2)%nat by lia. rewrite Nat.div_add by lia. done. }
    split; [|split; [|split]].
    - constructor; [split; [done|lia]|done].
    - constructor; [lia|done].
    - cbn [length]. rewrite Hr, Hm. replace (S (2 * m) + 1)%nat with ((1 + m) * 2)%nat by lia. rewrite Nat.div_mul by lia. done.
    - cbn [map]. change (?h :: ?t) with ([h] ++ t) at 1. rewrite value_app, V. change (Z.of_N x :: ds) with ([Z.of_N x] ++ ds). rewrite value_app.
      pose proof (Forall2_length _ _ _ F) as <-. rewrite map_length, Hr, Hm. rewrite Nat2Z.inj_mul, Z.pow_mul_r by lia. change (16 ^ Z.of_nat 2) with 256. unfold value at 1 3. cbn [fold_left]. lia. }
  split; [apply H1|]. intros (ds & F & B & L & V).
  assert (exists b', unhex s = Some b') as [b' Hb'].
  { unfold unhex. destruct (Nat.odd (length s)) eqn:Ho; [|by eapply unhex_pairs_spec].
    destruct s as [|a s]; [eauto|]. cbn [length] in Ho. rewrite Nat.odd_succ in Ho. assert (Nat.odd (length s) = false) as Ho' by (by rewrite <- Nat.negb_even, Ho).
    apply Forall2_cons_inv_l in F as (d1 & ds1 & [D1 B1] & F & ->). destruct (proj2 (unhex_pairs_spec s Ho') ds1 F) as [r ->].
    assert (unhex_digit a = Some (Z.to_N d1)) as ->. { apply unhex_digit_spec. pose proof D1 as [H0 _]. rewrite Z2N.id by done. split; [done|lia]. }
    cbn [mbind option_bind]. eauto. }
  rewrite Hb'. f_equal. destruct (H1 _ Hb') as (ds' & F' & B' & L' & V').
  assert (ds' = ds) as ->.
  { clear -F F'. revert ds F ds' F'. induction s as [|c s IH]; intros ds F ds' F'.
    - apply Forall2_nil_inv_l in F as ->. by apply Forall2_nil_inv_l in F' as ->.
    - apply Forall2_cons_inv_l in F as (d & r & [D _] & F & ->). apply Forall2_cons_inv_l in F' as (d' & r' & [D' _] & F' & ->).
      apply digit_value_spec in D. apply digit_value_spec in D'. f_equal; [congruence|]. by apply IH. }
  assert (map Z.of_N b' = map Z.of_N b) as E.
  { apply (value_inj 256); [lia|rewrite !map_length; congruence|..|congruence]; apply list.Forall_forall; intros z (x & <- & Hx)%elem_of_list_In%in_map_iff;
      apply elem_of_list_In in Hx; [eapply list.Forall_forall in B'; [|exact Hx]|eapply list.Forall_forall in B; [|exact Hx]]; lia. }
  clear -E. revert b E. induction b' as [|x b' IH]; intros [|y b] E; try done. cbn in E. injection E as E1 E2. f_equal; [lia|by apply IH].
Qed.
Print Assumptions C87_unhex.
Example C87_unhex_example : unhex (str "1fF") = Some [1; 255]%N /\ unhex (str "1G") = None /\ unhex (str "") = Some [].
Proof. split_and!; vm_compute; reflexivity. Qed.
(** hex and back. *)
Theorem C87_hex_unhex b : Forall (fun x => x < 256)%N b -> unhex (hex b) = Some b.
Proof.
  intros Hb. assert (Nat.odd (length (hex b)) = false /\ unhex_pairs (hex b) = Some b) as [H1 H2]; [|unfold unhex; by rewrite H1].
  induction Hb as [|x b Hx _ [IH1 IH2]]; [done|]. cbn [hex flat_map app]. fold (hex b).
  split; [cbn [length]; by rewrite !Nat.odd_succ, Nat.even_succ|]. cbn [unhex_pairs]. rewrite IH2.
  assert (forall n, (n < 16)%N -> unhex_digit (hex_digit n) = Some n) as Hd.
  { intros n Hn. unfold hex_digit, unhex_digit. destruct (N.ltb_spec n 10).
    - replace ((48 <=? 48 + n) && (48 + n <=? 57))%N with true by lia. f_equal. lia.
    - replace ((48 <=? 55 + n) && (55 + n <=? 57))%N with false by lia. replace ((65 <=? 55 + n) && (55 + n <=? 70))%N with true by lia. f_equal. lia. }
  assert (x / 16 < 16)%N as Hx1 by (apply N.div_lt_upper_bound; lia). assert (x mod 16 < 16)%N as Hx2 by (apply N.mod_lt; lia).
  rewrite !Hd by done. cbn [mbind option_bind]. rewrite nibbles by done. do 2 f_equal. pose proof (N.div_mod x 16 ltac:(lia)). lia.
Qed.
Print Assumptions C87_hex_unhex.
Example C87_hex_example : hex [1; 171; 255]%N = str "01ABFF".
Proof. vm_compute. reflexivity. Qed.
