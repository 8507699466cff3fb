(** Byte strings: lists of byte values, with decimal and big-endian numbers.
    Text is its UTF-8 bytes. *)
From Coq Require Import NArith ZifyN Ascii String Lia.
From stdpp Require Import prelude list strings.
Local Open Scope N_scope.

Notation text := (list N).
Definition is_byte (b : N) : Prop := b < 256.
(** A string literal. *)
Definition str (s : string) : text := map N_of_ascii (list_ascii_of_string s).

(** Lexicographic order, the order of object store paths. *)
Fixpoint tlt (a b : text) : bool :=
  match a, b with
  | _, [] => false
  | [], _ :: _ => true
  | x :: a', y :: b' => (x <? y) || ((x =? y) && tlt a' b')
  end.

(** Does [s] end with [suf]? *)
Definition ends_with (s suf : text) : bool :=
  bool_decide (length suf <= length s)%nat && bool_decide (drop (length s - length suf) s = suf).
Definition starts_with (s pre : text) : bool := bool_decide (take (length pre) s = pre).
(** Does [s] contain [sub]? *)
Fixpoint contains (s sub : text) : bool :=
  starts_with s sub || match s with [] => false | _ :: s' => contains s' sub end.

(** The [k] lowest decimal digits of [n], most significant first. *)
Fixpoint digits (k : nat) (n : N) : text :=
  match k with
  | O => []
  | S k => digits k (n / 10) ++ [48 + n mod 10]
  end.
Definition is_digit (c : N) : bool := (48 <=? c) && (c <=? 57).
Definition dec_value (s : text) : N := fold_left (fun a c => a * 10 + (c - 48)) s 0.

(** Big-endian bytes. *)
Fixpoint be_bytes (k : nat) (n : N) : text :=
  match k with
  | O => []
  | S k => be_bytes k (n / 256) ++ [n mod 256]
  end.
Definition be_value (s : text) : N := fold_left (fun a c => a * 256 + c) s 0.

(** ** Facts *)
Lemma length_str s : length (str s) = String.length s.
Proof. unfold str. rewrite map_length. induction s; cbn; [done|by f_equal]. Qed.

Lemma digits_length k n : length (digits k n) = k.
Proof. revert n. induction k as [|k IH]; intros n; [done|]. cbn. rewrite app_length, IH. cbn. lia. Qed.
Lemma be_bytes_length k n : length (be_bytes k n) = k.
Proof. revert n. induction k as [|k IH]; intros n; [done|]. cbn. rewrite app_length, IH. cbn. lia. Qed.

Lemma digits_are_digits k n : Forall (fun c => is_digit c = true) (digits k n).
Proof.
  revert n. induction k as [|k IH]; intros n; [constructor|]. cbn [digits].
  apply Forall_app. split; [apply IH|]. constructor; [|constructor].
  unfold is_digit. pose proof (N.mod_lt n 10 ltac:(done)).
  apply andb_true_iff. split; apply N.leb_le. all: lia.
Qed.
Lemma be_bytes_are_bytes k n : Forall is_byte (be_bytes k n).
Proof.
  revert n. induction k as [|k IH]; intros n; [constructor|]. cbn [be_bytes].
  apply Forall_app. split; [apply IH|]. constructor; [|constructor].
  unfold is_byte. by apply N.mod_lt.
Qed.

Lemma pow_succ_nat b k : b ^ N.of_nat (S k) = b * b ^ N.of_nat k.
Proof. rewrite Nat2N.inj_succ, N.pow_succ_r'. done. Qed.

Lemma dec_value_app s t : dec_value (s ++ [t]) = dec_value s * 10 + (t - 48).
Proof. unfold dec_value. by rewrite fold_left_app. Qed.
Lemma be_value_app s t : be_value (s ++ [t]) = be_value s * 256 + t.
Proof. unfold be_value. by rewrite fold_left_app. Qed.

Lemma dec_value_digits k n : n < 10 ^ N.of_nat k -> dec_value (digits k n) = n.
Proof.
  revert n. induction k as [|k IH]; intros n Hn.
  - change (10 ^ N.of_nat 0) with 1 in Hn. cbn. lia.
  - rewrite pow_succ_nat in Hn. cbn [digits]. rewrite dec_value_app, IH.
    + pose proof (N.div_mod n 10 ltac:(done)). lia.
    + apply N.div_lt_upper_bound; lia.
Qed.
Lemma be_value_bytes k n : n < 256 ^ N.of_nat k -> be_value (be_bytes k n) = n.
Proof.
  revert n. induction k as [|k IH]; intros n Hn.
  - change (256 ^ N.of_nat 0) with 1 in Hn. cbn. lia.
  - rewrite pow_succ_nat in Hn. cbn [be_bytes]. rewrite be_value_app, IH.
    + pose proof (N.div_mod n 256 ltac:(done)). lia.
    + apply N.div_lt_upper_bound; lia.
Qed.
Lemma be_value_bound s : Forall is_byte s -> be_value s < 256 ^ N.of_nat (length s).
Proof.
  induction s as [|c s IH] using rev_ind; intros Hs; [done|].
  apply Forall_app in Hs as [Hs Hc]. apply Forall_inv in Hc. unfold is_byte in Hc.
  rewrite be_value_app, app_length, Nat.add_1_r, pow_succ_nat. specialize (IH Hs). lia.
Qed.
Lemma dec_value_bound s : Forall (fun c => is_digit c = true) s -> dec_value s < 10 ^ N.of_nat (length s).
Proof.
  induction s as [|c s IH] using rev_ind; intros Hs; [done|].
  apply Forall_app in Hs as [Hs Hc]. apply Forall_inv in Hc. unfold is_digit in Hc.
  apply andb_true_iff in Hc as [H1%N.leb_le H2%N.leb_le].
  rewrite dec_value_app, app_length, Nat.add_1_r, pow_succ_nat. specialize (IH Hs). lia.
Qed.
Lemma be_bytes_value s : Forall is_byte s -> be_bytes (length s) (be_value s) = s.
Proof.
  induction s as [|c s IH] using rev_ind; intros Hs; [done|].
  apply Forall_app in Hs as [Hs Hc]. apply Forall_inv in Hc. unfold is_byte in Hc.
  rewrite be_value_app, app_length, Nat.add_1_r. cbn [be_bytes].
  rewrite N.add_comm, N.div_add, N.mod_add, N.div_small, N.mod_small by lia.
  by rewrite N.add_0_l, IH.
Qed.
Lemma digits_value s : Forall (fun c => is_digit c = true) s -> digits (length s) (dec_value s) = s.
Proof.
  induction s as [|c s IH] using rev_ind; intros Hs; [done|].
  apply Forall_app in Hs as [Hs Hc]. apply Forall_inv in Hc. unfold is_digit in Hc.
  apply andb_true_iff in Hc as [H1%N.leb_le H2%N.leb_le].
  rewrite dec_value_app, app_length, Nat.add_1_r. cbn [digits].
  rewrite N.add_comm, N.div_add, N.mod_add, N.div_small, N.mod_small by lia.
  rewrite N.add_0_l, IH by done. do 2 f_equal. lia.
Qed.

(** Order of fixed-width numbers. *)
Lemma tlt_irrefl a : tlt a a = false.
Proof. induction a as [|x a IH]; [done|]. cbn. rewrite N.ltb_irrefl, N.eqb_refl, IH. done. Qed.
Lemma tlt_app_same p a b : tlt (p ++ a) (p ++ b) = tlt a b.
Proof. induction p as [|x p IH]; [done|]. cbn. by rewrite N.ltb_irrefl, N.eqb_refl, IH. Qed.
Lemma tlt_app_same_length a b x y :
  length a = length b ->
  tlt (a ++ x) (b ++ y) = tlt a b || (bool_decide (a = b) && tlt x y).
Proof.
  revert b. induction a as [|c a IH]; intros [|d b] Hl; cbn in *; try done.
  rewrite IH by lia. destruct (N.ltb_spec c d), (N.eqb_spec c d); cbn; try done; try lia.
  - subst. f_equal. destruct (decide (a = b)) as [->|]; [by rewrite !bool_decide_true|].
    rewrite !bool_decide_false; [done|congruence|done].
  - rewrite bool_decide_false; [done|congruence].
Qed.
Lemma tlt_digits k m n :
  m < 10 ^ N.of_nat k -> n < 10 ^ N.of_nat k -> tlt (digits k m) (digits k n) = (m <? n).
Proof.
  revert m n. induction k as [|k IH]; intros m n Hm Hn.
  - change (10 ^ N.of_nat 0) with 1 in *. cbn. symmetry. apply N.ltb_ge. lia.
  - rewrite pow_succ_nat in *. cbn [digits].
    rewrite tlt_app_same_length by (by rewrite !digits_length).
    assert (m / 10 < 10 ^ N.of_nat k) as Hm' by (apply N.div_lt_upper_bound; lia).
    assert (n / 10 < 10 ^ N.of_nat k) as Hn' by (apply N.div_lt_upper_bound; lia).
    rewrite IH by done.
    pose proof (N.div_mod m 10 ltac:(done)). pose proof (N.div_mod n 10 ltac:(done)).
    pose proof (N.mod_lt m 10 ltac:(done)). pose proof (N.mod_lt n 10 ltac:(done)).
    destruct (decide (digits k (m / 10) = digits k (n / 10))) as [He|He].
    + rewrite bool_decide_true by done.
      apply (f_equal dec_value) in He. rewrite !dec_value_digits in He by done.
      cbn [tlt]. rewrite andb_false_r, orb_false_r. cbn.
      destruct (N.ltb_spec (m / 10) (n / 10)); [lia|]. cbn.
      destruct (N.ltb_spec (48 + m mod 10) (48 + n mod 10)), (N.ltb_spec m n); try done; lia.
    + rewrite bool_decide_false by done. rewrite andb_false_l, orb_false_r.
      assert (m / 10 <> n / 10) by congruence.
      destruct (N.ltb_spec (m / 10) (n / 10)), (N.ltb_spec m n); try done; lia.
Qed.

Lemma ends_with_app s suf : ends_with (s ++ suf) suf = true.
Proof.
  unfold ends_with. rewrite app_length.
  rewrite bool_decide_true by lia. cbn. apply bool_decide_true.
  replace (length s + length suf - length suf)%nat with (length s) by lia. apply drop_app.
Qed.
Lemma ends_with_inv s suf : ends_with s suf = true -> exists p, s = p ++ suf.
Proof.
  unfold ends_with. intros [_ H%bool_decide_eq_true]%andb_true_iff.
  exists (take (length s - length suf) s). by rewrite <- H at 2; rewrite take_drop.
Qed.
