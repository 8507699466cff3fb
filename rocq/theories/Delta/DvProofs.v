From Coq Require Import NArith ZArith ZifyN Lia String.
From stdpp Require Import prelude list strings.
From Verif.Lib Require Import Text.
From Verif.Delta Require Import DvModel.
Local Open Scope N_scope.

(** ** Z85 *)
Lemma z85_value_char v : v < 85 -> z85_value (default 0 (z85_chars !! N.to_nat v)) = Some v.
Proof.
  intros Hv.
  assert (forall n, (n < 85)%nat -> z85_value (default 0 (z85_chars !! n)) = Some (N.of_nat n)) as H.
  { intros n Hn.
    assert (forallb (fun n => bool_decide (z85_value (default 0 (z85_chars !! n)) = Some (N.of_nat n))) (seq 0 85) = true) as Hall
      by (by vm_compute).
    rewrite forallb_forall in Hall. specialize (Hall n). rewrite bool_decide_eq_true in Hall.
    apply Hall. apply in_seq. lia. }
  rewrite H by lia. by rewrite N2Nat.id.
Qed.

Lemma z85_digits_length k v : length (z85_digits k v) = k.
Proof. revert v. induction k as [|k IH]; intros v; [done|]. cbn [z85_digits]. rewrite app_length, IH. cbn. lia. Qed.

Lemma z85_digits_value k v :
  v < 85 ^ N.of_nat k ->
  exists vs, mapM z85_value (z85_digits k v) = Some vs /\ fold_left (fun a v => a * 85 + v) vs 0 = v.
Proof.
  revert v. induction k as [|k IH]; intros v Hv.
  - change (85 ^ N.of_nat 0) with 1 in Hv. exists []. split; [done|]. cbn. lia.
  - rewrite pow_succ_nat in Hv. cbn [z85_digits].
    destruct (IH (v / 85)) as (vs & Hm & Hf); [apply N.div_lt_upper_bound; lia|].
    exists (vs ++ [v mod 85]). split.
    + apply mapM_Some. apply mapM_Some in Hm. apply Forall2_app; [done|].
      constructor; [|constructor]. apply z85_value_char. by apply N.mod_lt.
    + rewrite fold_left_app, Hf. cbn. pose proof (N.div_mod v 85 ltac:(done)). lia.
Qed.

Lemma chunks_cons fuel n (c l : text) :
  (0 < n)%nat -> length c = n -> (length (c ++ l) <= fuel)%nat ->
  chunks fuel n (c ++ l) = c :: chunks (fuel - 1) n l.
Proof.
  intros Hn Hc Hf. rewrite app_length in Hf. destruct fuel as [|fuel]; [lia|]. cbn [chunks].
  rewrite decide_False by (rewrite app_length; lia).
  rewrite <- Hc, take_app, drop_app. by replace (S fuel - 1)%nat with fuel by lia.
Qed.
Lemma chunks_fuel fuel fuel' n (l : text) :
  (0 < n)%nat -> (length l <= fuel)%nat -> (length l <= fuel')%nat -> chunks fuel n l = chunks fuel' n l.
Proof.
  intros Hn. revert fuel' l. induction fuel as [|fuel IH]; intros fuel' l H1 H2.
  - destruct l; [|cbn in H1; lia]. destruct fuel'; [done|]. cbn. by rewrite decide_True by (cbn; lia).
  - destruct fuel' as [|fuel'].
    + destruct l; [|cbn in H2; lia]. cbn. by rewrite decide_True by (cbn; lia).
    + cbn [chunks]. destruct (decide _); [done|]. f_equal. apply IH; rewrite drop_length; lia.
Qed.

(** Lists whose length is a multiple of [n], chunk by chunk. *)
Lemma chunk_ind n (P : text -> Prop) :
  (0 < n)%nat -> P [] -> (forall c l, length c = n -> P l -> P (c ++ l)) ->
  forall l, Nat.modulo (length l) n = 0%nat -> P l.
Proof.
  intros Hn H0 H1 l. remember (length l) as m eqn:Hm. revert l Hm.
  induction (lt_wf m) as [m _ IH]; intros l Hm Hmod.
  destruct (decide (m < n)%nat) as [Hlt|Hge].
  - rewrite Nat.mod_small in Hmod by done. destruct l; [done|cbn in Hm; lia].
  - rewrite <- (take_drop n l). apply H1; [rewrite take_length; lia|].
    apply (IH (m - n)%nat); [lia|rewrite drop_length; lia|].
    replace m with ((m - n) + 1 * n)%nat in Hmod by lia. by rewrite Nat.mod_add in Hmod by lia.
Qed.

Lemma be_bound4 c : Forall is_byte c -> length c = 4%nat -> be_value c < 2 ^ 32.
Proof. intros Hb Hl. pose proof (be_value_bound c Hb) as H. rewrite Hl in H. exact H. Qed.

Lemma z85_group_digits c :
  Forall is_byte c -> length c = 4%nat -> z85_group (z85_digits 5 (be_value c)) = Some c.
Proof.
  intros Hb Hl. pose proof (be_bound4 c Hb Hl) as Hv.
  destruct (z85_digits_value 5 (be_value c)) as (vs & Hm & Hf).
  { eapply N.lt_trans; [exact Hv|]. done. }
  unfold z85_group. rewrite Hm. cbn [mbind option_bind]. rewrite Hf, N.mod_small by done.
  rewrite <- Hl. by rewrite be_bytes_value.
Qed.

Lemma z85_roundtrip data :
  Forall is_byte data -> Nat.modulo (length data) 4 = 0%nat ->
  exists t, z85_encode data = Some t /\ (length t * 4 = length data * 5)%nat /\ z85_decode t = Some data.
Proof.
  intros Hb Hmod. unfold z85_encode. rewrite decide_True by done. eexists. split; [done|].
  revert Hb. revert data Hmod.
  refine (chunk_ind 4 (fun data => Forall is_byte data ->
    (length (flat_map (fun c => z85_digits 5 (be_value c)) (chunks (length data) 4 data)) * 4 = length data * 5)%nat /\
    z85_decode (flat_map (fun c => z85_digits 5 (be_value c)) (chunks (length data) 4 data)) = Some data) _ _ _);
    [lia|done|].
  intros c l Hc IH [Hbc Hbl]%Forall_app. specialize (IH Hbl).
  rewrite chunks_cons by (try done; lia). cbn [flat_map].
  rewrite (chunks_fuel _ (length l)) by (rewrite ?app_length; lia).
  set (t := flat_map _ _) in *. destruct IH as [Hlen Hdec].
  split; [rewrite !app_length, z85_digits_length; lia|].
  unfold z85_decode in *. rewrite app_length, z85_digits_length in *.
  destruct (decide (Nat.modulo (length t) 5 = 0)%nat) as [Hm|]; [|done].
  rewrite decide_True.
  2:{ replace (5 + length t)%nat with (length t + 1 * 5)%nat by lia. by rewrite Nat.mod_add. }
  rewrite chunks_cons by (try rewrite app_length; rewrite ?z85_digits_length; lia).
  rewrite (chunks_fuel _ (length t)) by lia.
  cbn [mapM]. rewrite z85_group_digits by done. cbn [mbind option_bind].
  destruct (mapM z85_group _) as [gs|]; [|done]. cbn in Hdec |- *. injection Hdec as <-. done.
Qed.

Lemma z85_padded_roundtrip data :
  Forall is_byte data ->
  exists t zeros, z85_encode_padded data = Some t /\ z85_decode t = Some (data ++ replicate zeros 0) /\ (zeros < 4)%nat.
Proof.
  intros Hb. unfold z85_encode_padded. set (z := Nat.modulo (4 - Nat.modulo (length data) 4) 4).
  assert (z < 4)%nat by (apply Nat.mod_upper_bound; lia).
  destruct (z85_roundtrip (data ++ replicate z 0)) as (t & He & _ & Hd).
  - apply Forall_app. split; [done|]. apply Forall_replicate. done.
  - rewrite app_length, replicate_length. subst z.
    pose proof (Nat.div_mod (length data) 4 ltac:(lia)) as Hdm.
    pose proof (Nat.mod_upper_bound (length data) 4 ltac:(lia)) as Hub.
    set (r := Nat.modulo (length data) 4) in *. set (q := Nat.div (length data) 4) in *.
    rewrite Hdm. destruct (decide (r = 0)%nat) as [->|Hr].
    + change (Nat.modulo (4 - 0) 4) with 0%nat. rewrite !Nat.add_0_r, Nat.mul_comm. by apply Nat.mod_mul.
    + rewrite (Nat.mod_small (4 - r)) by lia.
      replace (4 * q + r + (4 - r))%nat with ((q + 1) * 4)%nat by lia. by apply Nat.mod_mul.
  - by exists t, z.
Qed.

(** ** CRC-32 *)
Lemma div2_bits s i : N.testbit (N.div2 s) i = N.testbit s (N.succ i).
Proof. rewrite N.div2_spec, N.shiftr_spec', N.add_1_r. done. Qed.
Lemma high_bit s : s < 2 ^ 32 -> N.testbit s 32 = false.
Proof.
  intros H. destruct (decide (s = 0)) as [->|Hs]; [done|].
  apply N.bits_above_log2. apply N.log2_lt_pow2; lia.
Qed.
Lemma lxor_bound a b : a < 2 ^ 32 -> b < 2 ^ 32 -> N.lxor a b < 2 ^ 32.
Proof.
  intros Ha Hb. destruct (decide (N.lxor a b = 0)) as [->|Hn]; [done|].
  apply N.log2_lt_pow2; [lia|]. eapply N.le_lt_trans; [apply N.log2_lxor|].
  apply N.max_lub_lt.
  - destruct (decide (a = 0)) as [->|]; [done|]. apply N.log2_lt_pow2; lia.
  - destruct (decide (b = 0)) as [->|]; [done|]. apply N.log2_lt_pow2; lia.
Qed.
Lemma div2_bound s : s < 2 ^ 32 -> N.div2 s < 2 ^ 32.
Proof. intros H. rewrite N.div2_div. eapply N.le_lt_trans; [apply N.div_le_upper_bound with (q := s); lia|done]. Qed.
Lemma crc_bit_bound s : s < 2 ^ 32 -> crc_bit s < 2 ^ 32.
Proof.
  intros H. unfold crc_bit. pose proof (div2_bound s H).
  destruct (N.odd s); [apply lxor_bound; done|done].
Qed.
Lemma lxor_inj_l a b c : N.lxor a c = N.lxor b c -> a = b.
Proof.
  intros H. apply (f_equal (fun x => N.lxor x c)) in H.
  by rewrite !N.lxor_assoc, N.lxor_nilpotent, !N.lxor_0_r in H.
Qed.
Lemma lxor_inj_r a b c : N.lxor c a = N.lxor c b -> a = b.
Proof. rewrite !(N.lxor_comm c). apply lxor_inj_l. Qed.
Lemma crc_bit_top s : s < 2 ^ 32 -> N.testbit (crc_bit s) 31 = N.odd s.
Proof.
  intros H. unfold crc_bit. destruct (N.odd s) eqn:E.
  - rewrite N.lxor_spec, div2_bits. change (N.succ 31) with 32. by rewrite high_bit.
  - rewrite div2_bits. by apply high_bit.
Qed.
Lemma crc_bit_inj s t : s < 2 ^ 32 -> t < 2 ^ 32 -> crc_bit s = crc_bit t -> s = t.
Proof.
  intros Hs Ht He.
  assert (N.odd s = N.odd t) as Ho by (by rewrite <- !crc_bit_top, He).
  unfold crc_bit in He. rewrite Ho in He.
  assert (N.div2 s = N.div2 t) as Hd by (destruct (N.odd t); [by eapply lxor_inj_l|done]).
  rewrite (N.div2_odd s), (N.div2_odd t), Hd, Ho. done.
Qed.
Lemma iter_bound n s : s < 2 ^ 32 -> Nat.iter n crc_bit s < 2 ^ 32.
Proof. intros H. induction n; [done|]. cbn. by apply crc_bit_bound. Qed.
Lemma iter_inj n s t :
  s < 2 ^ 32 -> t < 2 ^ 32 -> Nat.iter n crc_bit s = Nat.iter n crc_bit t -> s = t.
Proof.
  intros Hs Ht. induction n as [|n IH]; [done|]. cbn. intros He. apply IH.
  apply crc_bit_inj in He; [done| |]; by apply iter_bound.
Qed.
Lemma byte_bound b : is_byte b -> b < 2 ^ 32.
Proof. unfold is_byte. intros. eapply N.lt_trans; [done|]. done. Qed.
Lemma crc_byte_bound s b : s < 2 ^ 32 -> is_byte b -> crc_byte s b < 2 ^ 32.
Proof. intros Hs Hb. apply iter_bound, lxor_bound; [done|by apply byte_bound]. Qed.
Lemma crc_byte_inj_state s t b :
  s < 2 ^ 32 -> t < 2 ^ 32 -> is_byte b -> crc_byte s b = crc_byte t b -> s = t.
Proof.
  intros Hs Ht Hb He. pose proof (byte_bound b Hb).
  apply iter_inj in He; [by eapply lxor_inj_l| |]; by apply lxor_bound.
Qed.
Lemma crc_byte_inj_byte s b c :
  s < 2 ^ 32 -> is_byte b -> is_byte c -> crc_byte s b = crc_byte s c -> b = c.
Proof.
  intros Hs Hb Hc He. pose proof (byte_bound b Hb). pose proof (byte_bound c Hc).
  apply iter_inj in He; [by eapply lxor_inj_r| |]; by apply lxor_bound.
Qed.
Lemma fold_bound l s : s < 2 ^ 32 -> Forall is_byte l -> fold_left crc_byte l s < 2 ^ 32.
Proof.
  revert s. induction l as [|b l IH]; intros s Hs Hl; [done|].
  apply Forall_cons in Hl as [Hb Hl]. cbn. apply IH; [by apply crc_byte_bound|done].
Qed.
Lemma fold_inj l s t :
  s < 2 ^ 32 -> t < 2 ^ 32 -> Forall is_byte l ->
  fold_left crc_byte l s = fold_left crc_byte l t -> s = t.
Proof.
  revert s t. induction l as [|b l IH]; intros s t Hs Ht Hl He; [done|].
  apply Forall_cons in Hl as [Hb Hl]. cbn in He.
  apply IH in He; [by eapply crc_byte_inj_state| | |done]; by apply crc_byte_bound.
Qed.
Lemma crc32_bound l : Forall is_byte l -> crc32 l < 2 ^ 32.
Proof. intros. apply lxor_bound; [by apply fold_bound|done]. Qed.

(** Changing one byte changes the checksum. *)
Lemma crc32_one_byte l1 b c l2 :
  Forall is_byte l1 -> Forall is_byte l2 -> is_byte b -> is_byte c ->
  crc32 (l1 ++ b :: l2) = crc32 (l1 ++ c :: l2) -> b = c.
Proof.
  intros H1 H2 Hb Hc He. unfold crc32 in He. apply lxor_inj_l in He.
  rewrite !fold_left_app in He. cbn in He.
  pose proof (fold_bound l1 0xFFFFFFFF ltac:(done) H1) as Hs.
  apply fold_inj in He; [by eapply crc_byte_inj_byte| | |done]; by apply crc_byte_bound.
Qed.

(** ** The file *)
Lemma as_u32_small n : N.of_nat n < 2 ^ 32 -> as_u32 n = N.of_nat n.
Proof. intros. by apply N.mod_small. Qed.
Lemma as_i32_small n : (Z.of_nat n < 2 ^ 31)%Z -> as_i32 n = Z.of_nat n.
Proof.
  intros H. unfold as_i32. rewrite Z.mod_small by lia.
  by destruct (Z.ltb_spec (Z.of_nat n) (2 ^ 31)); [|lia].
Qed.

(** How a file with a sound header is read. *)
Lemma read_dv_shape hdr body sz :
  length hdr = 4%nat -> (0 <= sz)%Z ->
  read_dv (1 :: hdr ++ body) dv_offset sz =
  (let n := N.to_nat (be_value hdr) in
   if decide (length body < n + 4)%nat then None
   else if decide (be_value (take 4 (drop n body)) = crc32 (take n body)) then Some (take n body) else None).
Proof.
  intros Hh Hs. unfold read_dv, dv_offset. cbn [default from_option].
  rewrite decide_False by (intros H; by apply H).
  destruct (Z.ltb_spec sz 0); [lia|]. change (id 1%Z) with 1%Z. change (1 <? 0)%Z with false.
  change (Z.to_nat 1) with 1%nat.
  change (length (1 :: hdr ++ body)) with (S (length (hdr ++ body))). rewrite app_length, Hh.
  rewrite decide_False by lia.
  change (drop 1 (1 :: hdr ++ body)) with (hdr ++ body).
  assert (take 4 (hdr ++ body) = hdr) as -> by (rewrite <- Hh; apply take_app).
  assert (forall k, drop (1 + 4 + k) (1 :: hdr ++ body) = drop k body) as Hdrop.
  { intros k. change (1 + 4 + k)%nat with (S (4 + k)). cbn [drop]. rewrite <- Hh, <- drop_drop, drop_app. done. }
  pose proof (Hdrop 0%nat) as Hdrop0. rewrite drop_0, Nat.add_0_r in Hdrop0.
  rewrite Hdrop, Hdrop0.
  cbn zeta. set (n := N.to_nat (be_value hdr)).
  destruct (decide (length body < n + 4)%nat).
  - rewrite decide_True by lia. done.
  - rewrite decide_False by lia. done.
Qed.

Definition sound_bitmap (bitmap : text) : Prop :=
  Forall is_byte bitmap /\ (Z.of_nat (length bitmap) < 2 ^ 31)%Z.

Lemma header_value bitmap :
  sound_bitmap bitmap -> be_value (be_bytes 4 (as_u32 (length bitmap))) = N.of_nat (length bitmap).
Proof.
  intros [_ Hl]. assert (N.of_nat (length bitmap) < 2 ^ 32) by lia.
  rewrite as_u32_small by done. by apply be_value_bytes.
Qed.
Lemma size_nonneg bitmap : sound_bitmap bitmap -> (0 <= dv_size bitmap)%Z.
Proof. intros [_ Hl]. unfold dv_size. rewrite as_i32_small by done. lia. Qed.

Lemma dv_roundtrip bitmap :
  sound_bitmap bitmap -> read_dv (dv_file bitmap) dv_offset (dv_size bitmap) = Some bitmap.
Proof.
  intros Hb. pose proof Hb as [Hbytes Hl]. unfold dv_file.
  rewrite read_dv_shape by (try apply be_bytes_length; by apply size_nonneg).
  cbn zeta. rewrite header_value by done. rewrite Nat2N.id.
  rewrite app_length, be_bytes_length. rewrite decide_False by lia.
  rewrite take_app, drop_app.
  rewrite take_ge by (rewrite be_bytes_length; lia).
  rewrite be_value_bytes by (by apply crc32_bound). by rewrite decide_True.
Qed.

(** Several bitmaps in one file, as other writers make them. *)
Lemma read_dv_default data size : read_dv data None size = read_dv data (Some 1%Z) size.
Proof. done. Qed.
Lemma dv_at_offset pre post bitmap size :
  sound_bitmap bitmap -> (0 <= size)%Z ->
  read_dv (1 :: pre ++ be_bytes 4 (as_u32 (length bitmap)) ++ bitmap ++ be_bytes 4 (crc32 bitmap) ++ post)
    (Some (1 + Z.of_nat (length pre))%Z) size = Some bitmap.
Proof.
  intros Hb Hsz. pose proof Hb as [Hbytes Hl]. unfold read_dv. rewrite decide_False by (intros H; by apply H).
  destruct (Z.ltb_spec size 0); [lia|]. cbn [default from_option]. change (id ?x) with x.
  destruct (Z.ltb_spec (1 + Z.of_nat (length pre)) 0); [lia|].
  replace (Z.to_nat (1 + Z.of_nat (length pre))) with (S (length pre)) by lia.
  set (hdr := be_bytes 4 (as_u32 (length bitmap))).
  assert (Hh : length hdr = 4%nat) by apply be_bytes_length.
  set (crc := be_bytes 4 (crc32 bitmap)). assert (Hc : length crc = 4%nat) by apply be_bytes_length.
  assert (Hlen : length (1 :: pre ++ hdr ++ bitmap ++ crc ++ post) =
                 (1 + (length pre + (4 + (length bitmap + (4 + length post)))))%nat).
  { cbn [length]. rewrite !app_length, Hh, Hc. lia. }
  rewrite Hlen. rewrite decide_False by lia.
  assert (Hd : forall k, drop (S (length pre) + k) (1 :: pre ++ hdr ++ bitmap ++ crc ++ post) =
                         drop k (hdr ++ bitmap ++ crc ++ post)).
  { intros k. change (S (length pre) + k)%nat with (S (length pre + k)). cbn [drop].
    rewrite <- drop_drop, drop_app. done. }
  pose proof (Hd 0%nat) as Hd0. rewrite Nat.add_0_r, drop_0 in Hd0. rewrite Hd0.
  assert (take 4 (hdr ++ bitmap ++ crc ++ post) = hdr) as -> by (rewrite <- Hh; apply take_app).
  unfold hdr. rewrite header_value by done. rewrite Nat2N.id. fold hdr. cbn zeta.
  rewrite (decide_False (P := (_ < _)%nat)) by lia.
  assert (Hd4 : forall k, drop (S (length pre) + 4 + k) (1 :: pre ++ hdr ++ bitmap ++ crc ++ post) =
                          drop k (bitmap ++ crc ++ post)).
  { intros k. rewrite <- Nat.add_assoc, Hd. rewrite <- Hh at 1. rewrite <- drop_drop, drop_app. done. }
  pose proof (Hd4 0%nat) as Hd40. rewrite Nat.add_0_r, drop_0 in Hd40. rewrite Hd40, Hd4.
  rewrite take_app, drop_app.
  assert (take 4 (crc ++ post) = crc) as -> by (rewrite <- Hc; apply take_app).
  unfold crc. rewrite be_value_bytes by (by apply crc32_bound). by rewrite decide_True.
Qed.

Lemma dv_truncated bitmap n :
  sound_bitmap bitmap -> (n < length (dv_file bitmap))%nat ->
  read_dv (take n (dv_file bitmap)) dv_offset (dv_size bitmap) = None.
Proof.
  intros Hb Hn. pose proof Hb as [_ Hl].
  destruct (decide (n < 5)%nat) as [Hs|Hs].
  - assert (length (take n (dv_file bitmap)) <= 4)%nat as Hlen by (rewrite take_length; lia).
    unfold read_dv, dv_offset. destruct (take n (dv_file bitmap)) as [|v l]; [done|].
    destruct (decide (v <> 1)); [done|]. destruct (dv_size bitmap <? 0)%Z; [done|]. cbn [default from_option].
    change (id 1%Z) with 1%Z. change (1 <? 0)%Z with false. change (Z.to_nat 1) with 1%nat. rewrite decide_True by lia. done.
  - unfold dv_file in *. destruct n as [|n]; [lia|]. cbn [take].
    rewrite take_app_ge by (rewrite be_bytes_length; lia). rewrite be_bytes_length.
    rewrite read_dv_shape by (try apply be_bytes_length; by apply size_nonneg).
    cbn zeta. rewrite header_value by done. rewrite Nat2N.id.
    cbn [length] in Hn. rewrite !app_length, !be_bytes_length in Hn.
    rewrite decide_True; [done|]. rewrite take_length, app_length, be_bytes_length. lia.
Qed.

Lemma be_value_inj a b :
  Forall is_byte a -> Forall is_byte b -> length a = length b -> be_value a = be_value b -> a = b.
Proof. intros Ha Hb Hl He. rewrite <- (be_bytes_value a), <- (be_bytes_value b), Hl, He by done. done. Qed.

(** One damaged byte outside the size field. *)
Lemma dv_damaged_byte bitmap i b c :
  sound_bitmap bitmap -> dv_file bitmap !! i = Some b -> is_byte c -> b <> c ->
  (i = 0 \/ 5 <= i)%nat ->
  read_dv (<[i := c]> (dv_file bitmap)) dv_offset (dv_size bitmap) = None.
Proof.
  intros Hb Hi Hc Hne Hpos. pose proof Hb as [Hbytes Hl].
  pose proof (crc32_bound bitmap Hbytes) as Hcrc.
  destruct Hpos as [->|Hpos].
  { unfold dv_file in *. cbn in Hi. injection Hi as <-. cbn [insert list_insert].
    unfold read_dv. rewrite decide_True by congruence. done. }
  unfold dv_file in *. destruct i as [|i]; [lia|].
  change ((be_bytes 4 (as_u32 (length bitmap)) ++ bitmap ++ be_bytes 4 (crc32 bitmap)) !! i = Some b) in Hi.
  change (<[S i := c]> (1 :: be_bytes 4 (as_u32 (length bitmap)) ++ bitmap ++ be_bytes 4 (crc32 bitmap)))
    with (1 :: <[i := c]> (be_bytes 4 (as_u32 (length bitmap)) ++ bitmap ++ be_bytes 4 (crc32 bitmap))).
  rewrite lookup_app_r in Hi by (rewrite be_bytes_length; lia).
  rewrite insert_app_r_alt by (rewrite be_bytes_length; lia).
  rewrite be_bytes_length in *. set (j := (i - 4)%nat) in *.
  rewrite read_dv_shape by (try apply be_bytes_length; by apply size_nonneg).
  cbn zeta. rewrite header_value by done. rewrite Nat2N.id.
  rewrite insert_length, app_length, be_bytes_length. rewrite decide_False by lia.
  destruct (decide (j < length bitmap)%nat) as [Hj|Hj].
  - rewrite lookup_app_l in Hi by done.
    rewrite insert_app_l by done.
    assert (length (<[j:=c]> bitmap) = length bitmap) as Hlen by apply insert_length.
    rewrite take_app_alt, drop_app_alt by done.
    rewrite take_ge by (rewrite be_bytes_length; lia).
    rewrite be_value_bytes by done.
    rewrite decide_False; [done|]. intros He. apply Hne.
    apply elem_of_list_split_length in Hi as (l1 & l2 & -> & Hjl). subst j.
    rewrite Hjl in He. rewrite insert_app_r_alt, Nat.sub_diag in He by lia. cbn in He.
    apply Forall_app in Hbytes as [H1 [Hb' H2]%Forall_cons].
    by apply crc32_one_byte in He.
  - rewrite lookup_app_r in Hi by lia. rewrite insert_app_r_alt by lia.
    rewrite take_app, drop_app.
    rewrite take_ge by (rewrite insert_length, be_bytes_length; lia).
    rewrite decide_False; [done|]. intros He. apply Hne.
    rewrite <- (be_value_bytes 4 (crc32 bitmap)) in He at 2 by done.
    apply be_value_inj in He.
    + apply (f_equal (lookup (j - length bitmap)%nat)) in He.
      rewrite list_lookup_insert in He by (by eapply lookup_lt_Some). rewrite Hi in He. congruence.
    + apply Forall_insert; [apply be_bytes_are_bytes|done].
    + apply be_bytes_are_bytes.
    + by rewrite insert_length.
Qed.

(** A size field that is too large. *)
Lemma dv_size_too_large bitmap hdr :
  sound_bitmap bitmap -> length hdr = 4%nat -> N.of_nat (length bitmap) < be_value hdr ->
  read_dv (1 :: hdr ++ bitmap ++ be_bytes 4 (crc32 bitmap)) dv_offset (dv_size bitmap) = None.
Proof.
  intros Hb Hh Hv. rewrite read_dv_shape by (try done; by apply size_nonneg). cbn zeta.
  rewrite decide_True; [done|]. rewrite app_length, be_bytes_length. lia.
Qed.

(** ** The location *)
Lemma uuid_string_length u : length u = 16%nat -> length (uuid_string u) = 36%nat.
Proof.
  intros Hu. unfold uuid_string.
  do 16 (destruct u as [|? u]; [done|]). destruct u; [done|done].
Qed.
Lemma dv_path u :
  Forall is_byte u -> length u = 16%nat ->
  exists field path, new_dv_path u = Some (field, path) /\ resolve_dv_path field = Some path.
Proof.
  intros Hb Hu. destruct (z85_roundtrip u Hb ltac:(by rewrite Hu)) as (t & He & Hl & Hd).
  unfold new_dv_path. rewrite He. cbn [mbind option_bind]. eexists _, _. split; [done|].
  assert (length t = 20)%nat by lia.
  pose proof (uuid_string_length u Hu) as Hul.
  set (p := take 2 (uuid_string u)). assert (length p = 2)%nat by (subst p; rewrite take_length; lia).
  unfold resolve_dv_path. rewrite app_length. rewrite decide_False by lia.
  replace (length p + length t - 20)%nat with (length p) by lia.
  rewrite take_app, drop_app, Hd. cbn [mbind option_bind]. rewrite decide_True by done.
  destruct p; [done|]. done.
Qed.
