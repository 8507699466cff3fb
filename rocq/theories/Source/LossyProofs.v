From Coq Require Import NArith Lia ZifyN ZifyBool.
From stdpp Require Import prelude list.
From Verif Require Import Source.Utf8Spec Source.LossyModel.
#[local] Open Scope N_scope.

Lemma is_continuation_spec b : byte_ok b -> is_continuation b = cont b.
Proof.
  intros Hb. unfold byte_ok in Hb.
  assert (forallb (fun n => Bool.eqb (is_continuation (N.of_nat n)) (cont (N.of_nat n))) (seq 0 256) = true)
    as H by (by vm_compute).
  rewrite forallb_forall in H. specialize (H (N.to_nat b)).
  rewrite N2Nat.id in H. apply Bool.eqb_prop, H, in_seq. lia.
Qed.
Lemma cont_spec b : cont b = true <-> continuation b.
Proof. unfold cont, in_range, continuation. lia. Qed.

(** from_utf8 accepts exactly UTF-8. *)
Lemma two_spec a b : two a b = true <-> utf8_char [a; b].
Proof. unfold two, cont, in_range, utf8_char, continuation. lia. Qed.
Lemma three_spec a b c : three a b c = true <-> utf8_char [a; b; c].
Proof. unfold three, cont, in_range, utf8_char, continuation. lia. Qed.
Lemma four_spec a b c d : four a b c d = true <-> utf8_char [a; b; c; d].
Proof. unfold four, cont, in_range, utf8_char, continuation. lia. Qed.

Lemma utf8_nil : utf8 [].
Proof. exists []. split; [done|constructor]. Qed.
Lemma utf8_cons c t : utf8_char c -> utf8 t -> utf8 (c ++ t).
Proof. intros Hc (cs & -> & Hcs). exists (c :: cs). split; [done|by constructor]. Qed.
Lemma utf8_app s t : utf8 s -> utf8 t -> utf8 (s ++ t).
Proof.
  intros (cs & -> & Hcs) (ds & -> & Hds). exists (cs ++ ds). split; [by rewrite concat_app|].
  by apply Forall_app.
Qed.
Lemma utf8_concat ls : Forall utf8 ls -> utf8 (concat ls).
Proof. induction 1; [apply utf8_nil|by apply utf8_app]. Qed.

Lemma from_utf8_char c t : utf8_char c -> from_utf8_ok (c ++ t) = from_utf8_ok t.
Proof.
  intros Hc. destruct c as [|a [|b [|c [|d [|]]]]]; try done.
  - cbn [app from_utf8_ok]. replace (a <=? 127) with true by (cbn in Hc; lia). done.
  - cbn [app from_utf8_ok]. replace (a <=? 127) with false by (cbn in Hc; lia).
    by rewrite (proj2 (two_spec a b) Hc).
  - cbn [app from_utf8_ok]. replace (a <=? 127) with false by (cbn in Hc; lia).
    replace (two a b) with false by (symmetry; apply not_true_iff_false; rewrite two_spec; cbn in *; lia).
    by rewrite (proj2 (three_spec a b c) Hc).
  - cbn [app from_utf8_ok]. replace (a <=? 127) with false by (cbn in Hc; lia).
    replace (two a b) with false by (symmetry; apply not_true_iff_false; rewrite two_spec; cbn in *; lia).
    replace (three a b c) with false by (symmetry; apply not_true_iff_false; rewrite three_spec; cbn in *; lia).
    by rewrite (proj2 (four_spec a b c d) Hc).
Qed.
Lemma from_utf8_spec t : from_utf8_ok t = true <-> utf8 t.
Proof.
  split.
  - remember (length t) as n eqn:Hn. revert t Hn.
    induction (lt_wf n) as [n _ IH]; intros t -> H.
    assert (forall c s, t = c ++ s -> c <> [] -> utf8_char c -> utf8 t) as Hstep.
    { intros c s -> Hne Hc. rewrite from_utf8_char in H by done. apply utf8_cons; [done|].
      eapply IH; [|done|done]. rewrite app_length. destruct c; [done|]. cbn. lia. }
    destruct t as [|a t]; [apply utf8_nil|]. cbn [from_utf8_ok] in H.
    destruct (a <=? 127) eqn:E1; [apply (Hstep [a] t); [done|done|cbn; lia]|].
    destruct t as [|b t]; [done|]. destruct (two a b) eqn:E2.
    { apply (Hstep [a; b] t); [done|done|by apply two_spec]. }
    destruct t as [|c t]; [done|]. destruct (three a b c) eqn:E3.
    { apply (Hstep [a; b; c] t); [done|done|by apply three_spec]. }
    destruct t as [|d t]; [done|]. apply andb_true_iff in H as [H4 H].
    apply utf8_cons with (c := [a; b; c; d]); [by apply four_spec|].
    eapply (IH (length t)); [cbn; lia|done|done].
  - intros (cs & -> & Hcs). induction Hcs as [|c cs Hc Hcs IH]; [done|]. cbn [concat].
    by rewrite from_utf8_char.
Qed.

(** Beginnings of characters, by length. *)
Lemma beginning_2 a b : beginning [a; b] ->
  continuation b /\ 0xc2 <= a <= 0xf4 /\ (a = 0xe0 -> 0xa0 <= b) /\ (a = 0xf0 -> 0x90 <= b) /\ (a = 0xf4 -> b <= 0x8f).
Proof.
  intros (c & Hc & [z ->]). cbn [app] in Hc.
  destruct z as [|z1 [|z2 [|]]]; cbn in Hc; unfold continuation in *; destruct Hc as [Hc|Hc]; try done; try lia.
Qed.
Lemma beginning_3 a b c : beginning [a; b; c] ->
  continuation b /\ continuation c /\ 0xe0 <= a <= 0xf4 /\
  (a = 0xe0 -> 0xa0 <= b) /\ (a = 0xf0 -> 0x90 <= b) /\ (a = 0xf4 -> b <= 0x8f).
Proof.
  intros (x & Hc & [z ->]). cbn [app] in Hc.
  destruct z as [|z1 [|]]; cbn in Hc; unfold continuation in *; destruct Hc as [Hc|Hc]; try done; try lia.
Qed.
Lemma beginning_4 a b c d : beginning [a; b; c; d] -> utf8_char [a; b; c; d].
Proof. intros (x & Hc & [z ->]). cbn [app] in Hc. destruct z as [|]; destruct Hc as [Hc|Hc]; done. Qed.
Lemma beginning_5 a b c d e m : ~ beginning (a :: b :: c :: d :: e :: m).
Proof. intros (x & Hc & [z ->]). cbn [app] in Hc. destruct Hc as [Hc|Hc]; done. Qed.

Lemma beginning_bytes a b c m : beginning (a :: b :: c :: m) -> 0xe0 <= a <= 0xf4 /\ continuation b /\ continuation c.
Proof.
  intros (x & Hc & [z ->]). cbn [app] in Hc.
  destruct (m ++ z) as [|d [|]]; cbn in Hc; unfold continuation in *; destruct Hc as [Hc|Hc]; try done; lia.
Qed.

(** The first step on a text. *)
Definition step_ok (t : list N) (u : unit8) (eoi : bool) : Prop :=
  match u with
  | Valid n => (0 < n <= length t)%nat /\ utf8_char (take n t)
  | Malformed n => (0 < n <= length t)%nat /\ malformed t (take n t)
  | Incomplete => eoi = false /\ (length t <= 3)%nat
  end.

Ltac inv_prefix H :=
  lazymatch type of H with
  | ?m `prefix_of` [] => apply prefix_nil_inv in H; subst
  | _ => idtac
  end.

Lemma no_char_1 a t : 0x7f < a -> (t = [] \/ exists b s, t = b :: s /\ ~ beginning [a; b]) ->
  ~ exists c, utf8_char c /\ c `prefix_of` a :: t.
Proof.
  intros Ha Ht (c & Hc & Hp). destruct c as [|a' c]; [done|].
  apply prefix_cons_inv_1 in Hp as Hp1. apply prefix_cons_inv_2 in Hp. subst a'.
  destruct c as [|b' c]; [cbn in Hc; lia|].
  destruct Ht as [->|(b & s & -> & Hb)]; [by apply prefix_nil_not in Hp|].
  apply prefix_cons_inv_1 in Hp as Hp1. subst b'. apply Hb. exists (a :: b :: c). split; [by left|].
  exists c. done.
Qed.

(** Enough to be malformed: nothing longer begins a character. *)
Lemma malformed_intro n t :
  (0 < n <= length t)%nat ->
  (n = 1%nat \/ beginning (take n t)) ->
  (forall k, (1 <= k <= n)%nat -> ~ utf8_char (take k t)) ->
  (forall m, (n < length m)%nat -> m `prefix_of` t -> ~ beginning m) ->
  malformed t (take n t).
Proof.
  intros Hn Hb Hshort Hlong. unfold malformed.
  assert (length (take n t) = n) as Hlen by (rewrite take_length; lia).
  split_and!.
  - intros (c & Hc & [s ->]). destruct (decide (length c <= n)%nat) as [Hle|Hgt].
    + apply (Hshort (length c)); [destruct c; [done|cbn in *; lia]|]. by rewrite take_app.
    + apply (Hlong c); [lia|by apply prefix_app_r|]. exists c. split; [by left|done].
  - exists (drop n t). by rewrite take_drop.
  - destruct Hb as [->|Hb]; [left; done|by right].
  - intros He. rewrite He in Hlen. cbn in Hlen. lia.
  - intros m Hp Hm. rewrite Hlen. destruct (decide (length m <= n)%nat); [done|].
    exfalso. apply (Hlong m); [lia|done|done].
Qed.

Lemma prefix_2 (m : list N) a t : (1 < length m)%nat -> m `prefix_of` a :: t ->
  exists b m' t', m = a :: b :: m' /\ t = b :: t' /\ m' `prefix_of` t'.
Proof.
  intros Hl [s Hs]. destruct m as [|x [|y m]]; cbn in Hl; [lia|lia|].
  cbn in Hs. injection Hs as -> ->. exists y, m, (m ++ s). split_and!; [done|done|by exists s].
Qed.
Lemma prefix_3 (m : list N) a b t : (2 < length m)%nat -> m `prefix_of` a :: b :: t ->
  exists c m' t', m = a :: b :: c :: m' /\ t = c :: t' /\ m' `prefix_of` t'.
Proof.
  intros Hl [s Hs]. destruct m as [|x [|y [|z m]]]; cbn in Hl; [lia|lia|lia|].
  cbn in Hs. injection Hs as -> -> ->. exists z, m, (m ++ s). split_and!; [done|done|by exists s].
Qed.
Lemma prefix_4 (m : list N) a b c t : (3 < length m)%nat -> m `prefix_of` a :: b :: c :: t ->
  exists d m' t', m = a :: b :: c :: d :: m' /\ t = d :: t' /\ m' `prefix_of` t'.
Proof.
  intros Hl [s Hs]. destruct m as [|x [|y [|z [|w m]]]]; cbn in Hl; [lia|lia|lia|lia|].
  cbn in Hs. injection Hs as -> -> -> ->. exists w, m, (m ++ s). split_and!; [done|done|by exists s].
Qed.

Lemma beginning_prefix m m' : m `prefix_of` m' -> beginning m' -> beginning m.
Proof. intros Hp (c & Hc & Hm). exists c. split; [done|]. by etrans. Qed.

(** One byte is malformed. *)
Lemma malformed_1 a t : 0x7f < a ->
  (forall b t', t = b :: t' -> ~ beginning [a; b]) -> malformed (a :: t) (take 1 (a :: t)).
Proof.
  intros Ha Hb. apply malformed_intro; [cbn; lia|by left| |].
  - intros k Hk. assert (k = 1%nat) as -> by lia. intros Hk1. cbn in Hk1. rewrite take_0 in Hk1. lia.
  - intros m Hl Hp Hm. destruct (prefix_2 m a t Hl Hp) as (b & m' & t' & -> & -> & _).
    apply (Hb b t' eq_refl). eapply beginning_prefix; [|exact Hm]. by exists m'.
Qed.
Lemma malformed_2 a b t : 0xdf < a -> beginning [a; b] ->
  (forall c t', t = c :: t' -> ~ beginning [a; b; c]) -> malformed (a :: b :: t) (take 2 (a :: b :: t)).
Proof.
  intros Ha Hab Hb. apply malformed_intro; [cbn; lia|by right| |].
  - intros k Hk. destruct k as [|[|[|]]]; [lia| | |lia]; intros Hk1; cbn in Hk1; rewrite ?take_0 in Hk1; lia.
  - intros m Hl Hp Hm. destruct (prefix_3 m a b t Hl Hp) as (c & m' & t' & -> & -> & _).
    apply (Hb c t' eq_refl). eapply beginning_prefix; [|exact Hm]. by exists m'.
Qed.
Lemma malformed_3 a b c t : 0xdf < a -> ~ utf8_char [a; b; c] -> beginning [a; b; c] ->
  (forall d t', t = d :: t' -> ~ beginning [a; b; c; d]) ->
  malformed (a :: b :: c :: t) (take 3 (a :: b :: c :: t)).
Proof.
  intros Ha Hn Hab Hb. apply malformed_intro; [cbn; lia|by right| |].
  - intros k Hk. destruct k as [|[|[|[|]]]]; [lia| | | |lia]; [intros Hk1; cbn in Hk1; rewrite ?take_0 in Hk1; lia|intros Hk1; cbn in Hk1; rewrite ?take_0 in Hk1; lia|done].
  - intros m Hl Hp Hm. destruct (prefix_4 m a b c t Hl Hp) as (d & m' & t' & -> & -> & _).
    apply (Hb d t' eq_refl). eapply beginning_prefix; [|exact Hm]. by exists m'.
Qed.

Lemma begins_2 a b : 0xc2 <= a <= 0xf4 -> continuation b ->
  (a = 0xe0 -> 0xa0 <= b) -> (a = 0xf0 -> 0x90 <= b) -> (a = 0xf4 -> b <= 0x8f) -> beginning [a; b].
Proof.
  intros Ha Hb H1 H2 H3. unfold beginning. destruct (decide (a <= 0xdf)).
  { exists [a; b]. split; [left; cbn; split; [lia|done]|done]. }
  destruct (decide (a <= 0xef)).
  - exists [a; b; 0x80]. split; [|by exists [0x80]].
    destruct (decide (a = 0xed /\ 0xa0 <= b)) as [[-> ?]|?].
    + right. cbn. unfold continuation in *. lia.
    + left. cbn. unfold continuation in *. lia.
  - exists [a; b; 0x80; 0x80]. split; [|by exists [0x80; 0x80]]. left. cbn. unfold continuation in *. lia.
Qed.
Lemma begins_3 a b c : 0xf0 <= a <= 0xf4 -> continuation b -> continuation c ->
  (a = 0xf0 -> 0x90 <= b) -> (a = 0xf4 -> b <= 0x8f) -> beginning [a; b; c].
Proof.
  intros Ha Hb Hc H2 H3. exists [a; b; c; 0x80]. split; [|by exists [0x80]]. left. cbn.
  unfold continuation in *. lia.
Qed.

Lemma classify_ok a t eoi : Forall byte_ok (a :: t) -> step_ok (a :: t) (classify_utf8_unit a t eoi) eoi.
Proof.
  intros Hok. unfold classify_utf8_unit.
  destruct (a <=? 127) eqn:E0.
  { cbn [step_ok]. split; [cbn; lia|]. cbn; rewrite ?take_0. lia. }
  assert (forall n, (0 < n <= 3)%nat -> (n <= length (a :: t))%nat ->
    length (a :: t) = n -> malformed (a :: t) (take n (a :: t)) ->
    step_ok (a :: t) (if eoi then Malformed n else Incomplete) eoi) as Hshort.
  { intros n Hn Hle Hlen Hm. destruct eoi; cbn [step_ok]; [|split; [done|lia]]. split; [lia|done]. }
  assert (forall m, 0 < 1 -> malformed (a :: t) (take 1 (a :: t)) -> step_ok (a :: t) (Malformed 1) m) as H1.
  { intros m _ Hm. cbn [step_ok]. split; [cbn; lia|done]. }
  destruct ((194 <=? a) && (a <=? 223)) eqn:E2.
  { (* two bytes *)
    destruct t as [|b t].
    { apply Hshort; [lia|cbn; lia|done|]. apply malformed_1; [lia|done]. }
    rewrite is_continuation_spec by (by apply Forall_cons in Hok as [_ Hok]; apply Forall_cons in Hok as [? _]).
    destruct (cont b) eqn:Eb.
    - cbn [step_ok]. split; [cbn; lia|]. cbn; rewrite ?take_0. apply cont_spec in Eb. split; [lia|done].
    - apply H1; [lia|]. apply malformed_1; [lia|]. intros b' t' [= <- <-] Hb.
      apply beginning_2 in Hb as [Hb _]. apply cont_spec in Hb. congruence. }
  destruct ((224 <=? a) && (a <=? 239)) eqn:E3.
  { (* three bytes *)
    destruct t as [|b t].
    { apply Hshort; [lia|cbn; lia|done|]. apply malformed_1; [lia|done]. }
    assert (byte_ok b) as Hb by (apply Forall_cons in Hok as [_ Hok]; by apply Forall_cons in Hok as [? _]).
    rewrite is_continuation_spec by done.
    destruct (negb (cont b) || ((a =? 224) && (b <? 160))) eqn:Eb.
    { apply H1; [lia|]. apply malformed_1; [lia|]. intros b' t' [= <- <-] Hbeg.
      apply beginning_2 in Hbeg as (Hcb & _ & Ha & _). apply cont_spec in Hcb. rewrite Hcb in Eb. cbn in Eb. lia. }
    assert (continuation b) as Hcb by (apply cont_spec; destruct (cont b); done).
    assert (beginning [a; b]) as Hbeg by (apply begins_2; [lia|done|lia|lia|lia]).
    destruct t as [|c t].
    { apply Hshort; [lia|cbn; lia|done|]. apply malformed_2; [lia|done|done]. }
    assert (byte_ok c) as Hc.
    { apply Forall_cons in Hok as [_ Hok]. apply Forall_cons in Hok as [_ Hok]. by apply Forall_cons in Hok as [? _]. }
    rewrite is_continuation_spec by done. destruct (cont c) eqn:Ec; cbn [negb].
    2:{ cbn [step_ok]. split; [cbn; lia|]. apply malformed_2; [lia|done|]. intros c' t' [= <- <-] Hbc.
        apply beginning_3 in Hbc as (_ & Hcc & _). apply cont_spec in Hcc. congruence. }
    apply cont_spec in Ec. destruct ((a =? 237) && (160 <=? b)) eqn:Es.
    - cbn [step_ok]. split; [cbn; lia|]. apply malformed_3; [lia|cbn; lia| |].
      + exists [a; b; c]. split; [|done]. right. cbn. unfold continuation in *. lia.
      + intros d t' _ Hd. apply beginning_4 in Hd. cbn in Hd. lia.
    - cbn [step_ok]. split; [cbn; lia|]. cbn; rewrite ?take_0. unfold continuation in *. lia. }
  destruct ((240 <=? a) && (a <=? 244)) eqn:E4.
  { (* four bytes *)
    destruct t as [|b t].
    { apply Hshort; [lia|cbn; lia|done|]. apply malformed_1; [lia|done]. }
    assert (byte_ok b) as Hb by (apply Forall_cons in Hok as [_ Hok]; by apply Forall_cons in Hok as [? _]).
    rewrite is_continuation_spec by done.
    destruct (negb (cont b) || ((a =? 240) && (b <? 144)) || ((a =? 244) && (143 <? b))) eqn:Eb.
    { apply H1; [lia|]. apply malformed_1; [lia|]. intros b' t' [= <- <-] Hbeg.
      apply beginning_2 in Hbeg as (Hcb & _ & Ha & Hf & Hg). apply cont_spec in Hcb. rewrite Hcb in Eb.
      cbn in Eb. lia. }
    apply orb_false_iff in Eb as [Eb Eb2]. apply orb_false_iff in Eb as [Eb Eb1].
    assert (continuation b) as Hcb by (apply cont_spec; destruct (cont b); done).
    assert (a = 240 -> 144 <= b) as Hf0 by (clear - Eb1; lia).
    assert (a = 244 -> b <= 143) as Hf4 by (clear - Eb2; lia).
    assert (beginning [a; b]) as Hbeg by (apply begins_2; [lia|done|lia|lia|lia]).
    destruct t as [|c t].
    { apply Hshort; [lia|cbn; lia|done|]. apply malformed_2; [lia|done|done]. }
    assert (byte_ok c) as Hc.
    { apply Forall_cons in Hok as [_ Hok]. apply Forall_cons in Hok as [_ Hok]. by apply Forall_cons in Hok as [? _]. }
    rewrite is_continuation_spec by done. destruct (cont c) eqn:Ec; cbn [negb].
    2:{ cbn [step_ok]. split; [cbn; lia|]. apply malformed_2; [lia|done|]. intros c' t' [= <- <-] Hbc.
        apply beginning_3 in Hbc as (_ & Hcc & _). apply cont_spec in Hcc. congruence. }
    apply cont_spec in Ec.
    assert (beginning [a; b; c]) as Hbeg3 by (apply begins_3; [lia|done|done|lia|lia]).
    assert (~ utf8_char [a; b; c]) as Hn3 by (cbn; lia).
    destruct t as [|d t].
    { apply Hshort; [lia|cbn; lia|done|]. apply malformed_3; [lia|done|done|done]. }
    assert (byte_ok d) as Hd.
    { do 3 apply Forall_cons in Hok as [_ Hok]. by apply Forall_cons in Hok as [? _]. }
    rewrite is_continuation_spec by done. destruct (cont d) eqn:Ed.
    - cbn [step_ok]. split; [cbn; lia|]. apply cont_spec in Ed. cbn; rewrite ?take_0. unfold continuation in *. lia.
    - cbn [step_ok]. split; [cbn; lia|]. apply malformed_3; [lia|done|done|]. intros d' t' [= <- <-] Hbd.
      apply beginning_4 in Hbd. cbn in Hbd. destruct Hbd as (_ & _ & _ & Hbd & _).
      apply cont_spec in Hbd. congruence. }
  apply H1; [lia|]. apply malformed_1; [lia|]. intros b t' -> Hb. apply beginning_2 in Hb. lia.
Qed.

(** More input does not change what has been classified. *)
Lemma classify_more a t eoi s :
  classify_utf8_unit a t false <> Incomplete ->
  classify_utf8_unit a (t ++ s) eoi = classify_utf8_unit a t false.
Proof.
  unfold classify_utf8_unit. intros H.
  destruct (a <=? 127); [done|].
  destruct (_ && _); [destruct t as [|b t]; done|].
  destruct (_ && _).
  { destruct t as [|b t]; [done|]. cbn [app]. destruct (_ || _); [done|]. destruct t; done. }
  destruct (_ && _); [|done].
  destruct t as [|b t]; [done|]. cbn [app]. destruct (_ || _); [done|].
  destruct t as [|c t]; [done|]. cbn [app]. destruct (negb _); [done|]. destruct t; done.
Qed.

(** The loop has enough fuel. *)
Lemma classify_length a t eoi n :
  classify_utf8_unit a t eoi = Valid n \/ classify_utf8_unit a t eoi = Malformed n ->
  (0 < n <= length (a :: t))%nat.
Proof.
  unfold classify_utf8_unit. intros H.
  repeat match type of H with
  | context [if ?b then _ else _] => destruct b
  | context [match ?l with [] => _ | _ :: _ => _ end] => destruct l
  end; destruct H as [H|H]; try discriminate H; injection H as <-; cbn; lia.
Qed.
Lemma loop_fuel f g bytes eoi :
  (length bytes <= f)%nat -> (length bytes <= g)%nat -> repair_loop f bytes eoi = repair_loop g bytes eoi.
Proof.
  revert g bytes. induction f as [|f IH]; intros g bytes Hf Hg.
  - destruct bytes; [|cbn in Hf; lia]. by destruct g.
  - destruct bytes as [|a t]; [by destruct g|]. destruct g as [|g]; [cbn in Hg; lia|].
    cbn [repair_loop]. destruct (classify_utf8_unit a t eoi) as [n|n|] eqn:E; [| |done].
    + pose proof (classify_length a t eoi n (or_introl E)).
      rewrite (IH g (drop n (a :: t))); [done|rewrite drop_length; cbn in *; lia..].
    + pose proof (classify_length a t eoi n (or_intror E)).
      rewrite (IH g (drop n (a :: t))); [done|rewrite drop_length; cbn in *; lia..].
Qed.
Notation loop bytes eoi := (repair_loop (@length N bytes) bytes eoi).

Lemma loop_nil eoi : loop [] eoi = ([], []).
Proof. done. Qed.
Lemma loop_step a t eoi :
  loop (a :: t) eoi =
  match classify_utf8_unit a t eoi with
  | Valid n => let r := loop (drop n (a :: t)) eoi in (take n (a :: t) ++ r.1, r.2)
  | Malformed n => let r := loop (drop n (a :: t)) eoi in (REPLACEMENT_CHARACTER ++ r.1, r.2)
  | Incomplete => ([], a :: t)
  end.
Proof.
  cbn [length repair_loop]. destruct (classify_utf8_unit a t eoi) as [n|n|] eqn:E; [| |done].
  - pose proof (classify_length a t eoi n (or_introl E)).
    rewrite (loop_fuel (length t) (length (drop n (a :: t)))); [|rewrite drop_length; cbn in *; lia|done].
    by destruct (repair_loop _ _ _).
  - pose proof (classify_length a t eoi n (or_intror E)).
    rewrite (loop_fuel (length t) (length (drop n (a :: t)))); [|rewrite drop_length; cbn in *; lia|done].
    by destruct (repair_loop _ _ _).
Qed.

Lemma byte_ind (P : list N -> Prop) :
  P [] -> (forall a t, (forall s, (length s <= length t)%nat -> P s) -> P (a :: t)) -> forall t, P t.
Proof.
  intros H0 H1 t. remember (length t) as n eqn:Hn. revert t Hn.
  induction (lt_wf n) as [n _ IH]; intros t ->. destruct t as [|a t]; [done|].
  apply H1. intros s Hs. eapply IH; [|done]. cbn. lia.
Qed.

(** What the loop computes. *)
Lemma loop_repaired t : Forall byte_ok t -> repaired t (loop t true).1 /\ (loop t true).2 = [].
Proof.
  induction t as [|a t IH] using byte_ind; intros Hok; [split; [constructor|done]|].
  rewrite loop_step. pose proof (classify_ok a t true Hok) as Hs.
  destruct (classify_utf8_unit a t true) as [n|n|] eqn:E; cbn [step_ok] in Hs; [| |by destruct Hs].
  - destruct Hs as [Hn Hc]. destruct (IH (drop n (a :: t))) as [H1 H2].
    + rewrite drop_length. cbn. lia.
    + by apply Forall_drop.
    + cbn zeta. cbn [fst snd]. split; [|done].
      rewrite <- (take_drop n (a :: t)) at 1. by constructor.
  - destruct Hs as [Hn Hc]. destruct (IH (drop n (a :: t))) as [H1 H2].
    + rewrite drop_length. cbn. lia.
    + by apply Forall_drop.
    + cbn zeta. cbn [fst snd]. split; [|done].
      rewrite <- (take_drop n (a :: t)) at 1. apply (repaired_bad (take n (a :: t))); [|done].
      by rewrite take_drop.
Qed.

(** Valid text passes unchanged. *)
Lemma loop_char c t eoi : utf8_char c -> Forall byte_ok (c ++ t) ->
  loop (c ++ t) eoi = (c ++ (loop t eoi).1, (loop t eoi).2).
Proof.
  intros Hc Hok. destruct c as [|a c]; [done|]. cbn [app]. rewrite loop_step.
  assert (classify_utf8_unit a (c ++ t) eoi = Valid (length (a :: c))) as ->.
  { unfold classify_utf8_unit. change ((a :: c) ++ t) with (a :: c ++ t) in Hok.
    destruct c as [|b [|c [|d [|]]]]; try done; cbn in Hc; unfold continuation in Hc.
    - replace (a <=? 127) with true by lia. done.
    - replace (a <=? 127) with false by lia. replace (_ && _) with true by lia. cbn [app].
      rewrite is_continuation_spec by (by apply Forall_cons in Hok as [_ Hok]; apply Forall_cons in Hok as [? _]).
      unfold cont, in_range. replace (_ && _) with true by lia. done.
    - replace (a <=? 127) with false by lia. replace ((194 <=? a) && (a <=? 223)) with false by lia.
      replace ((224 <=? a) && (a <=? 239)) with true by lia. cbn [app] in *.
      assert (is_continuation b = cont b) as -> by (apply is_continuation_spec; do 1 apply Forall_cons in Hok as [_ Hok]; by apply Forall_cons in Hok as [? _]).
      assert (is_continuation c = cont c) as -> by (apply is_continuation_spec; do 2 apply Forall_cons in Hok as [_ Hok]; by apply Forall_cons in Hok as [? _]).
      assert (cont b = true) as -> by (unfold cont, in_range; lia).
      assert (cont c = true) as -> by (unfold cont, in_range; lia).
      replace (negb true || ((a =? 224) && (b <? 160))) with false by lia. cbn [negb].
      replace ((a =? 237) && (160 <=? b)) with false by lia. done.
    - replace (a <=? 127) with false by lia. replace ((194 <=? a) && (a <=? 223)) with false by lia.
      replace ((224 <=? a) && (a <=? 239)) with false by lia.
      replace ((240 <=? a) && (a <=? 244)) with true by lia. cbn [app] in *.
      assert (is_continuation b = cont b) as -> by (apply is_continuation_spec; do 1 apply Forall_cons in Hok as [_ Hok]; by apply Forall_cons in Hok as [? _]).
      assert (is_continuation c = cont c) as -> by (apply is_continuation_spec; do 2 apply Forall_cons in Hok as [_ Hok]; by apply Forall_cons in Hok as [? _]).
      assert (is_continuation d = cont d) as -> by (apply is_continuation_spec; do 3 apply Forall_cons in Hok as [_ Hok]; by apply Forall_cons in Hok as [? _]).
      assert (cont b = true) as -> by (unfold cont, in_range; lia).
      assert (cont c = true) as -> by (unfold cont, in_range; lia).
      assert (cont d = true) as -> by (unfold cont, in_range; lia).
      replace (negb true || _ || _) with false by lia. done. }
  cbn zeta. change (a :: c ++ t) with ((a :: c) ++ t). rewrite drop_app, take_app. done.
Qed.
Lemma loop_utf8 t s eoi : utf8 t -> Forall byte_ok (t ++ s) ->
  loop (t ++ s) eoi = (t ++ (loop s eoi).1, (loop s eoi).2).
Proof.
  intros (cs & -> & Hcs) Hok. induction Hcs as [|c cs Hc Hcs IH]; cbn [concat app] in *.
  - by destruct (loop s eoi).
  - rewrite <- app_assoc in *. rewrite loop_char by done.
    rewrite IH by (by apply Forall_app in Hok as [_ ?]). cbn [fst snd]. by rewrite app_assoc.
Qed.
Lemma repair_loop_eq t eoi : Forall byte_ok t -> repair t eoi = loop t eoi.
Proof.
  intros Hok. unfold repair. destruct (from_utf8_ok t) eqn:E; [|done].
  apply from_utf8_spec in E. pose proof (loop_utf8 t [] eoi E) as H.
  rewrite loop_nil in H. cbn [fst snd] in H. rewrite !app_nil_r in H. by rewrite H.
Qed.

(** Chunks. *)
Lemma loop_chunk t s : 
  (loop (t ++ s) true).1 = (loop t false).1 ++ (loop ((loop t false).2 ++ s) true).1.
Proof.
  revert s. induction t as [|a t IH] using byte_ind; intros s; [done|].
  rewrite (loop_step a t false). cbn [app]. rewrite loop_step.
  destruct (classify_utf8_unit a t false) as [n|n|] eqn:E.
  - rewrite (classify_more a t true s) by congruence. rewrite E. cbn zeta. cbn [fst snd].
    pose proof (classify_length a t false n (or_introl E)) as Hn.
    change (a :: t ++ s) with ((a :: t) ++ s). rewrite drop_app_le, take_app_le by lia.
    rewrite IH by (rewrite drop_length; cbn in *; lia). by rewrite app_assoc.
  - rewrite (classify_more a t true s) by congruence. rewrite E. cbn zeta. cbn [fst snd].
    pose proof (classify_length a t false n (or_intror E)) as Hn.
    change (a :: t ++ s) with ((a :: t) ++ s). rewrite drop_app_le by lia.
    rewrite IH by (rewrite drop_length; cbn in *; lia). by rewrite app_assoc.
  - cbn [fst snd app]. rewrite <- loop_step. done.
Qed.
Lemma loop_incomplete_ok t : Forall byte_ok t -> Forall byte_ok (loop t false).2.
Proof.
  induction t as [|a t IH] using byte_ind; intros Hok; [done|]. rewrite loop_step.
  destruct (classify_utf8_unit a t false) as [n|n|] eqn:E; cbn zeta; cbn [snd]; [| |done].
  - pose proof (classify_length a t false n (or_introl E)). apply IH; [rewrite drop_length; cbn in *; lia|].
    by apply Forall_drop.
  - pose proof (classify_length a t false n (or_intror E)). apply IH; [rewrite drop_length; cbn in *; lia|].
    by apply Forall_drop.
Qed.

Lemma decode_eq inc t : Forall byte_ok inc -> Forall byte_ok t -> decode inc t = loop (inc ++ t) false.
Proof. intros. unfold decode. apply repair_loop_eq. by apply Forall_app. Qed.
Lemma decode_bytes_eq inc t : Forall byte_ok inc -> Forall byte_ok t -> decode_bytes inc t = loop (inc ++ t) false.
Proof.
  intros Hi Ht. unfold decode_bytes. destruct inc; [|by apply decode_eq].
  destruct (from_utf8_ok t) eqn:E; [|by apply decode_eq].
  rewrite <- repair_loop_eq by done. unfold repair. cbn [app]. by rewrite E.
Qed.

Lemma decode_stream_loop inc chunks :
  Forall byte_ok inc -> Forall (fun c => Forall byte_ok c.2) chunks ->
  decode_stream inc chunks = (loop (inc ++ concat (snd <$> chunks)) true).1.
Proof.
  revert inc; induction chunks as [|[fast t] chunks IH]; intros inc Hi Hc; cbn [decode_stream].
  - unfold finish. rewrite repair_loop_eq by done. cbn. by rewrite app_nil_r.
  - apply Forall_cons in Hc as [Ht Hc]. cbn [snd] in Ht.
    assert ((if fast then decode_bytes else decode) inc t = loop (inc ++ t) false) as ->.
    { destruct fast; [by apply decode_bytes_eq|by apply decode_eq]. }
    destruct (loop (inc ++ t) false) as [out inc'] eqn:E.
    assert (Forall byte_ok inc') as Hi'.
    { pose proof (loop_incomplete_ok (inc ++ t)) as H. rewrite E in H. apply H. by apply Forall_app. }
    rewrite IH by done. cbn [fmap list_fmap concat snd]. rewrite app_assoc.
    rewrite (loop_chunk (inc ++ t)). by rewrite E.
Qed.

(** Consequences of being repaired. *)
Lemma repaired_utf8 t o : repaired t o -> utf8 o.
Proof.
  induction 1; [apply utf8_nil|by apply utf8_cons|]. apply utf8_cons; [|done].
  unfold replacement. cbn. unfold continuation. lia.
Qed.
Lemma char_high c : utf8_char c -> length c <> 1%nat -> ascii_of c = [].
Proof.
  intros Hc Hl. unfold ascii_of.
  destruct c as [|a [|b [|c [|d [|]]]]]; try done; cbn in Hc; unfold continuation in Hc.
  - rewrite !filter_cons_False by lia. done.
  - rewrite !filter_cons_False by lia. done.
  - rewrite !filter_cons_False by lia. done.
Qed.
Lemma beginning_high m : beginning m -> (1 < length m)%nat -> ascii_of m = [].
Proof.
  intros Hb Hl. unfold ascii_of. destruct m as [|a [|b [|c [|d [|e m]]]]]; cbn in Hl; try lia.
  - apply beginning_2 in Hb. unfold continuation in Hb. rewrite !filter_cons_False by lia. done.
  - apply beginning_3 in Hb. unfold continuation in Hb. rewrite !filter_cons_False by lia. done.
  - apply beginning_4 in Hb. cbn in Hb. unfold continuation in Hb. rewrite !filter_cons_False by lia. done.
  - by apply beginning_5 in Hb.
Qed.
Lemma repaired_ascii t o : repaired t o -> ascii_of o = ascii_of t.
Proof.
  induction 1 as [|c t o Hc Hr IH|m t o Hm Hr IH]; [done| |]; unfold ascii_of in *; rewrite !filter_app, IH.
  - done.
  - f_equal. change (filter _ replacement) with (@nil N). symmetry.
    destruct Hm as (Hno & _ & Hb & Hne & _). destruct (decide (length m = 1%nat)) as [Hl|Hl].
    + destruct m as [|a [|]]; try done. rewrite filter_cons_False; [done|]. intros Ha.
      apply Hno. exists [a]. split; [done|]. by exists t.
    + destruct Hb as [Hb|Hb]; [done|]. apply beginning_high; [done|]. destruct m as [|? [|]]; cbn in *; try done; lia.
Qed.
Lemma repaired_fun t o : repaired t o -> forall o', repaired t o' -> o = o'.
Proof.
  assert (forall c c' t t', utf8_char c -> utf8_char c' -> c ++ t = c' ++ t' -> c = c' /\ t = t') as Hcc.
  { intros c c' t1 t2 Hc Hc' He.
    assert (length c = length c') as Hl.
    { destruct c as [|c1 [|c2 [|c3 [|c4 [|]]]]]; try done; destruct c' as [|d1 [|d2 [|d3 [|d4 [|]]]]]; try done;
        cbn in *; injection He as He; subst; lia. }
    by apply app_inj_1. }
  assert (forall m m' t t', malformed (m ++ t) m -> malformed (m' ++ t') m' -> m ++ t = m' ++ t' -> m = m' /\ t = t') as Hmm.
  { intros m m' t1 t2 (_ & _ & Hb & Hne & Hmax) (_ & _ & Hb' & Hne' & Hmax') He.
    apply app_inj_1; [|done].
    assert (length m' <= length m)%nat.
    { destruct Hb' as [Hb'|Hb']; [destruct m; [done|cbn; lia]|]. apply Hmax; [|done]. rewrite He. by exists t2. }
    assert (length m <= length m')%nat.
    { destruct Hb as [Hb|Hb]; [destruct m'; [done|cbn in *; lia]|]. apply Hmax'; [|done]. rewrite <- He. by exists t1. }
    lia. }
  assert (forall c, utf8_char c -> c <> []) as Hne by (by intros [|]).
  induction 1 as [|c t o Hc Hr IH|m t o Hm Hr IH]; intros o' H'.
  - inversion H' as [|c t o Hc Hr He|m t o Hm Hr He]; [done| |].
    + apply app_eq_nil in He as [-> _]. done.
    + apply app_eq_nil in He as [-> _]. by destruct Hm as (_ & _ & _ & ? & _).
  - inversion H' as [He|c' t' o1 Hc' Hr' He|m' t' o1 Hm' Hr' He].
    + symmetry in He. apply app_eq_nil in He as [-> _]. done.
    + destruct (Hcc c' c t' t Hc' Hc He) as [-> ->]. f_equal. by apply IH.
    + exfalso. destruct Hm' as [Hno _]. apply Hno. exists c. split; [done|]. rewrite He. by exists t.
  - inversion H' as [He|c' t' o1 Hc' Hr' He|m' t' o1 Hm' Hr' He].
    + symmetry in He. apply app_eq_nil in He as [-> _]. by destruct Hm as (_ & _ & _ & ? & _).
    + exfalso. destruct Hm as [Hno _]. apply Hno. exists c'. split; [done|]. rewrite <- He. by exists t'.
    + destruct (Hmm m' m t' t Hm' Hm He) as [-> ->]. f_equal. by apply IH.
Qed.
