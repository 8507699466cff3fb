From Coq Require Import ZArith Lia.
From stdpp Require Import prelude list numbers.
From Verif Require Import Functions.IntModel Functions.SequenceModel Functions.SequenceSpec.
#[local] Open Scope Z_scope.

Lemma valid_leads a b s : valid_boundaries a b s = true <-> leads a b s.
Proof. unfold valid_boundaries, leads. lia. Qed.

Lemma quot_leads a b s :
  leads a b s -> a <> b -> Z.quot (b - a) s = Z.abs (b - a) / Z.abs s.
Proof.
  intros [[Hs H]|[[Hs H]|[-> ->]]] Hne; [| |lia].
  - rewrite Z.quot_div_nonneg by lia. by rewrite !Z.abs_eq by lia.
  - rewrite <- Z.quot_opp_opp by lia. rewrite Z.quot_div_nonneg by lia.
    rewrite !Z.abs_neq by lia. done.
Qed.

Lemma length_cases a b s :
  int_min 64 <= a <= int_max 64 -> int_min 64 <= b <= int_max 64 ->
  match sequence_length a b s with
  | Some n => leads a b s /\
      ((a = b /\ n = 1%nat) \/
       (a <> b /\ Z.of_nat n = len a b s /\ len a b s <= array_limit /\ fits 64 (b - a) = true))
  | None => ~ leads a b s \/
      (a <> b /\ leads a b s /\ (array_limit < len a b s \/ fits 64 (b - a) = false))
  end.
Proof.
  intros Ha Hb. unfold sequence_length.
  destruct (valid_boundaries a b s) eqn:Ev; cbn [negb].
  2:{ left. rewrite <- valid_leads, Ev. done. }
  apply valid_leads in Ev. destruct (a =? b) eqn:Eab.
  { split; [done|]. left. lia. }
  assert (a <> b) as Hne by lia.
  pose proof (quot_leads a b s Ev Hne) as Hq.
  assert (s <> 0) as Hs by (destruct Ev as [?|[?|?]]; lia).
  assert (0 <= Z.abs (b - a) / Z.abs s) as Hpos by (apply Z.div_pos; lia).
  unfold checked. destruct (fits 64 (b - a)) eqn:Ef.
  - destruct ((b - a =? int_min 64) && (s =? -1)) eqn:Em; cbn [negb]; rewrite Hq.
    + destruct (max_rounded_array_length <? _) eqn:El.
      * right. split; [done|]. split; [done|]. left. unfold len, array_limit.
        unfold max_rounded_array_length, int_max in El. change (32 - 1) with 31 in El. lia.
      * right. split; [done|]. split; [done|]. left. exfalso.
        assert (b - a = int_min 64) as H1 by lia. assert (s = -1) as H2 by lia.
        rewrite H1, H2 in El. vm_compute in El. done.
    + destruct (max_rounded_array_length <? _) eqn:El.
      * right. split; [done|]. split; [done|]. left. unfold len, array_limit.
        unfold max_rounded_array_length, int_max in El. change (32 - 1) with 31 in El. lia.
      * destruct (1 + Z.abs (b - a) / Z.abs s <? 0) eqn:E0; [lia|].
        split; [done|]. right. unfold len, array_limit.
        unfold max_rounded_array_length, int_max in El. change (32 - 1) with 31 in El.
        split_and!; try done; lia.
  - rewrite Hq. destruct (max_rounded_array_length <? _) eqn:El.
    + right. split; [done|]. split; [done|]. left. unfold len, array_limit.
      unfold max_rounded_array_length, int_max in El. change (32 - 1) with 31 in El. lia.
    + right. split; [done|]. split; [done|]. by right.
Qed.

Lemma element_between a b s i :
  leads a b s -> a <> b -> 0 <= i < len a b s ->
  a <= a + s * i <= b \/ b <= a + s * i <= a.
Proof.
  unfold len. intros Hl Hne Hi.
  assert (s <> 0) as Hs by (destruct Hl as [?|[?|?]]; lia).
  pose proof (Z.mul_div_le (Z.abs (b - a)) (Z.abs s) ltac:(lia)) as Hd.
  assert (Z.abs s * i <= Z.abs (b - a)) as H1 by nia.
  destruct Hl as [[? ?]|[[? ?]|[? ?]]]; [left|right|lia].
  - rewrite !Z.abs_eq in H1 by lia. nia.
  - rewrite !Z.abs_neq in H1 by lia. nia.
Qed.
Lemma between_element a b s i :
  leads a b s -> a <> b -> 0 <= i ->
  a <= a + i * s <= b \/ b <= a + i * s <= a -> i < len a b s.
Proof.
  unfold len. intros Hl Hne Hi Hx.
  assert (s <> 0) as Hs by (destruct Hl as [?|[?|?]]; lia).
  assert (Z.abs s * i <= Z.abs (b - a)) as H1.
  { destruct Hl as [[? ?]|[[? ?]|[? ?]]]; [| |lia].
    - rewrite !Z.abs_eq by lia. nia.
    - rewrite !Z.abs_neq by lia. nia. }
  assert (i <= Z.abs (b - a) / Z.abs s); [|lia].
  apply Z.div_le_lower_bound; lia.
Qed.

Lemma integral_values_eq bits a s n :
  (forall i, 0 <= i < Z.of_nat n -> fits bits (a + s * i) = true) ->
  integral_values bits a s n = Some ((fun i => a + s * Z.of_nat i) <$> seq 0 n).
Proof.
  intros H. unfold integral_values. apply mapM_Some. apply Forall2_fmap_r.
  apply Forall_Forall2_diag, Forall_forall. intros i Hi. apply elem_of_list_In, elem_of_seq in Hi.
  unfold checked. rewrite H by lia. done.
Qed.

Lemma fits64 z : fits 64 z = true <-> - 2 ^ 63 <= z < 2 ^ 63.
Proof. unfold fits, int_min, int_max. change (64 - 1) with 63. lia. Qed.

Lemma row_cases bits a b st :
  0 < bits <= 64 -> fits bits a = true -> fits bits b = true ->
  let s := step_of a b st in
  match row_plan a b st with
  | Some (a', s', n) =>
      a' = a /\ s' = s /\ leads a b s /\ ~ too_long a b s /\
      Z.of_nat n <= array_limit /\
      exists l, integral_values bits a' s' n = Some l /\ is_sequence a b s l /\ length l = n
  | None => ~ leads a b s \/ too_long a b s
  end.
Proof.
  intros Hbits Ha Hb s.
  assert (2 ^ (bits - 1) <= 2 ^ 63) as Hpow by (apply Z.pow_le_mono_r; lia).
  assert (int_min 64 <= a <= int_max 64 /\ int_min 64 <= b <= int_max 64) as [Ha64 Hb64].
  { unfold fits, int_min, int_max in *. change (64 - 1) with 63. lia. }
  unfold row_plan.
  assert (default (if a <=? b then 1 else -1) st = s) as ->.
  { unfold s, step_of. destruct st; [done|]. cbn.
    case_bool_decide; destruct (a <=? b) eqn:E; lia. }
  pose proof (length_cases a b s Ha64 Hb64) as Hc.
  destruct (sequence_length a b s) as [n|]; cbn [mbind option_bind].
  - destruct Hc as [Hl Hc].
    assert (forall i, 0 <= i < Z.of_nat n -> fits bits (a + s * i) = true) as Hfit.
    { intros i Hi. destruct Hc as [[-> ->]|(Hne & Hn & _)].
      - assert (i = 0) as -> by lia. by rewrite Z.mul_0_r, Z.add_0_r.
      - pose proof (element_between a b s i Hl Hne ltac:(lia)).
        unfold fits in *. lia. }
    split_and!; try done.
    + destruct Hc as [[-> ->]|(Hne & Hn & Hlim & Hf)]; intros [Hne' Ht]; [done|].
      apply fits64 in Hf. lia.
    + destruct Hc as [[-> ->]|(Hne & Hn & Hlim & Hf)]; [done|lia].
    + eexists. split; [by apply integral_values_eq|]. split; [|by rewrite fmap_length, seq_length].
      unfold is_sequence. case_bool_decide as Hab.
      * destruct Hc as [[_ ->]|(Hne & _)]; [|done]. cbn. f_equal. lia.
      * destruct Hc as [[? _]|(Hne & Hn & _)]; [done|]. intros i x.
        rewrite list_lookup_fmap. split.
        -- intros Hx. apply fmap_Some in Hx as (j & Hj & ->).
           apply lookup_seq in Hj as [-> Hj]. rewrite Nat.add_0_l. split; [lia|].
           apply element_between; [done|done|lia].
        -- intros [-> Hx]. rewrite (lookup_seq_lt 0 n i).
           ++ cbn. f_equal. lia.
           ++ pose proof (between_element a b s (Z.of_nat i) Hl Hne ltac:(lia) Hx). lia.
  - destruct Hc as [Hl|(Hne & Hl & Hc)]; [by left|]. right. split; [done|].
    destruct Hc as [Hc|Hc]; [by left|]. right. rewrite <- fits64, Hc. done.
Qed.

Lemma total_nonneg ls : 0 <= total_of ls.
Proof.
  induction ls as [|o ls IH]; [done|]. unfold total_of in *. cbn. destruct o; lia.
Qed.

Definition fill bits (p : option (Z * Z * nat)) : option (option (list Z)) :=
  match p with
  | None => Some None
  | Some (start, step, n) => l ← integral_values bits start step n; Some (Some l)
  end.

Lemma plan_cases bits rows total :
  0 < bits <= 64 -> Forall (row_ok bits) rows -> 0 <= total ->
  match plan_rows rows total with
  | Some ps => exists ls, mapM (fill bits) ps = Some ls /\ Forall2 row_right rows ls /\
      (total < 2 ^ 31 -> total + total_of ls < 2 ^ 31)
  | None =>
      (exists a b st, Some (a, b, st) ∈ rows /\
         (~ leads a b (step_of a b st) \/ too_long a b (step_of a b st))) \/
      (exists j ls, Forall2 row_right (take j rows) ls /\ 2 ^ 31 <= total + total_of ls)
  end.
Proof.
  intros Hbits. revert total; induction rows as [|r rows IH]; intros total Hf Ht.
  - cbn. exists []. split; [done|]. split; [constructor|]. unfold total_of. cbn. lia.
  - inversion_clear Hf as [|? ? Hr Hf'].  rename Hf' into Hf. destruct r as [[[a b] st]|]; cbn [plan_rows].
    + destruct Hr as [Ha Hb].
      assert (fits bits a = true) as Ha1 by (unfold fits, int_min, int_max; lia).
      assert (fits bits b = true) as Hb1 by (unfold fits, int_min, int_max; lia).
      pose proof (row_cases bits a b st Hbits Ha1 Hb1) as Hc. cbn zeta in Hc.
      destruct (row_plan a b st) as [[[a' s'] n]|]; cbn [mbind option_bind].
      * destruct Hc as (-> & -> & Hl & Htl & Hn & l & Hl1 & Hl2 & Hl3).
        cbn [snd]. unfold checked_batch_length, checked.
        assert (fits 32 (total + Z.of_nat n) = (total + Z.of_nat n <? 2 ^ 31)) as ->.
        { unfold fits, int_min, int_max. change (32 - 1) with 31. lia. }
        destruct (total + Z.of_nat n <? 2 ^ 31) eqn:E; cbn [mbind option_bind].
        -- specialize (IH (total + Z.of_nat n) Hf ltac:(lia)).
           destruct (plan_rows rows (total + Z.of_nat n)) as [ps|]; cbn [mbind option_bind].
           ++ destruct IH as (ls & H1 & H2 & H3). exists (Some l :: ls). split_and!.
              ** cbn [mapM fill]. rewrite Hl1. cbn [mbind option_bind]. rewrite H1. done.
              ** constructor; [done|done].
              ** intros Hlt. specialize (H3 ltac:(lia)). unfold total_of in *. cbn [fmap list_fmap foldr].
                 rewrite Hl3. lia.
           ++ destruct IH as [(a1 & b1 & st1 & Hin & Hbad)|(j & ls & Hj & Hbig)].
              ** left. exists a1, b1, st1. split; [by right|done].
              ** right. exists (S j), (Some l :: ls). split.
                 --- cbn [take]. constructor; done.
                 --- unfold total_of in *. cbn [fmap list_fmap foldr]. rewrite Hl3. lia.
        -- right. exists 1%nat, [Some l]. split.
           ++ cbn [take]. rewrite take_0. constructor; [done|constructor].
           ++ unfold total_of. cbn [fmap list_fmap foldr]. rewrite Hl3. lia.
      * left. exists a, b, st. split; [by left|done].
    + specialize (IH total Hf Ht). destruct (plan_rows rows total) as [ps|]; cbn [mbind option_bind].
      * destruct IH as (ls & H1 & H2 & H3). exists (None :: ls). split_and!.
        -- cbn [mapM fill]. cbn [mbind option_bind]. rewrite H1. done.
        -- constructor; done.
        -- unfold total_of in *. cbn [fmap list_fmap foldr]. lia.
      * destruct IH as [(a1 & b1 & st1 & Hin & Hbad)|(j & ls & Hj & Hbig)].
        -- left. exists a1, b1, st1. split; [by right|done].
        -- right. exists (S j), (None :: ls). split.
           ++ cbn [take]. constructor; done.
           ++ unfold total_of in *. cbn [fmap list_fmap foldr]. lia.
Qed.
