From Coq Require Import Lia.
From stdpp Require Import prelude list.
From Verif Require Import Functions.MapModel Functions.MapSpec Functions.MapProofs
  Functions.WindowProofs.

Section rows.
  Context {K V : Type} `{EqDecision K}.
  Context (lw : bool) (kflat : list (option K)) (vflat : list V).

  (** The answer for one row, as a function. *)
  Definition rowans (ks : list (option K)) (vs : list V) (valid : bool) :
      option (option (list (K * V))) :=
    if valid then
      keys ← mapM id ks;
      if decide (length keys = length vs) then
        if lw || bool_decide (NoDup keys) then Some (Some (build (zip keys vs) [])) else None
      else None
    else Some None.

  Definition R (p : K * V) (q : option K * nat) : Prop := Some p.1 = q.1 /\ vflat !! q.2 = Some p.2.

  Lemma mapM_id_Some (ks : list (option K)) keys : mapM id ks = Some keys <-> ks = Some <$> keys.
  Proof.
    rewrite mapM_Some. split.
    - induction 1 as [|x y l k H Hf IH]; [done|]. cbn. by rewrite IH, <- H.
    - intros ->. induction keys as [|k keys IH]; constructor; done.
  Qed.
  Lemma mapM_id_None (ks : list (option K)) : mapM id ks = None <-> None ∈ ks.
  Proof.
    rewrite mapM_None. split.
    - induction 1 as [x l Hx|x l Hx IH]; [unfold id in Hx; subst x; left|by right].
    - intros Hin. apply Exists_exists. by exists None.
  Qed.

  Lemma filter_mask_false {A} (l : list A) n : filter_mask l (replicate n false) = [].
  Proof. revert l; induction n as [|n IH]; intros [|x l]; cbn; done || apply IH. Qed.

  Lemma NoDup_Some (keys : list K) : NoDup (Some <$> keys) <-> NoDup keys.
  Proof.
    split; [apply NoDup_fmap_1|]. intros Hk. apply NoDup_fmap_2; [|done]. intros x y Hxy. by injection Hxy.
  Qed.

  Lemma row_cases s nk' nv' kv vv :
    let ks := take (nk' - cur_keys s) (drop (cur_keys s) kflat) in
    let vs := take (nv' - cur_values s) (drop (cur_values s) vflat) in
    cur_keys s <= nk' <= length kflat -> cur_values s <= nv' <= length vflat ->
    new_last s = length (indices s) ->
    match row lw kflat s (nk', nv', (kv, vv)) with
    | None => rowans ks vs (kv && vv) = None
    | Some s' =>
        exists m mk,
          cur_keys s' = nk' /\ cur_values s' = nv' /\
          indices s' = indices s ++ m.*2 /\ new_last s' = length (indices s') /\
          new_offsets s' = new_offsets s ++ [length (indices s')] /\
          mask s' = mask s ++ mk /\ length mk = nk' - cur_keys s /\
          filter_mask ks mk = m.*1 /\
          ((mapM id m.*1 = None /\ rowans ks vs (kv && vv) = None) \/
           exists M, Forall2 R M m /\
             rowans ks vs (kv && vv) = Some (if kv && vv then Some M else None))
    end.
  Proof.
    intros ks vs Hk Hv Hlast. unfold row.
    set (nk := nk' - cur_keys s) in *. set (nv := nv' - cur_values s) in *.
    assert (length ks = nk) as Hlk by (unfold ks; rewrite take_length, drop_length; lia).
    assert (length vs = nv) as Hlv by (unfold vs; rewrite take_length, drop_length; lia).
    destruct (kv && vv).
    - destruct (decide (nk = nv)) as [E|E].
      + fold ks.
        set (s0 := St (cur_keys s) (cur_values s) (new_last s) (new_offsets s) (mask s) (indices s) []).
        assert (inv s0 [] [] s0) as Hinv.
        { split; cbn; try done; try constructor.
          - by rewrite app_nil_r.
          - exists []. by rewrite app_nil_r. }
        pose proof (entries_inv lw ks (cur_values s) s0 [] [] s0 Hinv) as He.
        destruct (entries lw ks (cur_values s) s0) as [s'|].
        * destruct He as [[Hnd Hseen Hind Hl (mk & Hmk & Hlen & Hfm) (Hr1 & Hr2 & Hr3)] Hdup].
          cbn [app] in Hlen, Hfm. cbn [mbind option_bind].
          set (m := build (zip ks (seq (cur_values s) (length ks))) []) in *.
          exists m, mk. cbn [cur_keys cur_values indices new_last new_offsets mask].
          rewrite Hr1, Hr2, Hr3, Hl. cbn [s0 cur_keys cur_values indices new_last new_offsets mask] in *.
          split_and!; try done; try lia.
          unfold rowans.
          assert (m.*1 = firsts ks) as Hm1.
          { unfold m. destruct (build_last_win (zip ks (seq (cur_values s) (length ks)))) as [H _].
            rewrite H. f_equal. rewrite fst_zip; [done|]. rewrite seq_length. lia. }
          destruct (mapM id ks) as [keys|] eqn:Eks.
          -- right. pose proof (proj1 (mapM_id_Some _ _) Eks) as Hkeys. cbn [mbind option_bind].
             assert (length keys = length ks) as Hlen' by (rewrite Hkeys, fmap_length; done).
             exists (build (zip keys vs) []). split.
             ++ unfold m. apply (build_Forall2 (fun k ok => Some k = ok) (fun v i => vflat !! i = Some v)).
                ** intros x x' y y' <- <-. split; [by intros ->|]. intros H. by injection H.
                ** apply Forall2_lookup. intros i.
                   destruct (zip keys vs !! i) as [[k v]|] eqn:Ei.
                   --- apply lookup_zip_with_Some in Ei as (k0 & v0 & Heq & E1 & E2).
                       apply pair_equal_spec in Heq as [-> ->].
                       assert (zip ks (seq (cur_values s) (length ks)) !! i =
                               Some (Some k0, cur_values s + i)) as ->.
                       { apply lookup_zip_with_Some. eexists _, _. split; [done|]. split.
                         - rewrite Hkeys, list_lookup_fmap, E1. done.
                         - apply lookup_seq. split; [done|]. apply lookup_lt_Some in E1. lia. }
                       constructor. cbn [fst snd]. split; [done|].
                       unfold vs in E2. rewrite lookup_take_Some, lookup_drop in E2. tauto.
                   --- assert (zip ks (seq (cur_values s) (length ks)) !! i = None) as ->; [|constructor].
                       apply lookup_ge_None in Ei. rewrite zip_with_length in Ei.
                       apply lookup_ge_None. rewrite zip_with_length, seq_length. lia.
                ** constructor.
             ++ rewrite decide_True by lia.
                assert (lw || bool_decide (NoDup keys) = true) as ->; [|done].
                destruct lw; [done|]. cbn. apply bool_decide_eq_true.
                specialize (Hdup eq_refl). cbn in Hdup. rewrite Hkeys in Hdup. by apply NoDup_Some.
          -- left. split; [|done]. apply mapM_id_None. rewrite Hm1. apply elem_of_firsts.
             by apply mapM_id_None.
        * destruct He as [Hlw Hdup]. cbn in Hdup. cbn [mbind option_bind]. unfold rowans.
          destruct (mapM id ks) as [keys|] eqn:Eks; [|done]. cbn [mbind option_bind].
          apply mapM_id_Some in Eks.
          destruct (decide _); [|done]. rewrite Hlw. cbn [orb].
          rewrite bool_decide_eq_false_2; [done|]. intros Hnd. apply Hdup.
          rewrite Eks. by apply NoDup_Some.
      + cbn [mbind option_bind]. unfold rowans.
        destruct (mapM id ks) as [keys|] eqn:Eks; [|done]. cbn [mbind option_bind].
        apply mapM_id_Some in Eks. rewrite decide_False; [done|].
        assert (length keys = length ks) as Hlen' by (rewrite Eks, fmap_length; done). lia.
    - cbn [mbind option_bind cur_keys cur_values indices new_last new_offsets mask].
      exists [], (replicate nk false). cbn [fmap list_fmap]. rewrite app_nil_r.
      split_and!; try done; try lia.
      + by rewrite Hlast.
      + apply replicate_length.
      + apply filter_mask_false.
      + right. exists []. split; [constructor|done].
  Qed.

  Fixpoint rows_ok (ck cv : nat) (rows : list (nat * nat * (bool * bool))) : Prop :=
    match rows with
    | [] => True
    | (nk', nv', _) :: rows =>
        ck <= nk' <= length kflat /\ cv <= nv' <= length vflat /\ rows_ok nk' nv' rows
    end.
  Fixpoint answers (ck cv : nat) (rows : list (nat * nat * (bool * bool))) :
      option (list (option (list (K * V)))) :=
    match rows with
    | [] => Some []
    | (nk', nv', (a, b)) :: rows =>
        r ← rowans (take (nk' - ck) (drop ck kflat)) (take (nv' - cv) (drop cv vflat)) (a && b);
        rs ← answers nk' nv' rows;
        Some (r :: rs)
    end.
  Fixpoint cum {A} (n : nat) (ms : list (list A)) : list nat :=
    match ms with
    | [] => []
    | m :: ms => (n + length m) :: cum (n + length m) ms
    end.
  Definition row_flag (r : nat * nat * (bool * bool)) : bool := r.2.1 && r.2.2.

  Lemma fold_rows_None rows : foldl (fun acc r => s ← acc; row lw kflat s r) (@None (@st K)) rows = None.
  Proof. induction rows as [|r rows IH]; [done|]. exact IH. Qed.

  Lemma fold_cases rows s :
    cur_keys s <= length kflat ->
    rows_ok (cur_keys s) (cur_values s) rows -> new_last s = length (indices s) ->
    match fold_rows lw kflat rows s with
    | None => answers (cur_keys s) (cur_values s) rows = None
    | Some s' =>
        exists (ms : list (list (option K * nat))) mk,
          indices s' = indices s ++ concat ((fun m => m.*2) <$> ms) /\
          new_offsets s' = new_offsets s ++ cum (length (indices s)) ms /\
          mask s' = mask s ++ mk /\ cur_keys s + length mk <= length kflat /\
          filter_mask (drop (cur_keys s) kflat) mk = concat ((fun m => m.*1) <$> ms) /\
          ((mapM id (concat ((fun m => m.*1) <$> ms)) = None /\
            answers (cur_keys s) (cur_values s) rows = None) \/
           exists Ms, Forall2 (Forall2 R) Ms ms /\ length Ms = length rows /\
             answers (cur_keys s) (cur_values s) rows =
             Some (zip_with (fun r M => if row_flag r then Some M else None) rows Ms))
    end.
  Proof.
    revert s; induction rows as [|[[nk' nv'] [a b]] rows IH]; intros s Hck Hok Hlast.
    - cbn. exists [], []. cbn. rewrite !app_nil_r. split_and!; try done; try lia.
      + by destruct (drop _ _).
      + right. exists []. split; [constructor|done].
    - destruct Hok as (Hk & Hv & Hok). unfold fold_rows. cbn [foldl mbind option_bind].
      pose proof (row_cases s nk' nv' a b Hk Hv Hlast) as Hrow. cbn zeta in Hrow.
      cbn [answers].
      set (ks := take (nk' - cur_keys s) (drop (cur_keys s) kflat)) in *.
      set (vs := take (nv' - cur_values s) (drop (cur_values s) vflat)) in *.
      destruct (row lw kflat s (nk', nv', (a, b))) as [s1|] eqn:Er.
      + destruct Hrow as (m & mk & Hck1 & Hcv1 & Hind & Hl1 & Hno & Hmask & Hlmk & Hfm & Hans).
        specialize (IH s1). rewrite Hck1, Hcv1 in IH. specialize (IH ltac:(lia) Hok Hl1).
        unfold fold_rows in IH.
        destruct (foldl _ (Some s1) rows) as [s2|].
        * destruct IH as (ms & mk2 & Hi2 & Hn2 & Hm2 & Hlm2 & Hf2 & Hans2).
          exists (m :: ms), (mk ++ mk2). cbn [fmap list_fmap concat cum].
          split_and!.
          -- rewrite Hi2, Hind, <- app_assoc. done.
          -- rewrite Hn2, Hno, Hind, <- app_assoc. cbn [app]. rewrite app_length, fmap_length. done.
          -- rewrite Hm2, Hmask, <- app_assoc. done.
          -- rewrite app_length. lia.
          -- assert (drop (cur_keys s) kflat = ks ++ drop nk' kflat) as ->.
             { unfold ks. rewrite <- (take_drop (nk' - cur_keys s) (drop (cur_keys s) kflat)) at 1.
               f_equal. rewrite drop_drop. f_equal. lia. }
             rewrite filter_mask_app.
             ++ by rewrite Hfm, Hf2.
             ++ unfold ks. rewrite take_length, drop_length. lia.
          -- destruct Hans as [[Hm Hr]|(M & HM & Hr)].
             ++ left. rewrite Hr. split; [|done]. apply mapM_id_None. apply mapM_id_None in Hm.
                apply elem_of_app. by left.
             ++ rewrite Hr. cbn [mbind option_bind].
                destruct Hans2 as [[Hm3 Hr3]|(Ms & HMs & HlM & Hr3)].
                ** left. rewrite Hr3. split; [|done]. apply mapM_id_None. apply mapM_id_None in Hm3.
                   apply elem_of_app. by right.
                ** right. exists (M :: Ms). split_and!.
                   --- by constructor.
                   --- cbn. by rewrite HlM.
                   --- rewrite Hr3. done.
        * rewrite IH. by destruct (rowans _ _ _).
      + rewrite fold_rows_None. by rewrite Hrow.
  Qed.

  Lemma mapM_concat (Ms : list (list (K * V))) (ms : list (list (option K * nat))) :
    Forall2 (Forall2 R) Ms ms ->
    mapM (fun i => vflat !! i) (concat ((fun m => m.*2) <$> ms)) = Some (concat Ms).*2 /\
    mapM id (concat ((fun m => m.*1) <$> ms)) = Some (concat Ms).*1.
  Proof.
    intros HF.
    assert (Forall2 R (concat Ms) (concat ms)) as HF'.
    { induction HF; cbn; [constructor|]. by apply Forall2_app. }
    assert (forall {B} (f : option K * nat -> B), concat ((fun m : list (option K * nat) => f <$> m) <$> ms) = f <$> concat ms) as Hc.
    { intros B f. clear. induction ms as [|m ms IH]; [done|]. cbn. by rewrite IH, fmap_app. }
    rewrite !Hc. clear Hc HF. split; apply mapM_Some.
    - induction HF' as [|p q l k [H1 H2] Hf IH]; [apply Forall2_nil_2|]. apply Forall2_cons. done.
    - induction HF' as [|p q l k [H1 H2] Hf IH]; [apply Forall2_nil_2|]. apply Forall2_cons. done.
  Qed.

  Lemma cum_lookup {A} (ms : list (list A)) n i :
    i <= length ms -> (n :: cum n ms) !! i = Some (n + length (concat (take i ms))).
  Proof.
    revert n i; induction ms as [|m ms IH]; intros n i Hi.
    - cbn in Hi. assert (i = 0) as -> by lia. cbn. f_equal. lia.
    - destruct i as [|i]; [cbn; f_equal; lia|]. cbn [cum].
      change ((n :: n + length m :: cum (n + length m) ms) !! S i)
        with ((n + length m :: cum (n + length m) ms) !! i).
      rewrite IH by (cbn in Hi; lia). cbn [take concat]. rewrite app_length. f_equal. lia.
  Qed.
  Lemma cum_same {A B} (ms : list (list A)) (ns : list (list B)) n :
    Forall2 (fun m k => length m = length k) ms ns -> cum n ms = cum n ns.
  Proof. intros HF. revert n. induction HF as [|m k ms ns H HF IH]; intros n; cbn; [done|]. by rewrite H, IH. Qed.

  Lemma map_rows_eq (Ms : list (list (K * V))) valid :
    length Ms = length valid ->
    map_rows (concat Ms).*1 (concat Ms).*2 (0 :: cum 0 Ms) valid =
    zip_with (fun (b : bool) M => if b then Some M else None) valid Ms.
  Proof.
    intros Hlen. unfold map_rows. apply list_eq. intros i.
    rewrite list_lookup_imap. rewrite lookup_zip_with.
    destruct (valid !! i) as [b|] eqn:Eb; [|done]. cbn [fmap option_fmap option_map mbind option_bind].
    apply lookup_lt_Some in Eb. destruct (lookup_lt_is_Some_2 Ms i ltac:(lia)) as [M HM].
    rewrite HM. cbn [mbind option_bind]. f_equal. destruct b; [|done]. f_equal.
    rewrite !cum_lookup by lia. cbn [default from_option].
    rewrite !Nat.add_0_l. cbn [id]. rewrite zip_fst_snd. by apply take_drop_concat.
  Qed.
End rows.

Section cols.
  Context {K V : Type} `{EqDecision K}.
  Context (lw : bool) (keys : list_col (option K)) (values : list_col V).
  Context (Hk : well_formed keys) (Hv : well_formed values) (Hn : num_rows keys = num_rows values)
          (H0 : from_start keys).

  Let n := length (c_valid keys).
  Let rows := zip (zip (tail (c_offsets keys)) (tail (c_offsets values))) (zip (c_valid keys) (c_valid values)).

  Lemma offs_lookup {A} (c : list_col A) i :
    well_formed c -> i <= length (c_valid c) -> exists o, c_offsets c !! i = Some o.
  Proof. intros [Hl _] Hi. apply lookup_lt_is_Some_2. lia. Qed.

  Lemma rows_lookup i :
    i < n ->
    exists a b, c_valid keys !! i = Some a /\ c_valid values !! i = Some b /\
      rows !! i = Some (default 0 (c_offsets keys !! S i), default 0 (c_offsets values !! S i), (a, b)).
  Proof using Hk Hv Hn.
    intros Hi. unfold num_rows in Hn. fold n in Hn.
    destruct (lookup_lt_is_Some_2 (c_valid keys) i Hi) as [a Ha].
    destruct (lookup_lt_is_Some_2 (c_valid values) i ltac:(lia)) as [b Hb].
    destruct (offs_lookup keys (S i) Hk ltac:(fold n; lia)) as [o1 Ho1].
    destruct (offs_lookup values (S i) Hv ltac:(lia)) as [o2 Ho2].
    exists a, b. split_and!; [done|done|]. unfold rows.
    rewrite !lookup_zip_with. rewrite !lookup_tail, Ho1, Ho2, Ha, Hb. done.
  Qed.
  Lemma rows_length : length rows = n.
  Proof using Hk Hv Hn.
    unfold rows. rewrite !zip_with_length. unfold num_rows in Hn. fold n in Hn.
    destruct Hk as [H1 _], Hv as [H2 _]. fold n in H1.
    destruct (c_offsets keys), (c_offsets values); cbn in H1, H2 |- *; fold n; lia.
  Qed.

  Definition rowans_at (i : nat) : option (option (list (K * V))) :=
    rowans lw (row_of keys i) (row_of values i) (row_valid keys i && row_valid values i).

  Lemma answers_eq k j :
    j + k = n ->
    let ck := default 0 (c_offsets keys !! j) in
    let cv := default 0 (c_offsets values !! j) in
    rows_ok (c_values keys) (c_values values) ck cv (drop j rows) /\
    answers lw (c_values keys) (c_values values) ck cv (drop j rows) = mapM rowans_at (seq j k).
  Proof using Hk Hv Hn.
    revert j; induction k as [|k IH]; intros j Hj ck cv.
    - rewrite drop_ge by (rewrite rows_length; lia). done.
    - destruct (rows_lookup j ltac:(lia)) as (a & b & Ha & Hb & Hr).
      rewrite (drop_S _ _ _ Hr). destruct (IH (S j) ltac:(lia)) as [IH1 IH2].
      cbn [rows_ok answers seq]. split.
      + split_and!; try exact IH1.
        * destruct (offs_lookup keys j Hk ltac:(fold n; lia)) as [o1 E1].
          destruct (offs_lookup keys (S j) Hk ltac:(fold n; lia)) as [o2 E2].
          unfold ck. rewrite E1, E2. cbn. destruct Hk as [_ Hb']. by apply (Hb' j).
        * destruct (offs_lookup keys j Hk ltac:(fold n; lia)) as [o1 E1].
          destruct (offs_lookup keys (S j) Hk ltac:(fold n; lia)) as [o2 E2].
          rewrite E2. cbn. destruct Hk as [_ Hb']. by apply (Hb' j o1).
        * unfold num_rows in Hn. fold n in Hn.
          destruct (offs_lookup values j Hv ltac:(lia)) as [o1 E1].
          destruct (offs_lookup values (S j) Hv ltac:(lia)) as [o2 E2].
          unfold cv. rewrite E1, E2. cbn. destruct Hv as [_ Hb']. by apply (Hb' j).
        * unfold num_rows in Hn. fold n in Hn.
          destruct (offs_lookup values j Hv ltac:(lia)) as [o1 E1].
          destruct (offs_lookup values (S j) Hv ltac:(lia)) as [o2 E2].
          rewrite E2. cbn. destruct Hv as [_ Hb']. by apply (Hb' j o1).
      + rewrite IH2. cbn [mapM]. 
        assert (rowans_at j = rowans lw (take (default 0 (c_offsets keys !! S j) - ck) (drop ck (c_values keys)))
           (take (default 0 (c_offsets values !! S j) - cv) (drop cv (c_values values))) (a && b)) as ->.
        { unfold rowans_at, row_of, row_valid. rewrite Ha, Hb. done. }
        done.
  Qed.

  Lemma map_from_eq : map_from lw keys values = mapM rowans_at (seq 0 n).
  Proof using Hk Hv Hn H0.
    unfold map_from, dedup. fold rows.
    destruct (answers_eq n 0 ltac:(lia)) as [Hok Hans]. rewrite drop_0 in Hok, Hans.
    assert (default 0 (head (c_offsets keys)) = 0) as HkO by (unfold from_start in H0; by rewrite H0).
    assert (c_offsets keys !! 0 = Some 0) as Hk0.
    { unfold from_start in H0. by destruct (c_offsets keys). }
    assert (default 0 (head (c_offsets values)) = default 0 (c_offsets values !! 0)) as HvO
      by (by destruct (c_offsets values)).
    rewrite Hk0 in Hok, Hans. cbn [default from_option id] in Hok, Hans.
    rewrite HkO, HvO.
    set (s0 := St 0 (default 0 (c_offsets values !! 0)) 0 [0] [] [] []).
    pose proof (fold_cases lw (c_values keys) (c_values values) rows s0 ltac:(cbn; lia) Hok eq_refl) as Hf.
    destruct (fold_rows lw (c_values keys) rows s0) as [s'|].
    - destruct Hf as (ms & mk & Hi & Hno & Hm & Hlm & Hfm & Hcase).
      cbn [s0 cur_keys cur_values indices new_offsets mask app length] in *.
      rewrite drop_0 in Hfm. cbn [mbind option_bind]. rewrite <- Hans.
      destruct Hcase as [[Hnone ->]|(Ms & HMs & HlM & ->)].
      + rewrite Hi. destruct (mapM (fun i => c_values values !! i) _) as [vs|]; [|reflexivity]. cbn [mbind option_bind].
        destruct (decide _); [|done]. cbn [mbind option_bind]. by rewrite Hm, Hfm, Hnone.
      + destruct (mapM_concat _ _ _ HMs) as [Hvs Hks].
        rewrite Hi, Hvs. cbn [mbind option_bind].
        rewrite decide_True by (rewrite Hm; lia). cbn [mbind option_bind].
        rewrite Hm, Hfm, Hks. cbn [mbind option_bind]. f_equal.
        rewrite Hno. cbn [app].
        assert (cum 0 ms = cum 0 Ms) as ->.
        { symmetry. apply cum_same. eapply Forall2_impl; [exact HMs|].
          intros x y Hxy. by eapply Forall2_length. }
        rewrite rows_length in HlM.
        rewrite map_rows_eq.
        * apply list_eq. intros i. rewrite !lookup_zip_with.
          destruct (decide (i < n)) as [Hi'|Hi'].
          -- destruct (rows_lookup i Hi') as (a & b & Ha & Hb & Hr). rewrite Ha, Hb, Hr.
             cbn [mbind option_bind]. by destruct (Ms !! i).
          -- rewrite (lookup_ge_None_2 (c_valid keys)) by (fold n; lia). cbn [mbind option_bind].
             rewrite (lookup_ge_None_2 rows) by (rewrite rows_length; lia). done.
        * rewrite zip_with_length. unfold num_rows in Hn. fold n in Hn. fold n. lia.
    - cbn [mbind option_bind]. cbn [s0 cur_keys cur_values] in Hf. by rewrite <- Hans.
  Qed.
End cols.

Section answers.
  Context {K V : Type} `{EqDecision K}.

  Lemma rowans_ok lw (ks : list (option K)) (vs : list V) valid :
    match rowans lw ks vs valid with
    | None => valid = true /\ ~ exists m, row_ok lw ks vs m
    | Some None => valid = false
    | Some (Some m) => valid = true /\ row_ok lw ks vs m
    end.
  Proof.
    unfold rowans. destruct valid; [|done].
    destruct (mapM id ks) as [keys|] eqn:E; cbn [mbind option_bind].
    - apply mapM_id_Some in E. destruct (decide (length keys = length vs)) as [El|El].
      + destruct (lw || bool_decide (NoDup keys)) eqn:Eo.
        * split; [done|]. exists keys. split_and!; try done; [|apply build_last_win].
          intros ->. cbn in Eo. by apply bool_decide_eq_true in Eo.
        * split; [done|]. intros (m & keys' & Hk' & _ & Hnd & _).
          assert (keys = keys') as -> by (rewrite E in Hk'; by apply (inj (fmap Some)) in Hk').
          apply orb_false_iff in Eo as [-> Eo]. apply bool_decide_eq_false in Eo. auto.
      + split; [done|]. intros (m & keys' & Hk' & Hlen & _).
        assert (keys = keys') as -> by (rewrite E in Hk'; by apply (inj (fmap Some)) in Hk'). done.
    - split; [done|]. intros (m & keys' & Hk' & _). apply mapM_id_None in E. rewrite Hk' in E.
      apply elem_of_list_fmap in E as (x & Hx & _). done.
  Qed.

  Lemma row_ok_unique lw (ks : list (option K)) (vs : list V) m m' :
    row_ok lw ks vs m -> row_ok lw ks vs m' -> m = m'.
  Proof.
    intros (k1 & E1 & _ & _ & H1) (k2 & E2 & _ & _ & H2).
    assert (k1 = k2) as <- by (rewrite E1 in E2; by apply (inj (fmap Some)) in E2).
    by eapply last_win_unique.
  Qed.
End answers.
