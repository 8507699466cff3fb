From Coq Require Import Lia.
From stdpp Require Import prelude list.
From Verif Require Import Functions.MapModel Functions.MapSpec.

Lemma list_filter_all {A} (P : A -> Prop) `{!forall x, Decision (P x)} (l : list A) :
  (forall i x, l !! i = Some x -> P x) -> filter P l = l.
Proof.
  induction l as [|x l IH]; intros Hall; [done|]. rewrite filter_cons, decide_True.
  - f_equal. apply IH. intros i y Hy. by apply (Hall (S i)).
  - by apply (Hall 0).
Qed.

(** Association lists with update in place. *)
Section put.
  Context {K V : Type} `{EqDecision K}.

  Fixpoint put (k : K) (v : V) (m : list (K * V)) : list (K * V) :=
    match m with
    | [] => [(k, v)]
    | (k', v') :: m => if decide (k = k') then (k', v) :: m else (k', v') :: put k v m
    end.
  Definition build (ps m : list (K * V)) : list (K * V) := foldl (fun m p => put p.1 p.2 m) m ps.

  Lemma put_fresh k v m : k ∉ m.*1 -> put k v m = m ++ [(k, v)].
  Proof.
    induction m as [|[k' v'] m IH]; intros Hk; [done|]. cbn [fmap list_fmap fst] in Hk.
    apply not_elem_of_cons in Hk as [Hne Hk]. cbn [put app].
    rewrite decide_False by done. by rewrite IH.
  Qed.

  Lemma put_seen k v m p : NoDup m.*1 -> m.*1 !! p = Some k -> put k v m = <[p := (k, v)]> m.
  Proof.
    revert p; induction m as [|[k' v'] m IH]; intros p Hnd Hp; [done|].
    cbn [fmap list_fmap fst] in Hnd. apply NoDup_cons in Hnd as [Hk Hnd].
    destruct p as [|p].
    - cbn in Hp. apply (inj Some) in Hp. subst k'. cbn [put]. by rewrite decide_True.
    - assert (m.*1 !! p = Some k) as Hp' by exact Hp.
      cbn [put]. rewrite decide_False.
      + by rewrite (IH p Hnd Hp').
      + intros ->. apply Hk. by eapply elem_of_list_lookup_2.
  Qed.

  Lemma put_keys k v m :
    NoDup m.*1 -> (put k v m).*1 = if decide (k ∈ m.*1) then m.*1 else m.*1 ++ [k].
  Proof.
    intros Hnd. destruct (decide (k ∈ m.*1)) as [H|H].
    - apply elem_of_list_lookup in H as [p Hp]. rewrite (put_seen k v m p Hnd Hp).
      rewrite list_fmap_insert. cbn [fst]. by apply list_insert_id.
    - rewrite put_fresh by done. by rewrite fmap_app.
  Qed.

  Lemma put_NoDup k v m : NoDup m.*1 -> NoDup (put k v m).*1.
  Proof.
    intros Hnd. rewrite put_keys by done. destruct (decide _); [done|].
    apply NoDup_app. split_and!; [done| |apply NoDup_singleton].
    intros x Hx Hx'. apply elem_of_list_singleton in Hx'. by subst.
  Qed.

  Lemma elem_of_put k v m k' v' :
    NoDup m.*1 ->
    (k', v') ∈ put k v m <-> (k' = k /\ v' = v) \/ (k' <> k /\ (k', v') ∈ m).
  Proof.
    induction m as [|[k1 v1] m IH]; intros Hnd; cbn [put].
    - rewrite elem_of_list_singleton, elem_of_nil, pair_equal_spec. tauto.
    - cbn [fmap list_fmap fst] in Hnd. apply NoDup_cons in Hnd as [Hk Hnd].
      destruct (decide (k = k1)) as [->|Hne].
      + rewrite !elem_of_cons, !pair_equal_spec. split.
        * intros [[-> ->]|Hm]; [by left|]. right. split; [|by right].
          intros ->. apply Hk. apply elem_of_list_fmap. by exists (k1, v').
        * intros [[-> ->]|[Hne [[-> ->]|Hm]]]; [by left|done|by right].
      + rewrite !elem_of_cons, IH by done. rewrite !pair_equal_spec. split.
        * intros [[-> ->]|[[-> ->]|[H1 H2]]]; [right; split; [done|by left]|by left|].
          right. split; [done|by right].
        * intros [[-> ->]|[H1 [[-> ->]|H2]]]; [right; by left|by left|]. right; by right.
  Qed.

  Lemma build_NoDup ps m : NoDup m.*1 -> NoDup (build ps m).*1.
  Proof.
    revert m; induction ps as [|[k v] ps IH]; intros m Hnd; cbn; [done|].
    by apply IH, put_NoDup.
  Qed.

  Lemma elem_of_build ps m k v :
    NoDup m.*1 ->
    (k, v) ∈ build ps m <->
    (exists l r, ps = l ++ (k, v) :: r /\ k ∉ r.*1) \/ ((k, v) ∈ m /\ k ∉ ps.*1).
  Proof.
    revert m; induction ps as [|[k1 v1] ps IH]; intros m Hnd; cbn [build foldl].
    - cbn. rewrite elem_of_nil. split.
      + intros H. right. tauto.
      + intros [(l & r & H & _)|[H _]]; [by destruct l|done].
    - cbn [fst snd]. fold (build ps (put k1 v1 m)). rewrite IH by (by apply put_NoDup).
      rewrite elem_of_put by done. cbn [fmap list_fmap fst]. rewrite elem_of_cons.
      split.
      + intros [(l & r & -> & Hr)|[[[-> ->]|[Hne Hm]] Hps]].
        * left. exists ((k1, v1) :: l), r. done.
        * left. exists [], ps. done.
        * right. split; [done|]. tauto.
      + intros [(l & r & Heq & Hr)|[Hm Hps]].
        * destruct l as [|p l]; cbn in Heq.
          -- injection Heq as -> -> ->. right. split; [by left|done].
          -- apply (f_equal tail) in Heq. cbn [tail] in Heq. left. exists l, r. done.
        * right. split; [right; tauto|tauto].
  Qed.

  Lemma firsts_NoDup (l : list K) : NoDup (firsts l).
  Proof.
    induction l as [|x l IH]; cbn; [constructor|]. constructor; [|by apply NoDup_filter].
    rewrite elem_of_list_filter. tauto.
  Qed.
  Lemma elem_of_firsts x (l : list K) : x ∈ firsts l <-> x ∈ l.
  Proof.
    induction l as [|y l IH]; cbn; [done|]. rewrite !elem_of_cons, elem_of_list_filter, IH.
    destruct (decide (x = y)); tauto.
  Qed.
  Lemma firsts_id (l : list K) : NoDup l -> firsts l = l.
  Proof.
    induction 1 as [|x l Hx Hnd IH]; cbn; [done|]. rewrite IH. f_equal.
    apply list_filter_all. intros i y Hy ->. apply Hx. by eapply elem_of_list_lookup_2.
  Qed.

  Lemma build_keys ps m :
    NoDup m.*1 -> (build ps m).*1 = m.*1 ++ filter (fun y => y ∉ m.*1) (firsts ps.*1).
  Proof.
    revert m; induction ps as [|[k v] ps IH]; intros m Hnd.
    - cbn. by rewrite app_nil_r.
    - cbn [build foldl fst snd]. fold (build ps (put k v m)).
      rewrite IH by (by apply put_NoDup). cbn [fmap list_fmap fst firsts].
      rewrite put_keys by done. rewrite filter_cons.
      destruct (decide (k ∈ m.*1)) as [H|H].
      + rewrite (decide_False (P := k ∉ m.*1)) by tauto. f_equal.
        rewrite list_filter_filter. apply list_filter_iff. intros x.
        split; [|tauto]. intros Hx. split; [done|]. intros ->. done.
      + rewrite (decide_True (P := k ∉ m.*1)) by done. rewrite <- app_assoc. cbn [app]. f_equal. f_equal.
        rewrite list_filter_filter. apply list_filter_iff. intros x.
        rewrite elem_of_app, elem_of_list_singleton. tauto.
  Qed.

  Lemma build_last_win ps : last_win_map ps (build ps []).
  Proof.
    split.
    - rewrite build_keys by constructor. cbn [fmap list_fmap app].
      apply list_filter_all. intros i x _. apply not_elem_of_nil.
    - intros k v. rewrite elem_of_build by constructor. rewrite elem_of_nil. tauto.
  Qed.

  Lemma last_win_unique (ps m m' : list (K * V)) :
    last_win_map ps m -> last_win_map ps m' -> m = m'.
  Proof.
    intros [Hk Hm] [Hk' Hm'].
    assert (m.*1 = m'.*1) as Hkk by congruence.
    assert (NoDup m.*1) as Hnd by (rewrite Hk; apply firsts_NoDup).
    apply list_eq. intros i.
    destruct (m !! i) as [[k v]|] eqn:Ei, (m' !! i) as [[k' v']|] eqn:Ei'; [|exfalso|exfalso|done].
    - assert (k = k') as <-.
      { assert (m.*1 !! i = Some k) as H1 by (by rewrite list_lookup_fmap, Ei).
        rewrite Hkk, list_lookup_fmap, Ei' in H1. by injection H1. }
      assert ((k, v) ∈ m') as Hin.
      { apply Hm', Hm. by eapply elem_of_list_lookup_2. }
      apply elem_of_list_lookup in Hin as [j Hj].
      assert (i = j) as <-.
      { rewrite Hkk in Hnd. apply (NoDup_lookup m'.*1 i j k Hnd).
        - by rewrite list_lookup_fmap, Ei'.
        - by rewrite list_lookup_fmap, Hj. }
      congruence.
    - apply lookup_ge_None in Ei'. apply lookup_lt_Some in Ei.
      apply (f_equal length) in Hkk. rewrite !fmap_length in Hkk. lia.
    - apply lookup_ge_None in Ei. apply lookup_lt_Some in Ei'.
      apply (f_equal length) in Hkk. rewrite !fmap_length in Hkk. lia.
  Qed.
End put.

(** Building with other names for the keys and values. *)
Lemma put_Forall2 {K V K' V'} `{EqDecision K, EqDecision K'}
    (RK : K -> K' -> Prop) (RV : V -> V' -> Prop) k k' v v' m m' :
  (forall x x' y y', RK x x' -> RK y y' -> x = y <-> x' = y') ->
  RK k k' -> RV v v' ->
  Forall2 (fun p q => RK p.1 q.1 /\ RV p.2 q.2) m m' ->
  Forall2 (fun p q => RK p.1 q.1 /\ RV p.2 q.2) (put k v m) (put k' v' m').
Proof.
  intros HR Hk Hv. induction 1 as [|[x y] [x' y'] m m' [Hx Hy] Hm IH]; cbn [put].
  - constructor; [done|constructor].
  - cbn [fst snd] in Hx, Hy. destruct (decide (k = x)) as [E|E].
    + rewrite decide_True by (by apply (HR k k' x x')). constructor; [done|done].
    + rewrite decide_False.
      * constructor; [done|exact IH].
      * intros E'. apply E. by apply (HR k k' x x').
Qed.
Lemma build_Forall2 {K V K' V'} `{EqDecision K, EqDecision K'}
    (RK : K -> K' -> Prop) (RV : V -> V' -> Prop) ps ps' m m' :
  (forall x x' y y', RK x x' -> RK y y' -> x = y <-> x' = y') ->
  Forall2 (fun p q => RK p.1 q.1 /\ RV p.2 q.2) ps ps' ->
  Forall2 (fun p q => RK p.1 q.1 /\ RV p.2 q.2) m m' ->
  Forall2 (fun p q => RK p.1 q.1 /\ RV p.2 q.2) (build ps m) (build ps' m').
Proof.
  intros HR Hps. revert m m'. induction Hps as [|p p' ps ps' [H1 H2] Hps IH]; intros m m' Hm; cbn; [done|].
  apply IH. by apply put_Forall2.
Qed.

Section entries.
  Context {K V : Type} `{EqDecision K}.
  Implicit Types (s : @st K) (m : list (option K * nat)).

  Lemma assoc_Some (k : option K) l v : NoDup l.*1 -> assoc k l = Some v <-> (k, v) ∈ l.
  Proof.
    induction l as [|[k' v'] l IH]; cbn [assoc fmap list_fmap fst].
    - intros _. by rewrite elem_of_nil.
    - intros Hnd. apply NoDup_cons in Hnd as [Hk Hnd]. rewrite elem_of_cons, pair_equal_spec.
      destruct (decide (k = k')) as [->|Hne].
      + split; [intros H; apply (inj Some) in H; by left|].
        intros [[_ ->]|Hin]; [done|]. exfalso. apply Hk. apply elem_of_list_fmap. by exists (k', v).
      + rewrite IH by done. tauto.
  Qed.
  Lemma assoc_None (k : option K) l : assoc k l = None <-> k ∉ l.*1.
  Proof.
    induction l as [|[k' v'] l IH]; cbn [assoc fmap list_fmap fst].
    - split; [intros _; apply not_elem_of_nil|done].
    - rewrite not_elem_of_cons. destruct (decide (k = k')); [naive_solver|]. rewrite IH. tauto.
  Qed.

  (** The state of the loop inside a row, after the keys [pre]. *)
  Record inv (s0 : @st K) (pre : list (option K)) m (s : @st K) : Prop := {
    i_nodup : NoDup m.*1;
    i_seen : seen s = reverse (zip m.*1 (seq (length (indices s0)) (length m)));
    i_ind : indices s = indices s0 ++ m.*2;
    i_last : new_last s = length (indices s);
    i_mask : exists mk, mask s = mask s0 ++ mk /\ length mk = length pre /\ filter_mask pre mk = m.*1;
    i_rest : cur_keys s = cur_keys s0 /\ cur_values s = cur_values s0 /\ new_offsets s = new_offsets s0 }.

  Lemma filter_mask_app {A} (l1 l2 : list A) (m1 m2 : list bool) :
    length l1 = length m1 -> filter_mask (l1 ++ l2) (m1 ++ m2) = filter_mask l1 m1 ++ filter_mask l2 m2.
  Proof.
    revert m1; induction l1 as [|x l1 IH]; intros [|b m1] H; try done.
    cbn [app filter_mask]. cbn in H. rewrite IH by lia. by destruct b.
  Qed.

  Lemma entries_inv lw keys vi s0 pre m s :
    inv s0 pre m s ->
    match entries lw keys vi s with
    | Some s' =>
        inv s0 (pre ++ keys) (build (zip keys (seq vi (length keys))) m) s' /\
        (lw = false -> NoDup (m.*1 ++ keys))
    | None => lw = false /\ ~ NoDup (m.*1 ++ keys)
    end.
  Proof.
    revert vi pre m s; induction keys as [|k keys IH]; intros vi pre m s Hinv.
    - cbn. rewrite !app_nil_r. split; [done|]. intros _. apply Hinv.
    - cbn [entries]. destruct Hinv as [Hnd Hseen Hind Hlast (mk & Hmk & Hlen & Hfm) Hrest].
      assert (length (seq (length (indices s0)) (length m)) = length m.*1) as Hzl
        by (by rewrite seq_length, fmap_length).
      assert ((seen s).*1 = reverse m.*1) as Hs1.
      { rewrite Hseen, fmap_reverse. f_equal. rewrite fst_zip; [done|lia]. }
      assert (NoDup (seen s).*1) as Hsnd by (rewrite Hs1, reverse_Permutation; done).
      destruct (assoc k (seen s)) as [out|] eqn:Ea.
      + apply assoc_Some in Ea; [|done].
        rewrite Hseen, elem_of_reverse in Ea.
        apply elem_of_list_lookup in Ea as [p Hp].
        apply lookup_zip_with_Some in Hp as (k' & o' & Heq & Hp1 & Hp2).
        apply pair_equal_spec in Heq as [<- <-].
        apply lookup_seq in Hp2 as [-> Hplt].
        destruct lw.
        * assert (inv s0 (pre ++ [k]) (put k vi m)
                    (St (cur_keys s) (cur_values s) (new_last s) (new_offsets s)
                    (mask s ++ [false]) (<[length (indices s0) + p := vi]> (indices s)) (seen s))) as Hi.
          { assert ((put k vi m).*1 = m.*1) as Hpk.
            { rewrite put_keys by done. rewrite decide_True; [done|]. by eapply elem_of_list_lookup_2. }
            split; cbn [seen indices new_last mask cur_keys cur_values new_offsets].
            - rewrite Hpk. done.
            - rewrite Hpk, Hseen. by rewrite (put_seen k vi m p Hnd Hp1), insert_length.
            - rewrite Hind, (put_seen k vi m p Hnd Hp1), list_fmap_insert. cbn [snd].
              by rewrite insert_app_r.
            - rewrite insert_length. done.
            - exists (mk ++ [false]). rewrite Hmk, <- app_assoc. split_and!; [done| |].
              + rewrite !app_length. cbn. lia.
              + rewrite filter_mask_app by done. cbn. rewrite app_nil_r, Hpk. done.
            - done. }
          specialize (IH (S vi) _ _ _ Hi). destruct (entries _ _ _ _) as [s'|].
          -- cbn [seq length zip zip_with build foldl fst snd].
             rewrite <- app_assoc in IH. destruct IH as [IH _]. split; [exact IH|done].
          -- destruct IH. done.
        * split; [done|]. rewrite NoDup_app. intros (_ & Hd & _).
          apply (Hd k); [by eapply elem_of_list_lookup_2|by left].
      + apply assoc_None in Ea. rewrite Hs1, elem_of_reverse in Ea.
        assert (inv s0 (pre ++ [k]) (put k vi m)
                    (St (cur_keys s) (cur_values s) (S (new_last s)) (new_offsets s)
                  (mask s ++ [true]) (indices s ++ [vi])
                  ((k, length (indices s)) :: seen s))) as Hi.
        { rewrite put_fresh by done.
          split; cbn [seen indices new_last mask cur_keys cur_values new_offsets].
          - rewrite fmap_app. cbn. apply NoDup_app. split_and!; [done| |apply NoDup_singleton].
            intros x Hx Hx'. apply elem_of_list_singleton in Hx'. by subst.
          - rewrite app_length. cbn [length]. rewrite seq_app, fmap_app.
            cbn [seq fmap list_fmap fst]. rewrite zip_with_app by done.
            cbn [zip zip_with]. rewrite reverse_app. cbn. rewrite Hseen.
            rewrite Hind, app_length, fmap_length. done.
          - rewrite Hind, fmap_app, <- app_assoc. done.
          - rewrite app_length. cbn. lia.
          - exists (mk ++ [true]). rewrite Hmk, <- app_assoc. split_and!; [done| |].
            + rewrite !app_length. cbn. lia.
            + rewrite filter_mask_app by done. cbn. rewrite fmap_app, Hfm. done.
          - done. }
        specialize (IH (S vi) _ _ _ Hi).
        assert ((put k vi m).*1 ++ keys = m.*1 ++ k :: keys) as Heq.
        { rewrite put_fresh by done. rewrite fmap_app, <- app_assoc. done. }
        rewrite Heq in IH.
        destruct (entries _ _ _ _) as [s'|].
        -- cbn [seq length zip zip_with build foldl fst snd].
           rewrite <- app_assoc in IH. exact IH.
        -- exact IH.
  Qed.
End entries.
