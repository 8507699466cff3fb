(** Soundness of the uniqueness analysis. *)
From Coq Require Import NArith ZArith Lia.
From stdpp Require Import prelude list.
From Verif.Lib Require Import Text.
From Verif.Merge Require Import MergeModel MergeSpec MergeProofs MergeResultProofs MergeUniqueModel
  MergeUniqueSpec.

(** No two rows share non-NULL values of the key columns. *)
Definition unique_on (fs : list text) (rows : list row) (keys : list text) : Prop :=
  forall vs : list val,
    length (filter (fun r => map (col fs r) keys = map Some vs) rows) <= 1.

Lemma filter_length_le {A} (P Q : A -> Prop) `{!forall x, Decision (P x), !forall x, Decision (Q x)}
    (l : list A) :
  (forall x, x ∈ l -> P x -> Q x) -> length (filter P l) <= length (filter Q l).
Proof.
  intros Hpq. induction l as [|x l IH]; [done|]. rewrite !filter_cons.
  assert (IH' := IH (fun y Hy => Hpq y (elem_of_list_further _ _ _ Hy))).
  pose proof (Hpq x (elem_of_list_here _ _)) as Hx.
  destruct (decide (P x)), (decide (Q x)); cbn [length]; try lia. tauto.
Qed.
Lemma filter_filter_le {A} (P Q : A -> Prop) `{!forall x, Decision (P x), !forall x, Decision (Q x)}
    (l : list A) : length (filter P (filter Q l)) <= length (filter P l).
Proof.
  induction l as [|x l IH]; [done|]. rewrite !filter_cons.
  destruct (decide (Q x)); rewrite ?filter_cons; destruct (decide (P x)); cbn [length]; lia.
Qed.
Lemma filter_map_length {A B} (f : A -> B) (P : B -> Prop) `{!forall x, Decision (P x)}
    (l : list A) : length (filter P (map f l)) = length (filter (fun x => P (f x)) l).
Proof.
  induction l as [|x l IH]; [done|]. cbn [map]. rewrite !filter_cons.
  destruct (decide (P (f x))); cbn [length]; by rewrite IH.
Qed.
Lemma NoDup_all_equal {A} (l : list A) :
  NoDup l -> (forall x y, x ∈ l -> y ∈ l -> x = y) -> length l <= 1.
Proof.
  intros Hnd Heq. destruct l as [|x [|y l]]; cbn [length]; [lia|lia|].
  apply NoDup_cons in Hnd as [Hn _]. destruct Hn. rewrite (Heq x y); [left|left|right; left].
Qed.

Lemma position_lookup fs n i : position fs n = Some i -> fs !! i = Some n.
Proof.
  unfold position. destruct (list_find _ fs) as [[k f]|] eqn:E; [|done].
  intros [= ->]. apply list_find_Some in E as (H1 & -> & _). done.
Qed.
Lemma lookup_position fs i n : NoDup fs -> fs !! i = Some n -> position fs n = Some i.
Proof.
  intros Hnd Hi. unfold position.
  destruct (list_find (fun f => f = n) fs) as [[k f]|] eqn:E.
  - apply list_find_Some in E as (H1 & -> & _). cbn. f_equal. by eapply NoDup_lookup.
  - apply list_find_None in E. rewrite Forall_forall in E.
    destruct (E n); [|done]. by eapply elem_of_list_lookup_2.
Qed.

Lemma col_map fs (f : list (text * pexpr)) (g : pexpr -> cell) k :
  fs = map fst f ->
  col fs (map (fun it => g it.2) f) k =
  match list_find (fun it : text * pexpr => it.1 = k) f with
  | Some (_, (_, e)) => g e | None => None end.
Proof.
  intros ->. unfold col, position. induction f as [|[n e] f IH]; [done|].
  cbn [map list_find fst snd]. destruct (decide (n = k)); [done|].
  destruct (list_find (fun it : text * pexpr => it.1 = k) f) as [[i [n' e']]|] eqn:E1;
    destruct (list_find (fun f' => f' = k) (map fst f)) as [[i2 f2]|] eqn:E2;
    cbn [fmap option_fmap option_map fst prod_map] in IH |- *; cbn; cbn in IH; try done.
Qed.

Lemma map_keys_spec items keys keys' fs r :
  map_keys items keys = Some keys' ->
  map (col (map fst items) (map (fun it => peval fs it.2 r) items)) keys = map (col fs r) keys'.
Proof.
  revert keys'. induction keys as [|k ks IH]; intros keys'; cbn [map_keys]; [by intros [= <-]|].
  rewrite map_cons, (col_map _ items (fun e => peval fs e r)) by done.
  destruct (list_find _ items) as [[i [n e]]|]; [|done]. cbn [mbind option_bind].
  destruct e as [n'|n'|f]; [| |done]; cbn [mbind option_bind];
    destruct (map_keys items ks) as [ns|]; try done; cbn [mbind option_bind]; intros [= <-];
    cbn [map peval]; by rewrite (IH ns).
Qed.

Lemma group_columns_names gs ns : group_columns gs = Some ns -> map gname gs = ns.
Proof.
  revert ns. induction gs as [|[n|n f] gs IH]; intros ns; cbn [group_columns]; [by intros [= <-]| |done].
  destruct (group_columns gs); [|done]. cbn. intros [= <-]. by rewrite (IH l).
Qed.

(** The group columns of an aggregate row are its key. *)
Lemma col_prefix fs extra k tail i n :
  NoDup (fs ++ extra) -> length k = length fs -> fs !! i = Some n ->
  col (fs ++ extra) (k ++ tail) n = (c ← k !! i; c).
Proof.
  intros Hnd Hl Hi. unfold col.
  rewrite (lookup_position (fs ++ extra) i n); [|done|by apply lookup_app_l_Some].
  cbn. rewrite lookup_app_l; [done|]. rewrite Hl. by eapply lookup_lt_Some.
Qed.

Lemma norm_NoDup fs : NoDup (map norm_ident fs) -> NoDup fs.
Proof. apply (NoDup_fmap_1 norm_ident). Qed.

Lemma norm_inj fs a b :
  NoDup (map norm_ident fs) -> a ∈ fs -> b ∈ fs -> norm_ident a = norm_ident b -> a = b.
Proof.
  intros Hnd (i & Hi)%elem_of_list_lookup (j & Hj)%elem_of_list_lookup Heq.
  assert (i = j) as ->; [|congruence].
  eapply NoDup_lookup; [exact Hnd|..];
    change (map norm_ident) with (fmap (M := list) norm_ident); rewrite list_lookup_fmap.
  - by rewrite Hi.
  - rewrite Hj. cbn. by rewrite Heq.
Qed.

Lemma agg_unique groups aggs p keys :
  NoDup (map norm_ident (map gname groups ++ map fst aggs)) ->
  groups_exactly groups keys = true ->
  unique_on (fields (PAggregate groups aggs p)) (plan_rows (PAggregate groups aggs p)) keys.
Proof.
  intros Hnd He vs. unfold groups_exactly in He.
  destruct (group_columns groups) as [ns|] eqn:Eg; [|done].
  apply group_columns_names in Eg. cbn [fields plan_rows].
  set (key r := map (fun g => geval (fields p) g r) groups).
  set (mk k := k ++ map (fun a => a.2 (filter (fun r => key r = k) (plan_rows p))) aggs).
  rewrite Eg in *. rewrite filter_map_length.
  unfold same_column_set in He.
  rewrite !andb_true_iff, !bool_decide_eq_true, !forallb_forall in He.
  destruct He as ((((Hlen & Hna) & Hnb) & Hab) & Hba).
  apply NoDup_all_equal.
  { apply NoDup_filter, NoDup_remove_dups. }
  assert (Hkl : forall k, k ∈ remove_dups (map key (plan_rows p)) -> length k = length ns).
  { intros k Hk. apply elem_of_remove_dups, elem_of_list_fmap in Hk as (r & -> & _).
    unfold key. rewrite map_length. by rewrite <- Eg, map_length. }
  intros k1 k2 Hk1 Hk2. apply elem_of_list_filter in Hk1 as [Hv1 Hk1].
  apply elem_of_list_filter in Hk2 as [Hv2 Hk2].
  apply Hkl in Hk1. apply Hkl in Hk2.
  apply list_eq. intros i. destruct (ns !! i) as [n|] eqn:En.
  2: { apply lookup_ge_None in En. rewrite !lookup_ge_None_2 by lia. done. }
  assert (Hin : norm_ident n ∈ map norm_ident keys).
  { specialize (Hab (norm_ident n)). rewrite bool_decide_eq_true in Hab. apply Hab.
    apply in_map, elem_of_list_In. by eapply elem_of_list_lookup_2. }
  apply elem_of_list_fmap in Hin as (n' & Hn' & Hin).
  (* the key column is a column of the schema, since it has a non-NULL value *)
  apply elem_of_list_lookup in Hin as (j & Hj).
  assert (Hc : forall k, length k = length ns ->
    map (col (ns ++ map fst aggs) (mk k)) keys = map Some vs ->
    (c ← k !! i; c) = (v ← vs !! j; Some v)).
  { intros k Hl Hv.
    assert (Hvj : Some (col (ns ++ map fst aggs) (mk k) n') = Some <$> vs !! j).
    { change (map (col (ns ++ map fst aggs) (mk k))) with
        (fmap (M := list) (col (ns ++ map fst aggs) (mk k))) in Hv.
      change (map (@Some val)) with (fmap (M := list) (@Some val)) in Hv.
      rewrite <- list_lookup_fmap, <- Hv, list_lookup_fmap, Hj. done. }
    destruct (vs !! j) as [v|] eqn:Ev; [|done]. injection Hvj as Hvj. cbn.
    assert (n' = n) as ->.
    { apply (norm_inj (ns ++ map fst aggs)); [done| | |done].
      - unfold col in Hvj. destruct (position _ n') as [q|] eqn:Eq; [|done].
        apply position_lookup in Eq. by eapply elem_of_list_lookup_2.
      - apply elem_of_app. left. by eapply elem_of_list_lookup_2. }
    rewrite <- Hvj. unfold mk. symmetry. apply col_prefix; [|done|done].
    by apply norm_NoDup. }
  pose proof (Hc k1 Hk1 Hv1) as H1. pose proof (Hc k2 Hk2 Hv2) as H2.
  rewrite <- H2 in H1.
  destruct (k1 !! i) as [c1|] eqn:E1.
  2: { apply lookup_ge_None in E1. apply lookup_lt_Some in En. lia. }
  destruct (k2 !! i) as [c2|] eqn:E2.
  2: { apply lookup_ge_None in E2. apply lookup_lt_Some in En. lia. }
  cbn in H1. by rewrite H1.
Qed.

Lemma walk_sound p : forall keys, plan_ok p -> walk p keys = true ->
  unique_on (fields p) (plan_rows p) keys.
Proof.
  induction p as [fs rs|p IH|keep p IH|items p IH|groups aggs p IH]; intros keys [Hnd Hok];
    cbn [walk]; intros Hw; [done| | | |].
  - by apply IH.
  - intros vs. cbn [fields plan_rows]. etransitivity; [apply filter_filter_le|]. by apply IH.
  - destruct (map_keys items keys) as [keys'|] eqn:Ek; [|done].
    intros vs. cbn [fields plan_rows]. rewrite filter_map_length.
    etransitivity; [|apply (IH keys' Hok Hw vs)].
    apply filter_length_le. intros r _ Hr. by rewrite <- (map_keys_spec items keys keys').
  - by apply agg_unique.
Qed.

Lemma key_indices_spec fs keys acc is :
  key_indices fs keys acc = Some is ->
  forall i, i ∈ is -> i ∈ acc \/ exists k, k ∈ keys /\ exists f, fs !! i = Some f /\ norm_ident f = norm_ident k.
Proof.
  revert acc. induction keys as [|k ks IH]; intros acc; cbn [key_indices].
  - intros [= ->]. by left.
  - destruct (list_find _ fs) as [[i f]|] eqn:E; [|done]. cbn [mbind option_bind].
    case_bool_decide; [done|]. intros Hk j Hj. apply list_find_Some in E as (Hi & Hf & _).
    destruct (IH _ Hk j Hj) as [Hin|(k' & Hk' & Hf')].
    + apply elem_of_cons in Hin as [->|Hin]; [|by left]. right. exists k. split; [left|]. eauto.
    + right. exists k'. split; [by right|done].
Qed.

Lemma schema_sound fs fds rows keys :
  Forall (fd_holds rows) fds ->
  (forall k, k ∈ keys -> k ∈ fs) ->
  schema_implies_unique fs fds keys = true -> unique_on fs rows keys.
Proof.
  intros Hfds Hkeys Hs vs. unfold schema_implies_unique in Hs.
  destruct (bool_decide (NoDup (map norm_ident fs))) eqn:End; [|done].
  apply bool_decide_eq_true in End.
  destruct (key_indices fs keys []) as [[|i0 is']|] eqn:Ei; try done.
  set (is := i0 :: is') in *.
  apply existsb_exists in Hs as (d & Hd & Hs). apply andb_true_iff in Hs as [Hsg Hall].
  rewrite forallb_forall in Hall.
  rewrite Forall_forall in Hfds. specialize (Hfds d (proj2 (elem_of_list_In _ _) Hd) Hsg).
  (* the values of the dependency's columns in a row with these key values *)
  assert (Hval : forall i, In i (fd_source d) -> exists v, forall r,
    map (col fs r) keys = map Some vs -> r !! i = Some (Some v)).
  { intros i Hin. specialize (Hall i Hin). apply bool_decide_eq_true in Hall.
    destruct (key_indices_spec _ _ _ _ Ei i Hall) as [Hx|(k & Hk & f & Hf & Heq)];
      [by apply elem_of_nil in Hx|].
    assert (f = k) as ->.
    { apply (norm_inj fs); [done| |by apply Hkeys|done]. by eapply elem_of_list_lookup_2. }
    apply elem_of_list_lookup in Hk as (j & Hj).
    destruct (vs !! j) as [v|] eqn:Ev.
    - exists v. intros r Hr.
      assert (Hc : Some (col fs r k) = Some (Some v)).
      { change (map (col fs r)) with (fmap (M := list) (col fs r)) in Hr.
        change (map (@Some val)) with (fmap (M := list) (@Some val)) in Hr.
        transitivity ((col fs r <$> keys) !! j); [by rewrite list_lookup_fmap, Hj|].
        rewrite Hr, list_lookup_fmap, Ev. done. }
      injection Hc as Hc. unfold col in Hc.
      rewrite (lookup_position fs i k) in Hc; [|by apply norm_NoDup|done].
      cbn in Hc. destruct (r !! i) as [c|]; [|done]. cbn in Hc. by rewrite Hc.
    - exists (VInt 0). intros r Hr. exfalso.
      apply (f_equal length) in Hr. rewrite !map_length in Hr.
      apply lookup_ge_None in Ev. apply lookup_lt_Some in Hj. lia. }
  assert (Hws : exists ws, forall r, map (col fs r) keys = map Some vs ->
    Forall2 (fun i v => r !! i = Some (Some v)) (fd_source d) ws).
  { clear -Hval. induction (fd_source d) as [|i l IH].
    - exists []. intros. constructor.
    - destruct (Hval i (or_introl eq_refl)) as [v Hv].
      destruct IH as [ws Hws]; [intros i' Hi'; apply Hval; by right|].
      exists (v :: ws). intros r Hr. constructor; [by apply Hv|by apply Hws]. }
  destruct Hws as [ws Hws]. etransitivity; [|apply (Hfds ws)].
  apply filter_length_le. intros r _ Hr. by apply Hws.
Qed.

Lemma key_names_in fs pairs keys :
  key_column_names fs pairs = Some keys -> forall k, k ∈ keys -> k ∈ fs.
Proof.
  revert keys. induction pairs as [|[e1 e2] ps IH]; intros keys; cbn [key_column_names].
  - intros [= <-] k Hk. by apply elem_of_nil in Hk.
  - destruct e2 as [|i| | | |]; try done.
    destruct (fs !! i) as [n|] eqn:En; [|done]. cbn.
    destruct (key_column_names fs ps) as [ns|]; [|done]. cbn. intros [= <-] k Hk.
    apply elem_of_cons in Hk as [->|Hk]; [by eapply elem_of_list_lookup_2|]. by eapply IH.
Qed.

(** The values of the key columns of a source row that joins are those of the target row. *)
Lemma key_values fs t pairs keys :
  NoDup fs -> key_column_names fs pairs = Some keys ->
  exists vs, forall s, Forall (fun k => key_equal t s k = true) pairs ->
    map (col fs s) keys = map Some vs.
Proof.
  intros Hnd. revert keys. induction pairs as [|[e1 e2] ps IH]; intros keys;
    cbn [key_column_names].
  - intros [= <-]. exists []. done.
  - destruct e2 as [|i| | | |]; try done.
    destruct (fs !! i) as [n|] eqn:En; [|done]. cbn.
    destruct (key_column_names fs ps) as [ns|]; [|done]. cbn. intros [= <-].
    destruct (IH ns eq_refl) as [vs Hvs].
    destruct (eval e1 (Some t) None) as [v|] eqn:Ev.
    + exists (v :: vs). intros s Hs. apply Forall_cons in Hs as [H1 H2].
      apply key_equal_true in H1 as (x & Hx1 & Hx2). cbn in Hx1, Hx2.
      cbn [map]. rewrite (Hvs s H2). f_equal.
      unfold col. rewrite (lookup_position fs i n Hnd En). cbn.
      rewrite Ev in Hx1. injection Hx1 as <-. by destruct (s !! i).
    + exists []. intros s Hs. apply Forall_cons in Hs as [H1 _].
      apply key_equal_true in H1 as (x & Hx1 & _). cbn in Hx1. congruence.
Qed.

Lemma unique_sound p fds m t :
  plan_ok p -> Forall (fd_holds (plan_rows p)) fds ->
  source_is_unique p fds (analyze (split_conjunction (m_on m))).1 = true ->
  length (matches m (plan_rows p) t) <= 1.
Proof.
  intros Hok Hfd Hu. unfold source_is_unique, source_key_names in Hu.
  destruct (key_column_names _ _) as [keys|] eqn:Ek; [|done]. cbn [mbind option_bind] in Hu.
  case_bool_decide; [done|].
  assert (Hnd : NoDup (map norm_ident (fields p))) by (destruct p; by destruct Hok).
  assert (Huniq : unique_on (fields p) (plan_rows p) keys).
  { apply orb_true_iff in Hu as [Hu|Hu].
    - eapply schema_sound; [done| |exact Hu]. by eapply key_names_in.
    - by apply walk_sound. }
  destruct (key_values (fields p) t _ keys (norm_NoDup _ Hnd) Ek) as [vs Hvs].
  etransitivity; [|apply (Huniq vs)]. unfold matches. apply filter_length_le.
  intros s _ Hs. apply Hvs. apply split_true, analyze_true in Hs. tauto.
Qed.

Lemma unique_ok_source p fds m ts :
  plan_ok p -> Forall (fd_holds (plan_rows p)) fds ->
  unique_ok m (unique_source m p fds) ts (plan_rows p).
Proof.
  intros Hok Hfd Hu. apply Forall_true. intros t. by eapply unique_sound.
Qed.
