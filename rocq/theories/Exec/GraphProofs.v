From stdpp Require Import prelude list relations.
From Verif.Lib Require Import ListFacts.
From Verif.Exec Require Import GraphModel GraphSpec.

(** * Edges and adjacency *)

Lemma elem_of_edges g s inp :
  (s, inp) ∈ edges g <-> exists st, g !! s = Some st /\ inp ∈ st_inputs st.
Proof.
  unfold edges. rewrite elem_of_flat_map. split.
  - intros (s' & Hs & (i & [= -> ->] & Hi)%elem_of_map_iff).
    unfold inputs_of in Hi. destruct (g !! s') as [st|] eqn:E; [|set_solver]. eauto.
  - intros (st & Hst & Hi). exists s. split.
    + apply elem_of_seq_iff. apply lookup_lt_Some in Hst. lia.
    + apply elem_of_map_iff. exists inp. split; [done|]. unfold inputs_of. by rewrite Hst.
Qed.

Lemma is_pipelined_true g s : is_pipelined g s = true <-> pipelined g s.
Proof.
  unfold is_pipelined, pipelined. destruct (g !! s) as [st|]; [|naive_solver].
  split.
  - destruct (st_mode st) eqn:E; [|done]. intros _. exists st. done.
  - intros (st' & [= <-] & ->). done.
Qed.

Lemma feeds_edges g i m s : feeds g i m s <-> (s, StageInput i m) ∈ edges g.
Proof. rewrite elem_of_edges. done. Qed.

Lemma elem_of_adjacency g u v : v ∈ adjacency g u <-> linked g u v.
Proof.
  unfold adjacency, linked, pedge. rewrite elem_of_flat_map. split.
  - intros ([s [i m]] & He & Hv); simpl in *.
    destruct (is_pipelined g i) eqn:Ep; [|set_solver]. apply is_pipelined_true in Ep.
    apply feeds_edges in He.
    apply elem_of_app in Hv as [Hv|Hv]; case_decide; try (by apply elem_of_nil in Hv).
    + apply elem_of_list_singleton in Hv as ->. subst. left. eauto.
    + apply elem_of_list_singleton in Hv as ->. subst. right. eauto.
  - intros [(Hp & m & Hf)|(Hp & m & Hf)]; apply feeds_edges in Hf;
      eexists; (split; [exact Hf|]); simpl; apply is_pipelined_true in Hp; rewrite Hp;
      apply elem_of_app; [left|right]; rewrite decide_True by done; set_solver.
Qed.

Lemma linked_sym g u v : linked g u v -> linked g v u.
Proof. unfold linked. tauto. Qed.

(** * Breadth-first search *)

Lemma bfs_push_fold vs visited queue :
  NoDup visited -> 
  let r := foldl bfs_push (visited, queue) vs in
  exists new, r.2 = queue ++ new /\ NoDup r.1 /\ NoDup new /\
    (forall x, x ∈ new -> x ∈ vs /\ x ∉ visited) /\
    (forall x, x ∈ r.1 <-> x ∈ visited \/ x ∈ new) /\
    (forall x, x ∈ vs -> x ∈ r.1).
Proof.
  revert visited queue. induction vs as [|v vs IH]; intros visited queue Hnd; simpl.
  - exists []. rewrite app_nil_r. split_and!; try done; try set_solver; constructor.
  - unfold bfs_push at 2 4 6 8. simpl. case_decide as Hv.
    + destruct (IH visited queue Hnd) as (new & H1 & H2 & H3 & H4 & H5 & H6).
      exists new. split_and!; try done; try set_solver.
    + destruct (IH (v :: visited) (queue ++ [v])) as (new & H1 & H2 & H3 & H4 & H5 & H6).
      { by apply NoDup_cons. }
      exists (v :: new). rewrite H1, <- app_assoc. simpl. split_and!; try done.
      * apply NoDup_cons. split; [|done]. intros Hn. apply H4 in Hn. set_solver.
      * intros x [->|Hx]%elem_of_cons; [set_solver|]. apply H4 in Hx. set_solver.
      * intros x. rewrite H5. set_solver.
      * intros x [->|Hx]%elem_of_cons; [apply H5; set_solver|by apply H6].
Qed.

Lemma bfs_correct fuel adj n (V : list nat) s visited queue comp :
  (forall u v, u < n -> v ∈ adj u -> v < n) ->
  NoDup visited ->
  NoDup (comp ++ queue) ->
  (forall x, x ∈ visited <-> x ∈ V \/ x ∈ comp ++ queue) ->
  (forall x, x ∈ comp ++ queue -> x ∉ V /\ x < n /\ rtc (fun a b => b ∈ adj a) s x) ->
  (forall x y, x ∈ comp -> y ∈ adj x -> y ∈ visited) ->
  n <= fuel + length comp ->
  let r := bfs fuel adj visited queue comp in
  NoDup r.1 /\ NoDup r.2 /\ (exists rest, r.2 = comp ++ rest) /\
  (forall x, x ∈ r.1 <-> x ∈ V \/ x ∈ r.2) /\
  (forall x, x ∈ comp ++ queue -> x ∈ r.2) /\
  (forall x, x ∈ r.2 -> x ∉ V /\ x < n /\ rtc (fun a b => b ∈ adj a) s x) /\
  (forall x y, x ∈ r.2 -> y ∈ adj x -> y ∈ r.1).
Proof.
  intros Hadj. revert visited queue comp.
  induction fuel as [|fuel IH]; intros visited queue comp Hnv Hncq Hvis Hin Hcl Hfuel.
  - assert (queue = []) as ->.
    { destruct queue as [|q queue]; [done|]. exfalso.
      assert (length (comp ++ q :: queue) <= n).
      { apply NoDup_length_bound; [done|]. intros x Hx. by apply Hin. }
      rewrite app_length in H. simpl in H. lia. }
    rewrite app_nil_r in *. simpl. split_and!; auto. exists []. by rewrite app_nil_r.
  - destruct queue as [|u queue].
    { rewrite app_nil_r in *. simpl. split_and!; auto. exists []. by rewrite app_nil_r. }
    simpl. destruct (foldl bfs_push (visited, queue) (adj u)) as [visited' queue'] eqn:E.
    destruct (bfs_push_fold (adj u) visited queue Hnv) as (new & H1 & H2 & H3 & H4 & H5 & H6).
    rewrite E in *. simpl in *. subst queue'.
    assert (Hu : u ∉ V /\ u < n /\ rtc (fun a b => b ∈ adj a) s u) by (apply Hin, elem_of_app; right; left).
    edestruct (IH visited' (queue ++ new) (comp ++ [u])) as (G1 & G2 & (rest & G3) & G4 & G5 & G6 & G7).
    + done.
    + replace ((comp ++ [u]) ++ queue ++ new) with ((comp ++ u :: queue) ++ new)
        by by rewrite <- !app_assoc.
      apply NoDup_app. split_and!; [done| |done].
      intros x Hx Hn. apply H4 in Hn as [_ Hn]. apply Hn, Hvis. by right.
    + intros x. rewrite H5, Hvis, !elem_of_app, !elem_of_cons, ?elem_of_nil. tauto.
    + intros x Hx. destruct (decide (x ∈ comp ++ u :: queue)) as [Hx'|Hx']; [by apply Hin|].
      assert (Hn : x ∈ new).
      { revert Hx Hx'. rewrite !elem_of_app, !elem_of_cons, ?elem_of_nil. tauto. }
      apply H4 in Hn as [Hxa Hxv]. split_and!.
      * intros HV. apply Hxv, Hvis. by left.
      * eapply Hadj; [|exact Hxa]. tauto.
      * eapply rtc_r; [apply Hu|exact Hxa].
    + intros x y Hx Hy. destruct (decide (x = u)) as [->|Hne]; [by apply H6|].
      apply H5. left. eapply Hcl; [|exact Hy]. apply elem_of_app in Hx as [Hx|Hx%elem_of_list_singleton]; done.
    + rewrite app_length. simpl. lia.
    + split_and!; auto.
      * exists (u :: rest). by rewrite G3, <- app_assoc.
      * intros x Hx. apply G5. revert Hx. rewrite !elem_of_app, !elem_of_cons, ?elem_of_nil. tauto.
Qed.

(** * Components *)

Definition wf_edges (g : graph) : Prop := forall s inp, (s, inp) ∈ edges g -> in_stage inp < length g.

Lemma adjacency_lt g u v : wf_edges g -> v ∈ adjacency g u -> v < length g.
Proof.
  intros Hwf Hv%elem_of_adjacency. destruct Hv as [(_ & m & Hf)|(_ & m & Hf)].
  - apply feeds_edges in Hf. by apply Hwf in Hf.
  - destruct Hf as (st & Hst & _). by apply lookup_lt_Some in Hst.
Qed.

Definition comps_inv (g : graph) (upto : nat) (visited : list nat) (comps : list (list nat)) : Prop :=
  NoDup (concat comps) /\
  (forall x, x ∈ visited <-> x ∈ concat comps) /\
  NoDup visited /\
  (forall x, x < upto -> x ∈ visited) /\
  (forall c, c ∈ comps -> c <> [] /\
     (forall x, x ∈ c -> x < length g) /\
     (forall x y, x ∈ c -> linked g x y -> y ∈ c) /\
     (forall x y, x ∈ c -> y ∈ c -> rtc (linked g) x y)).

Lemma rtc_linked_sym g x y : rtc (linked g) x y -> rtc (linked g) y x.
Proof. induction 1; [done|]. eapply rtc_r; [done|]. by apply linked_sym. Qed.

Lemma rtc_adj g x y : rtc (fun a b => b ∈ adjacency g a) x y <-> rtc (linked g) x y.
Proof.
  split; induction 1; try done; eapply rtc_l; eauto; by apply elem_of_adjacency.
Qed.

Lemma component_step_inv g s visited comps :
  wf_edges g -> s < length g ->
  comps_inv g s visited comps ->
  let r := component_step g (visited, comps) s in
  comps_inv g (S s) r.1 r.2.
Proof.
  intros Hwf Hs (H1 & H2 & H3 & H4 & H5). simpl.
  assert (Hclosed : forall x y, x ∈ visited -> linked g x y -> y ∈ visited).
  { intros x y Hx Hl. apply H2 in Hx. apply elem_of_concat in Hx as (c & Hc & Hx).
    apply H2, elem_of_concat. exists c. split; [done|]. eapply H5; eauto. }
  case_decide as Hv.
  - split_and!; auto. intros x Hx. destruct (decide (x = s)) as [->|]; [done|]. apply H4. lia.
  - destruct (bfs (length g) (adjacency g) (s :: visited) [s] []) as [visited' comp] eqn:E.
    edestruct (bfs_correct (length g) (adjacency g) (length g) visited s (s :: visited) [s] [])
      as (G1 & G2 & _ & G4 & G5 & G6 & G7).
    + intros u v _ Hv'. by eapply adjacency_lt.
    + by apply NoDup_cons.
    + apply NoDup_singleton.
    + intros x. set_solver.
    + intros x Hx. assert (x = s) as -> by set_solver. split_and!; done.
    + set_solver.
    + simpl. lia.
    + rewrite E in *. simpl in *. unfold comps_inv. simpl.
      rewrite concat_app. simpl. rewrite app_nil_r. split_and!.
      * apply NoDup_app. split_and!; [done| |done].
        intros x Hx Hxc. apply H2 in Hx. by apply G6 in Hxc as [? _].
      * intros x. rewrite G4, elem_of_app, H2. done.
      * done.
      * intros x Hx. apply G4. destruct (decide (x = s)) as [->|]; [right; apply G5; set_solver|].
        left. apply H4. lia.
      * intros c [Hc|Hc]%elem_of_app; [by apply H5|].
        apply elem_of_list_singleton in Hc as ->. split_and!.
        -- assert (s ∈ comp) by (apply G5; set_solver). intros ->. set_solver.
        -- intros x Hx. by apply G6.
        -- intros x y Hx Hl. assert (y ∈ visited') as Hy
             by (eapply G7; [exact Hx|by apply elem_of_adjacency]).
           apply G4 in Hy as [Hy|Hy]; [|done]. exfalso.
           apply G6 in Hx as [Hx _]. apply Hx. eapply Hclosed; [exact Hy|by apply linked_sym].
        -- intros x y Hx Hy. apply G6 in Hx as (_ & _ & Hx). apply G6 in Hy as (_ & _ & Hy).
           apply rtc_adj in Hx, Hy. etrans; [by apply rtc_linked_sym|done].
Qed.

Lemma components_inv_fold g n visited comps s :
  wf_edges g -> s + n = length g ->
  comps_inv g s visited comps ->
  let r := foldl (component_step g) (visited, comps) (seq s n) in
  comps_inv g (length g) r.1 r.2.
Proof.
  intros Hwf. revert s visited comps. induction n as [|n IH]; intros s visited comps Hn Hinv; simpl.
  - by replace (length g) with s by lia.
  - pose proof (component_step_inv g s visited comps Hwf ltac:(lia) Hinv) as Hstep. simpl in Hstep.
    destruct (if decide (s ∈ visited) then (visited, comps) else _) as [v' c'] eqn:E. 
    apply IH; [lia|done].
Qed.

Lemma components_spec g :
  wf_edges g ->
  NoDup (concat (components g)) /\
  (forall x, x ∈ concat (components g) <-> x < length g) /\
  (forall c, c ∈ components g -> c <> [] /\
     (forall x y, x ∈ c -> linked g x y -> y ∈ c) /\
     (forall x y, x ∈ c -> y ∈ c -> rtc (linked g) x y)).
Proof.
  intros Hwf. unfold components.
  assert (H : comps_inv g 0 [] []).
  { split_and!; simpl; try constructor; try set_solver; try lia. }
  pose proof (components_inv_fold g (length g) [] [] 0 Hwf eq_refl H) as (H1 & H2 & H3 & H4 & H5).
  split_and!; [done| |].
  - intros x. split.
    + intros (c & Hc & Hx)%elem_of_concat. by eapply H5.
    + intros Hx. by apply H2, H4.
  - intros c Hc. destruct (H5 c Hc) as (? & ? & ? & ?). done.
Qed.

(** * Regions *)

Lemma concat_options_Some {A} (l : list (option (list A))) r :
  concat_options l = Some r -> exists ls, l = map Some ls /\ r = concat ls.
Proof.
  revert r. induction l as [|[x|] l IH]; intros r H; simplify_eq/=.
  - by exists [].
  - destruct (concat_options l) as [y|]; [|done]. simplify_eq.
    destruct (IH y eq_refl) as (ls & -> & ->). by exists (x :: ls).
Qed.

Lemma concat_options_None {A} (l : list (option (list A))) :
  concat_options l = None <-> None ∈ l.
Proof.
  induction l as [|[x|] l IH]; simpl.
  - set_solver.
  - destruct (concat_options l); rewrite elem_of_cons; naive_solver.
  - set_solver.
Qed.

Lemma all_forward_spec g c :
  all_forward g c = true <->
  (forall u i m, u ∈ c -> i ∈ c -> feeds g i m u -> m = Forward).
Proof.
  unfold all_forward. rewrite forallb_elem. split.
  - intros H u i m Hu Hi (st & Hst & Hin). specialize (H u Hu).
    rewrite forallb_elem in H. unfold inputs_of in H. rewrite Hst in H.
    specialize (H _ Hin). simpl in H. rewrite bool_decide_true in H by done.
    by apply bool_decide_eq_true in H.
  - intros H u Hu. rewrite forallb_elem. intros [i m] Hin. simpl.
    unfold inputs_of in Hin. destruct (g !! u) as [st|] eqn:E; [|set_solver].
    destruct (decide (i ∈ c)) as [Hi|Hi].
    + apply orb_true_intro. right. apply bool_decide_eq_true. apply (H u i m Hu Hi). by exists st.
    + by rewrite bool_decide_false.
Qed.

Lemma component_regions_spec g c rs :
  NoDup c -> component_regions g c = Some rs ->
  NoDup (concat rs) /\
  (forall t, t ∈ concat rs <-> t.1 ∈ c /\ t.2 < partitions_of g t.1) /\
  (forall r t t', r ∈ rs -> t ∈ r -> t'.1 ∈ c -> t'.2 < partitions_of g t'.1 ->
     (all_forward g c = true -> t'.2 = t.2) -> t' ∈ r) /\
  (all_forward g c = true -> forall r t t', r ∈ rs -> t ∈ r -> t' ∈ r -> t.2 = t'.2).
Proof.
  intros Hnd. unfold component_regions. destruct (all_forward g c) eqn:Ef.
  - destruct c as [|s0 c]; simpl; [done|].
    destruct (forallb (Nat.eqb (partitions_of g s0)) (map (partitions_of g) c)) eqn:Ep; [|done].
    intros [= <-].
    assert (Hp : forall s, s ∈ s0 :: c -> partitions_of g s = partitions_of g s0).
    { intros s [->|Hs]%elem_of_cons; [done|]. rewrite forallb_elem in Ep.
      assert (Hin : partitions_of g s ∈ map (partitions_of g) c) by (apply elem_of_map_iff; eauto).
      apply Ep in Hin. apply Nat.eqb_eq in Hin. done. }
    set (slice := fun q => (s0, q) :: map (fun s => (s, q)) c).
    assert (Hslice : forall q t, t ∈ slice q <-> t.1 ∈ s0 :: c /\ t.2 = q).
    { intros q [s q']. unfold slice. rewrite elem_of_cons, elem_of_map_iff, elem_of_cons. simpl.
      split; [intros [[= -> ->]|(x & [= -> ->] & Hx)]|intros [[->|Hx] ->]]; eauto. }
    change (map (fun q => (s0, q) :: map (fun s => (s, q)) c)) with (map slice).
    split_and!.
    + rewrite <- flat_map_concat_map. apply NoDup_flat_map.
      * apply NoDup_seq.
      * intros q _. change (slice q) with (map (fun s => (s, q)) (s0 :: c)).
        apply NoDup_map_inj; [naive_solver|done].
      * intros q q' t _ _ Ht Ht'. apply Hslice in Ht as [_ <-]. apply Hslice in Ht' as [_ <-]. done.
    + intros t. rewrite elem_of_concat. split.
      * intros (r & (q & -> & Hq)%elem_of_map_iff & Ht). apply Hslice in Ht as [Ht1 Ht2].
        apply elem_of_seq_iff in Hq. split; [done|]. rewrite Hp by done. lia.
      * intros [Ht1 Ht2]. exists (slice t.2). split; [|by apply Hslice].
        apply elem_of_map_iff. exists t.2. split; [done|]. apply elem_of_seq_iff.
        rewrite Hp in Ht2 by done. lia.
    + intros r t t' (q & -> & Hq)%elem_of_map_iff Ht H1 H2 H3. apply Hslice in Ht as [_ <-].
      apply Hslice. split; [done|by apply H3].
    + intros _ r t t' (q & -> & Hq)%elem_of_map_iff Ht Ht'.
      apply Hslice in Ht as [_ ->]. apply Hslice in Ht' as [_ ->]. done.
  - intros [= <-]. simpl. rewrite app_nil_r.
    assert (Hmem : forall t, t ∈ flat_map (fun s => map (fun p => (s, p)) (seq 0 (partitions_of g s))) c
       <-> t.1 ∈ c /\ t.2 < partitions_of g t.1).
    { intros [s p]. rewrite elem_of_flat_map. simpl. split.
      - intros (x & Hx & (q & [= -> ->] & Hq)%elem_of_map_iff). apply elem_of_seq_iff in Hq. split; [done|lia].
      - intros [Hs Hp]. exists s. split; [done|]. apply elem_of_map_iff. exists p. split; [done|].
        apply elem_of_seq_iff. lia. }
    split_and!; [|done| |done].
    + apply NoDup_flat_map; [done| |].
      * intros s _. apply NoDup_map_inj; [naive_solver|apply NoDup_seq].
      * intros s s' t _ _ (p & -> & _)%elem_of_map_iff (p' & [= -> ->] & _)%elem_of_map_iff. done.
    + intros r t t' Hr Ht H1 H2 _. apply elem_of_list_singleton in Hr as ->. by apply Hmem.
Qed.

Lemma is_task_partitions g t : is_task g t <-> t.1 < length g /\ t.2 < partitions_of g t.1.
Proof.
  unfold is_task, partitions_of. split.
  - intros (st & Hst & Hp). rewrite Hst. split; [by eapply lookup_lt_Some|done].
  - intros [H1 H2]. destruct (g !! t.1) as [st|] eqn:E; [eauto|].
    apply lookup_ge_None in E. lia.
Qed.

(** What [build_topology] returns, in terms of the list of task lists. *)
Lemma build_topology_inv g tp :
  build_topology g = Some tp ->
  wf_edges g /\
  exists rss, map (component_regions g) (components g) = map Some rss /\
    tp_regions tp = imap (fun r ts => RegionTopo ts (region_deps g (concat rss) r ts)) (concat rss).
Proof.
  unfold build_topology. destruct (forallb _ _) eqn:E; [|done].
  destruct (concat_options _) as [rs|] eqn:Ec; [|done]. intros [= <-].
  apply concat_options_Some in Ec as (rss & Hmap & ->). split.
  - intros s inp Hin. rewrite forallb_elem in E. specialize (E _ Hin). simpl in E.
    by apply Nat.ltb_lt in E.
  - exists rss. done.
Qed.

Lemma region_tasks_lookup g tp r rt rss :
  tp_regions tp = imap (fun r ts => RegionTopo ts (region_deps g (concat rss) r ts)) (concat rss) ->
  tp_regions tp !! r = Some rt ->
  concat rss !! r = Some (rt_tasks rt) /\ rt_deps rt = region_deps g (concat rss) r (rt_tasks rt).
Proof.
  intros -> Hr. rewrite list_lookup_imap in Hr. apply fmap_Some in Hr as (ts & Hts & ->). done.
Qed.

(** The regions of one component among all regions. *)
Lemma regions_by_component g rss :
  wf_edges g -> map (component_regions g) (components g) = map Some rss ->
  (forall rs, rs ∈ rss -> exists c, c ∈ components g /\ component_regions g c = Some rs) /\
  (forall c, c ∈ components g -> exists rs, rs ∈ rss /\ component_regions g c = Some rs).
Proof.
  intros Hwf Hmap. split.
  - intros rs Hrs. assert (H : Some rs ∈ map Some rss) by (apply elem_of_map_iff; eauto).
    rewrite <- Hmap in H. apply elem_of_map_iff in H as (c & Hc & Hin). eauto.
  - intros c Hc. assert (H : component_regions g c ∈ map (component_regions g) (components g))
      by (apply elem_of_map_iff; eauto).
    rewrite Hmap in H. apply elem_of_map_iff in H as (rs & Heq & Hin). eauto.
Qed.

Lemma map_Some_lookup {A B} (f : A -> option B) l (m : list B) i x :
  map f l = map Some m -> l !! i = Some x -> exists y, m !! i = Some y /\ f x = Some y.
Proof.
  revert m i. induction l as [|a l IH]; intros [|b m] [|i] H Hi; simplify_eq/=; eauto.
Qed.
Lemma map_Some_lookup_r {A B} (f : A -> option B) l (m : list B) i y :
  map f l = map Some m -> m !! i = Some y -> exists x, l !! i = Some x /\ f x = Some y.
Proof.
  revert m i. induction l as [|a l IH]; intros [|b m] [|i] H Hi; simplify_eq/=; eauto.
Qed.

Lemma component_NoDup g c : wf_edges g -> c ∈ components g -> NoDup c.
Proof.
  intros Hwf Hc. destruct (components_spec g Hwf) as (H & _ & _).
  apply NoDup_concat_iff in H as [H _]. by apply H.
Qed.

Lemma component_unique g c c' x :
  wf_edges g -> c ∈ components g -> c' ∈ components g -> x ∈ c -> x ∈ c' -> c = c'.
Proof.
  intros Hwf Hc Hc' Hx Hx'. destruct (components_spec g Hwf) as (H & _ & _).
  apply NoDup_concat_iff in H as [_ H].
  apply elem_of_list_lookup in Hc as [i Hi]. apply elem_of_list_lookup in Hc' as [j Hj].
  assert (i = j) as -> by (eapply H; eauto). by simplify_eq.
Qed.

Lemma concat_concat {A} (l : list (list (list A))) : concat (concat l) = concat (map (@concat A) l).
Proof. induction l as [|x l IH]; simpl; [done|]. by rewrite concat_app, IH. Qed.

Lemma regions_partition g rss :
  wf_edges g -> map (component_regions g) (components g) = map Some rss ->
  NoDup (concat (concat rss)) /\ (forall t, t ∈ concat (concat rss) <-> is_task g t).
Proof.
  intros Hwf Hmap. pose proof (components_spec g Hwf) as (Hnd & Hall & _).
  pose proof (regions_by_component g rss Hwf Hmap) as [Hrc Hcr].
  split.
  - rewrite concat_concat. apply NoDup_concat_iff. split.
    + intros l (rs & -> & Hrs)%elem_of_map_iff. apply Hrc in Hrs as (c & Hc & Hcrs).
      apply component_regions_spec in Hcrs as (H & _); [done|by apply component_NoDup with g].
    + intros i j l l' x Hi Hj Hx Hx'.
      change (map (@concat (nat * nat)) rss) with (@concat (nat * nat) <$> rss) in *.
      rewrite list_lookup_fmap in Hi, Hj.
      apply fmap_Some in Hi as (rs & Hi & ->). apply fmap_Some in Hj as (rs' & Hj & ->).
      eapply map_Some_lookup_r in Hi as (c & Hci & Hc); [|exact Hmap].
      eapply map_Some_lookup_r in Hj as (c' & Hcj & Hc'); [|exact Hmap].
      assert (NoDup c) by (eapply component_NoDup; eauto using elem_of_list_lookup_2).
      assert (NoDup c') by (eapply component_NoDup; eauto using elem_of_list_lookup_2).
      apply component_regions_spec in Hc as (_ & Hm & _); [|done].
      apply component_regions_spec in Hc' as (_ & Hm' & _); [|done].
      apply Hm in Hx as [Hx _]. apply Hm' in Hx' as [Hx' _].
      apply NoDup_concat_iff in Hnd as [_ Hnd]. eapply Hnd; eauto.
  - intros t. rewrite is_task_partitions. rewrite elem_of_concat. split.
    + intros (r & Hr & Ht). apply elem_of_concat in Hr as (rs & Hrs & Hr).
      apply Hrc in Hrs as (c & Hc & Hcrs).
      apply component_regions_spec in Hcrs as (_ & Hm & _); [|by apply component_NoDup with g].
      assert (t ∈ concat rs) as Htc by (apply elem_of_concat; eauto).
      apply Hm in Htc as [Htc ?]. split; [|done]. apply Hall, elem_of_concat. eauto.
    + intros [Hs Hp]. apply Hall in Hs. apply elem_of_concat in Hs as (c & Hc & Hs).
      destruct (Hcr c Hc) as (rs & Hrs & Hcrs).
      apply component_regions_spec in Hcrs as (_ & Hm & _); [|by apply component_NoDup with g].
      assert (t ∈ concat rs) as Htc by (apply Hm; done).
      apply elem_of_concat in Htc as (r & Hr & Ht). exists r. split; [|done].
      apply elem_of_concat. eauto.
Qed.

Lemma find_region_from_Some k rs t r :
  find_region_from k rs t = Some r -> k <= r /\ exists ts, rs !! (r - k) = Some ts /\ t ∈ ts.
Proof.
  revert k. induction rs as [|ts rs IH]; intros k; simpl; [done|].
  case_decide as Ht.
  - intros [= ->]. split; [lia|]. exists ts. by rewrite Nat.sub_diag.
  - intros H. apply IH in H as (Hk & ts' & Hl & Ht'). split; [lia|].
    exists ts'. replace (r - k) with (S (r - S k)) by lia. done.
Qed.

Lemma find_region_from_elem k rs t ts : ts ∈ rs -> t ∈ ts -> exists r, find_region_from k rs t = Some r.
Proof.
  revert k. induction rs as [|ts' rs IH]; intros k Hin Ht; [set_solver|]. simpl.
  case_decide; [eauto|]. apply elem_of_cons in Hin as [->|Hin]; [done|]. by apply IH.
Qed.

Lemma find_region_spec rs t r :
  NoDup (concat rs) ->
  find_region rs t = Some r <-> exists ts, rs !! r = Some ts /\ t ∈ ts.
Proof.
  intros Hnd. unfold find_region. split.
  - intros H. apply find_region_from_Some in H as (_ & ts & Hl & Ht). rewrite Nat.sub_0_r in Hl. eauto.
  - intros (ts & Hl & Ht).
    destruct (find_region_from_elem 0 rs t ts) as [r' Hr']; [by eapply elem_of_list_lookup_2|done|].
    rewrite Hr'. f_equal. apply find_region_from_Some in Hr' as (_ & ts' & Hl' & Ht').
    rewrite Nat.sub_0_r in Hl'. apply NoDup_concat_iff in Hnd as [_ Hnd]. eapply Hnd; eauto.
Qed.

Lemma reads_input_tasks g t t' :
  is_task g t' ->
  (reads g t t' <-> exists inp, inp ∈ inputs_of g t.1 /\ t' ∈ input_tasks g inp t.2).
Proof.
  intros Htask. unfold reads, feeds, inputs_of. split.
  - intros (m & (st & Hst & Hin) & _ & Hf). rewrite Hst. exists (StageInput t'.1 m). split; [done|].
    unfold input_tasks. simpl. apply is_task_partitions in Htask as [_ Hp].
    destruct t' as [i q]; simpl in *.
    destruct m; try (apply elem_of_map_iff; exists q; split; [done|apply elem_of_seq_iff; lia]).
    rewrite Hf by done. set_solver.
  - intros ([i m] & Hin & Ht'). destruct (g !! t.1) as [st|] eqn:E; [|set_solver].
    unfold input_tasks in Ht'. simpl in Ht'. exists m.
    destruct m; simpl in Ht';
      try (apply elem_of_map_iff in Ht' as (q & -> & Hq); simpl; split_and!; [eauto|done|done]).
    apply elem_of_list_singleton in Ht' as ->. simpl. split_and!; eauto.
Qed.

Lemma region_deps_spec g rs r ts d :
  NoDup (concat rs) -> (forall t, t ∈ concat rs <-> is_task g t) ->
  d ∈ region_deps g rs r ts <->
  d <> r /\ exists t t' ts', t ∈ ts /\ reads g t t' /\ rs !! d = Some ts' /\ t' ∈ ts'.
Proof.
  intros Hnd Hall. unfold region_deps. rewrite elem_of_flat_map. split.
  - intros (t & Ht & H). apply elem_of_flat_map in H as (inp & Hinp & H).
    apply elem_of_flat_map in H as (t' & Ht' & H).
    destruct (find_region rs t') as [d'|] eqn:E; [|set_solver].
    case_decide; [set_solver|]. apply elem_of_list_singleton in H as ->.
    apply find_region_spec in E as (ts' & Hl & Hin); [|done]. split; [done|].
    exists t, t', ts'. split_and!; try done. apply reads_input_tasks; [|eauto].
    apply Hall, elem_of_concat. exists ts'. split; [by eapply elem_of_list_lookup_2|done].
  - intros (Hne & t & t' & ts' & Ht & Hr & Hl & Ht'). exists t. split; [done|].
    assert (Htask : is_task g t').
    { apply Hall, elem_of_concat. exists ts'. split; [by eapply elem_of_list_lookup_2|done]. }
    apply reads_input_tasks in Hr as (inp & Hinp & Hin); [|done].
    apply elem_of_flat_map. exists inp. split; [done|]. apply elem_of_flat_map. exists t'. split; [done|].
    assert (find_region rs t' = Some d) as -> by (apply find_region_spec; eauto).
    rewrite decide_False by done. set_solver.
Qed.

Lemma pipelined_same_region g rss r ts t t' :
  wf_edges g -> map (component_regions g) (components g) = map Some rss ->
  concat rss !! r = Some ts -> t ∈ ts -> reads g t t' -> pipelined g t'.1 -> t' ∈ ts.
Proof.
  intros Hwf Hmap Hl Ht (m & Hf & Htask & Hfwd) Hp.
  apply elem_of_list_lookup_2 in Hl. apply elem_of_concat in Hl as (rs & Hrs & Hin).
  apply (regions_by_component g rss Hwf Hmap) in Hrs as (c & Hc & Hcrs).
  assert (Hndc : NoDup c) by by apply component_NoDup with g.
  destruct (component_regions_spec g c rs Hndc Hcrs) as (_ & Hm & Hsame & _).
  assert (Htc : t ∈ concat rs) by (apply elem_of_concat; eauto).
  apply Hm in Htc as [Hs Hpt].
  destruct (components_spec g Hwf) as (_ & _ & Hcomp). destruct (Hcomp c Hc) as (_ & Hcl & _).
  assert (Hi : t'.1 ∈ c).
  { eapply Hcl; [exact Hs|]. left. split; [done|eauto]. }
  apply (Hsame ts t t'); try done.
  - by apply is_task_partitions.
  - intros Haf. apply Hfwd. rewrite all_forward_spec in Haf. exact (Haf t.1 t'.1 m Hs Hi Hf).
Qed.

(** * No cyclic waiting between regions *)

Lemma linked_le g i x :
  topological g ->
  (forall i s1 m1 s2 m2, pipelined g i -> feeds g i m1 s1 -> feeds g i m2 s2 -> s1 = s2) ->
  ~ pipelined g i -> rtc (linked g) i x -> rtc (pedge g) x i.
Proof.
  intros Htop Huniq Hnp Hr. apply rtc_linked_sym in Hr.
  induction Hr as [x|x y z Hxy Hyz IH]; [done|]. specialize (IH Hnp).
  destruct Hxy as [Hyx|Hxy].
  - (* y feeds x through a pipelined edge *)
    inversion IH as [|? w ? Hyw Hwz]; subst.
    + destruct Hyx as [Hp _]. done.
    + destruct Hyx as (Hp & m & Hf). destruct Hyw as (_ & m' & Hf').
      assert (x = w) as -> by (exact (Huniq y x m w m' Hp Hf Hf')). done.
  - eapply rtc_l; eauto.
Qed.

Lemma pedge_lt g x y : topological g -> pedge g x y -> x < y.
Proof. intros Htop (_ & m & st & Hst & Hin). apply (Htop _ _ _ Hst Hin). Qed.

Lemma rtc_pedge_le g x y : topological g -> rtc (pedge g) x y -> x <= y.
Proof. intros Htop. induction 1; [done|]. apply pedge_lt in H; [lia|done]. Qed.

Lemma max_list_with_lub {A} (f : A -> nat) l n :
  (forall x, x ∈ l -> f x <= n) -> max_list_with f l <= n.
Proof.
  induction l as [|a l IH]; simpl; intros H; [lia|].
  assert (f a <= n) by (apply H; set_solver).
  assert (max_list_with f l <= n) by (apply IH; intros; apply H; set_solver). lia.
Qed.
Lemma max_list_with_ge {A} (f : A -> nat) l x : x ∈ l -> f x <= max_list_with f l.
Proof.
  induction l as [|a l IH]; simpl; intros Hx; [set_solver|].
  apply elem_of_cons in Hx as [->|Hx]; [lia|]. specialize (IH Hx). lia.
Qed.


Lemma regions_rank g rss r d ts ts' t t' :
  wf_edges g -> topological g -> planner_shaped g ->
  map (component_regions g) (components g) = map Some rss ->
  concat rss !! r = Some ts -> concat rss !! d = Some ts' -> d <> r ->
  t ∈ ts -> t' ∈ ts' -> reads g t t' ->
  region_rank ts' < region_rank ts.
Proof.
  intros Hwf Htop Hshape Hmap Hl Hl' Hne Ht Ht' Hr.
  assert (Hlt : t'.1 < t.1).
  { destruct Hr as (m & (st & Hst & Hin) & _). apply (Htop _ _ _ Hst Hin). }
  assert (Hnp : ~ pipelined g t'.1).
  { intros Hp. assert (Hin : t' ∈ ts) by by eapply pipelined_same_region.
    destruct (regions_partition g rss Hwf Hmap) as [Hnd _].
    apply NoDup_concat_iff in Hnd as [_ Hnd]. apply Hne. eapply Hnd; eauto. }
  assert (Huniq : forall i s1 m1 s2 m2, pipelined g i -> feeds g i m1 s1 -> feeds g i m2 s2 -> s1 = s2).
  { destruct Hshape as [Hall|]; [|done]. exfalso. apply Hnp.
    destruct Hr as (_ & _ & (st & Hst & _) & _). exists st. split; [done|by eapply Hall]. }
  assert (region_rank ts' <= t'.1).
  { apply max_list_with_lub. intros x Hx.
    apply elem_of_list_lookup_2 in Hl'. apply elem_of_concat in Hl' as (rs & Hrs & Hin).
    apply (regions_by_component g rss Hwf Hmap) in Hrs as (c & Hc & Hcrs).
    assert (Hndc : NoDup c) by by apply component_NoDup with g.
    destruct (component_regions_spec g c rs Hndc Hcrs) as (_ & Hm & _).
    assert (Hxc : x.1 ∈ c) by (apply Hm, elem_of_concat; eauto).
    assert (Htc : t'.1 ∈ c) by (apply Hm, elem_of_concat; eauto).
    destruct (components_spec g Hwf) as (_ & _ & Hcomp). destruct (Hcomp c Hc) as (_ & _ & Hconn).
    apply (rtc_pedge_le g); [done|]. apply linked_le; try done. by apply Hconn. }
  assert (t.1 <= region_rank ts) by by apply (max_list_with_ge fst).
  lia.
Qed.

(** * Statements about [build_topology] *)

Lemma map_rt_tasks g rss tp :
  tp_regions tp = imap (fun r ts => RegionTopo ts (region_deps g (concat rss) r ts)) (concat rss) ->
  map rt_tasks (tp_regions tp) = concat rss.
Proof.
  intros ->. change (map rt_tasks) with (fmap (M:=list) rt_tasks).
  apply list_eq. intros r. rewrite list_lookup_fmap, list_lookup_imap.
  by destruct (concat rss !! r).
Qed.

Lemma topology_partition g tp :
  build_topology g = Some tp ->
  NoDup (concat (map rt_tasks (tp_regions tp))) /\
  (forall t, t ∈ concat (map rt_tasks (tp_regions tp)) <-> is_task g t).
Proof.
  intros (Hwf & rss & Hmap & Htp)%build_topology_inv.
  rewrite (map_rt_tasks g rss tp Htp). by apply regions_partition.
Qed.

Lemma topology_pipelined g tp rt t t' :
  build_topology g = Some tp -> rt ∈ tp_regions tp -> t ∈ rt_tasks rt ->
  reads g t t' -> pipelined g t'.1 -> t' ∈ rt_tasks rt.
Proof.
  intros (Hwf & rss & Hmap & Htp)%build_topology_inv Hrt Ht Hr Hp.
  apply elem_of_list_lookup in Hrt as [r Hr'].
  destruct (region_tasks_lookup g tp r rt rss Htp Hr') as [Hl _].
  by eapply pipelined_same_region.
Qed.

Lemma topology_deps g tp r rt d :
  build_topology g = Some tp -> tp_regions tp !! r = Some rt ->
  d ∈ rt_deps rt <->
  d <> r /\ exists rt' t t', tp_regions tp !! d = Some rt' /\ t ∈ rt_tasks rt /\ t' ∈ rt_tasks rt' /\ reads g t t'.
Proof.
  intros (Hwf & rss & Hmap & Htp)%build_topology_inv Hr.
  destruct (region_tasks_lookup g tp r rt rss Htp Hr) as [Hl ->].
  destruct (regions_partition g rss Hwf Hmap) as [Hnd Hall].
  rewrite region_deps_spec by done. split.
  - intros (Hne & t & t' & ts' & H1 & H2 & H3 & H4). split; [done|].
    assert (exists rt', tp_regions tp !! d = Some rt' /\ rt_tasks rt' = ts') as (rt' & Hd & <-).
    { rewrite Htp, list_lookup_imap, H3. simpl. eauto. }
    exists rt', t, t'. done.
  - intros (Hne & rt' & t & t' & H1 & H2 & H3 & H4). split; [done|].
    destruct (region_tasks_lookup g tp d rt' rss Htp H1) as [Hl' _].
    exists t, t', (rt_tasks rt'). done.
Qed.

Lemma topology_rank g tp r rt d rt' :
  build_topology g = Some tp -> topological g -> planner_shaped g ->
  tp_regions tp !! r = Some rt -> tp_regions tp !! d = Some rt' -> d ∈ rt_deps rt ->
  region_rank (rt_tasks rt') < region_rank (rt_tasks rt).
Proof.
  intros Hb Htop Hsh Hr Hd Hin.
  apply (topology_deps g tp r rt d Hb Hr) in Hin as (Hne & rt1 & t & t' & H1 & H2 & H3 & H4).
  simplify_eq. apply build_topology_inv in Hb as (Hwf & rss & Hmap & Htp).
  destruct (region_tasks_lookup g tp r rt rss Htp Hr) as [Hl _].
  destruct (region_tasks_lookup g tp d rt' rss Htp Hd) as [Hl' _].
  by eapply regions_rank.
Qed.

Lemma blocking_not_pipelined g s : blocking g s -> ~ pipelined g s.
Proof. intros (st & Hst & Hm) (st' & Hst' & Hm'). congruence. Qed.

Lemma topology_blocking g tp rt t t' :
  build_topology g = Some tp -> topological g -> planner_shaped g ->
  rt ∈ tp_regions tp -> t ∈ rt_tasks rt -> reads g t t' -> blocking g t'.1 -> t' ∉ rt_tasks rt.
Proof.
  intros (Hwf & rss & Hmap & Htp)%build_topology_inv Htop Hshape Hrt Ht Hr Hb Ht'.
  apply elem_of_list_lookup in Hrt as [r Hrt].
  destruct (region_tasks_lookup g tp r rt rss Htp Hrt) as [Hl _].
  assert (Hnp : ~ pipelined g t'.1) by by apply blocking_not_pipelined.
  assert (Hlt : t'.1 < t.1).
  { destruct Hr as (m & (st & Hst & Hin) & _). apply (Htop _ _ _ Hst Hin). }
  assert (Huniq : forall i s1 m1 s2 m2, pipelined g i -> feeds g i m1 s1 -> feeds g i m2 s2 -> s1 = s2).
  { destruct Hshape as [Hall|]; [|done]. exfalso. apply Hnp.
    destruct Hb as (st & Hst & _). exists st. split; [done|by eapply Hall]. }
  apply elem_of_list_lookup_2 in Hl. apply elem_of_concat in Hl as (rs & Hrs & Hin).
  apply (regions_by_component g rss Hwf Hmap) in Hrs as (c & Hc & Hcrs).
  assert (Hndc : NoDup c) by by apply component_NoDup with g.
  destruct (component_regions_spec g c rs Hndc Hcrs) as (_ & Hm & _).
  assert (Hxc : t.1 ∈ c) by (apply Hm, elem_of_concat; eauto).
  assert (Htc : t'.1 ∈ c) by (apply Hm, elem_of_concat; eauto).
  destruct (components_spec g Hwf) as (_ & _ & Hcomp). destruct (Hcomp c Hc) as (_ & _ & Hconn).
  assert (t.1 <= t'.1); [|lia].
  apply (rtc_pedge_le g); [done|]. apply linked_le; try done. by apply Hconn.
Qed.

Lemma topology_slice g tp rt t t' :
  build_topology g = Some tp -> rt ∈ tp_regions tp ->
  t ∈ rt_tasks rt -> t' ∈ rt_tasks rt -> t.2 <> t'.2 ->
  exists i m u, feeds g i m u /\ m <> Forward /\ rtc (linked g) t.1 i /\ rtc (linked g) t.1 u.
Proof.
  intros (Hwf & rss & Hmap & Htp)%build_topology_inv Hrt Ht Ht' Hne.
  apply elem_of_list_lookup in Hrt as [r Hr].
  destruct (region_tasks_lookup g tp r rt rss Htp Hr) as [Hl _].
  apply elem_of_list_lookup_2 in Hl. apply elem_of_concat in Hl as (rs & Hrs & Hin).
  apply (regions_by_component g rss Hwf Hmap) in Hrs as (c & Hc & Hcrs).
  assert (Hndc : NoDup c) by by apply component_NoDup with g.
  destruct (component_regions_spec g c rs Hndc Hcrs) as (_ & Hm & _ & Haf).
  assert (Htc : t.1 ∈ c) by (apply Hm, elem_of_concat; eauto).
  destruct (all_forward g c) eqn:E; [exfalso; apply Hne; by eapply Haf|].
  destruct (components_spec g Hwf) as (_ & _ & Hcomp). destruct (Hcomp c Hc) as (_ & _ & Hconn).
  apply not_true_iff_false in E. unfold all_forward in E. rewrite forallb_elem in E.
  destruct (decide (Exists (fun u => Exists (fun inp => in_mode inp <> Forward /\ in_stage inp ∈ c) (inputs_of g u)) c)) as [Hex|Hex].
  - apply Exists_exists in Hex as (u & Hu & Hex). apply Exists_exists in Hex as ([i m] & Hi & Hm' & Hic).
    exists i, m, u. split_and!; [|done|by apply Hconn|by apply Hconn].
    unfold inputs_of in Hi. destruct (g !! u) as [st|] eqn:Eu; [|set_solver].
    by exists st.
  - exfalso. apply E. intros u Hu. apply forallb_elem. intros inp Hinp.
    destruct (decide (in_mode inp = Forward)) as [Hf|Hf].
    + apply orb_true_intro. right. by apply bool_decide_eq_true.
    + destruct (decide (in_stage inp ∈ c)) as [Hi|Hi].
      * exfalso. apply Hex, Exists_exists. exists u. split; [done|]. apply Exists_exists. eauto.
      * by rewrite bool_decide_false.
Qed.

Lemma topology_total g :
  topological g ->
  (forall i s, feeds g i Forward s -> partitions_of g i = partitions_of g s) ->
  exists tp, build_topology g = Some tp.
Proof.
  intros Htop Hfw. unfold build_topology.
  assert (Hwf : wf_edges g).
  { intros s inp (st & Hst & Hin)%elem_of_edges. pose proof (Htop _ _ _ Hst Hin).
    apply lookup_lt_Some in Hst. lia. }
  assert (forallb (fun e => in_stage e.2 <? length g) (edges g) = true) as ->.
  { apply forallb_elem. intros [s inp] He. apply Nat.ltb_lt. by apply (Hwf s). }
  destruct (concat_options _) as [rs|] eqn:E; [eauto|exfalso].
  apply concat_options_None in E. apply elem_of_map_iff in E as (c & Hnone & Hc).
  unfold component_regions in Hnone. destruct (all_forward g c) eqn:Ef; [|done].
  destruct (components_spec g Hwf) as (_ & _ & Hcomp). destruct (Hcomp c Hc) as (Hne & Hcl & Hconn).
  assert (Hlink : forall x y, x ∈ c -> linked g x y -> partitions_of g x = partitions_of g y).
  { intros x y Hx Hl. pose proof (Hcl x y Hx Hl) as Hy.
    destruct Hl as [(Hp & m & Hf)|(Hp & m & Hf)].
    - assert (m = Forward) as -> by (rewrite all_forward_spec in Ef; exact (Ef x y m Hx Hy Hf)).
      symmetry. by apply Hfw.
    - assert (m = Forward) as -> by (rewrite all_forward_spec in Ef; exact (Ef y x m Hy Hx Hf)).
      by apply Hfw. }
  assert (Heq : forall x y, rtc (linked g) x y -> x ∈ c -> partitions_of g x = partitions_of g y).
  { intros x y. induction 1 as [|x y z Hxy Hyz IH]; [done|]. intros Hx.
    rewrite (Hlink x y Hx Hxy). apply IH. by eapply Hcl. }
  destruct c as [|s0 c]; [done|]. simpl in Hnone.
  assert (forallb (Nat.eqb (partitions_of g s0)) (map (partitions_of g) c) = true) as Hfa.
  { apply forallb_elem. intros p (s & -> & Hs)%elem_of_map_iff. apply Nat.eqb_eq.
    apply Heq; [apply Hconn; set_solver|set_solver]. }
  by rewrite Hfa in Hnone.
Qed.
