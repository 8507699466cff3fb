From Coq Require Import NArith ZifyN Ascii String Lia.
From stdpp Require Import prelude gmap list strings.
From Verif.Lib Require Import Text.
From Verif.Catalog Require Import MemoryModel MemorySpec.

(** ** Objects carry their names. *)
Definition named (s : catalog) : Prop :=
  forall ns d, cat_dbs s !! ns = Some d ->
    db_name (db_status d) = ns /\
    (forall t x, db_tables d !! t = Some x -> tbl_name x = t) /\
    (forall v x, db_views d !! v = Some x -> vw_name x = v).

Lemma named_put s ns d :
  named s -> db_name (db_status d) = ns ->
  (forall t x, db_tables d !! t = Some x -> tbl_name x = t) ->
  (forall v x, db_views d !! v = Some x -> vw_name x = v) -> named (put s ns d).
Proof.
  intros H H1 H2 H3 ns' d' Hl. cbn in Hl. apply lookup_insert_Some in Hl as [[<- <-]|[_ Hl]]; [done|].
  by apply H.
Qed.

Lemma alter_in_place_name t a : tbl_name (alter_in_place t a).1 = tbl_name t.
Proof.
  destruct a as [new|keys ie|p new|p d|? ?]; cbn.
  - by destruct (precondition_ok _ _).
  - destruct (unset_properties _ _ _) as [ps [k|]]; done.
  - by destruct (alter_column_type _ _ _).
  - by destruct (alter_column_default _ _ _).
  - done.
Qed.

Lemma named_step s o : named s -> named (step s o).1.
Proof.
  intros H. destruct o as [ns c|ns|p|ns ie ca|ns t c|ns t|ns|ns t ie|ns t a|ns v c|ns v|ns|ns v ie]; cbn [step].
  - destruct (cat_dbs s !! ns) eqn:E; [by destruct (cd_if_not_exists c)|].
    apply named_put; try done; cbn; intros ? ?; rewrite lookup_empty; done.
  - by destruct (cat_dbs s !! ns).
  - done.
  - destruct (cat_dbs s !! ns) eqn:E; [|by destruct ie].
    destruct (negb ca && _); [done|]. intros ns' d' Hl. cbn in Hl.
    apply lookup_delete_Some in Hl as [_ Hl]. by apply H.
  - destruct (create_table_ok c); [|done]. destruct (cat_dbs s !! ns) as [d|] eqn:E; [|done].
    destruct (H _ _ E) as (H1 & H2 & H3).
    destruct (db_tables d !! t) eqn:Et, (ct_mode c); try done;
      apply named_put; try done; cbn; intros t' x Hl.
    all: apply lookup_insert_Some in Hl as [[<- <-]|[_ Hl]]; [done|].
    all: try (apply lookup_delete_Some in Hl as [_ Hl]). all: by apply H2.
  - destruct (cat_dbs s !! ns) as [d|]; [|done]. by destruct (db_tables d !! t).
  - by destruct (cat_dbs s !! ns).
  - destruct (cat_dbs s !! ns) as [d|] eqn:E; [|by destruct ie].
    destruct (H _ _ E) as (H1 & H2 & H3).
    destruct (_ || ie); apply named_put; try done; cbn; intros t' x Hl;
      apply lookup_delete_Some in Hl as [_ Hl]; by apply H2.
  - destruct (cat_dbs s !! ns) as [d|] eqn:E; [|done].
    destruct (H _ _ E) as (H1 & H2 & H3).
    destruct (db_tables d !! t) as [old|] eqn:Et; [|done].
    pose proof (alter_in_place_name old a) as Hn. destruct (alter_in_place old a) as [new e]. cbn in Hn |- *.
    apply named_put; try done; cbn. intros t' x Hl.
    apply lookup_insert_Some in Hl as [[<- <-]|[_ Hl]]; [|by apply H2].
    rewrite Hn. by apply H2.
  - destruct (cat_dbs s !! ns) as [d|] eqn:E; [|done].
    destruct (H _ _ E) as (H1 & H2 & H3).
    destruct (db_views d !! v) eqn:Ev; [destruct (cv_if_not_exists c); [done|destruct (cv_replace c); [|done]]|];
      apply named_put; try done; cbn; intros t' x Hl.
    all: apply lookup_insert_Some in Hl as [[<- <-]|[_ Hl]]; [done|].
    all: try (apply lookup_delete_Some in Hl as [_ Hl]). all: by apply H3.
  - destruct (cat_dbs s !! ns) as [d|]; [|done]. by destruct (db_views d !! v).
  - by destruct (cat_dbs s !! ns).
  - destruct (cat_dbs s !! ns) as [d|] eqn:E; [|by destruct ie].
    destruct (H _ _ E) as (H1 & H2 & H3).
    destruct (_ || ie); apply named_put; try done; cbn; intros t' x Hl;
      apply lookup_delete_Some in Hl as [_ Hl]; by apply H3.
Qed.

Lemma run_cons s o os : (run s (o :: os)).1 = (run (step s o).1 os).1.
Proof. cbn. destruct (step s o) as [s' r]. cbn. by destruct (run s' os). Qed.
Lemma named_run s os : named s -> named (run s os).1.
Proof.
  revert s. induction os as [|o os IH]; intros s H; [done|].
  rewrite run_cons. apply IH, named_step, H.
Qed.
Lemma named_initial n ns c : named (initial n ns c).
Proof.
  intros ns' d Hl. cbn in Hl. apply lookup_singleton_Some in Hl as [<- <-]. cbn.
  split; [done|]. split; intros ? ?; by rewrite lookup_empty.
Qed.
Lemma reachable_named s : reachable s -> named s.
Proof. intros (n & ns & c & os & ->). apply named_run, named_initial. Qed.

(** The catalog keeps its name. *)
Lemma step_name s o : cat_name (step s o).1 = cat_name s.
Proof.
  destruct o; cbn [step]; repeat case_match; try done.
Qed.

(** ** Properties *)
Lemma property_nil k : property [] k = None.
Proof. done. Qed.
Lemma property_cons k' v ps k :
  property ((k', v) :: ps) k = if decide (k' = k) then Some v else property ps k.
Proof.
  unfold property. cbn. destruct (decide (k' = k)) as [->|Hn].
  - by rewrite bool_decide_true.
  - by rewrite bool_decide_false.
Qed.
Lemma property_app a b k :
  property (a ++ b) k = match property a k with Some v => Some v | None => property b k end.
Proof.
  induction a as [|[k' v] a IH]; [done|]. rewrite <- app_comm_cons, !property_cons.
  destruct (decide (k' = k)); [done|apply IH].
Qed.
Lemma property_upsert ps k v k' :
  property (upsert ps k v) k' = if decide (k = k') then Some v else property ps k'.
Proof.
  induction ps as [|[k1 v1] ps IH]; cbn [upsert].
  - by rewrite property_cons.
  - destruct (decide (k1 = k)) as [->|Hn]; rewrite !property_cons.
    + by destruct (decide (k = k')).
    + rewrite IH. destruct (decide (k1 = k')) as [->|]; [|done].
      by rewrite decide_False.
Qed.
Lemma property_set ps new k :
  property (set_properties ps new) k =
    match property (rev new) k with Some v => Some v | None => property ps k end.
Proof.
  unfold set_properties. revert ps. induction new as [|[k1 v1] new IH]; intros ps; [done|].
  cbn [fold_left rev fst snd]. rewrite IH, property_app, property_upsert, property_cons, property_nil.
  destruct (property (rev new) k); [done|]. by destruct (decide (k1 = k)).
Qed.
Lemma property_filter ps k k' :
  property (filter (fun p => p.1 <> k) ps) k' = if decide (k' = k) then None else property ps k'.
Proof.
  induction ps as [|[k1 v1] ps IH].
  - cbn. by destruct (decide (k' = k)).
  - rewrite filter_cons. cbn [fst]. destruct (decide (k1 <> k)) as [Hn|He].
    + rewrite !property_cons, IH. destruct (decide (k1 = k')) as [->|]; [|done].
      by rewrite decide_False.
    + destruct (decide (k1 = k)) as [->|]; [|done]. rewrite IH, property_cons.
      destruct (decide (k' = k)); [done|]. by rewrite decide_False.
Qed.
Lemma property_is_some ps k :
  is_Some (property ps k) <-> existsb (fun p => bool_decide (p.1 = k)) ps = true.
Proof.
  induction ps as [|[k1 v1] ps IH].
  - cbn. split; [by intros [? ?]|done].
  - rewrite property_cons. cbn [existsb fst]. destruct (decide (k1 = k)) as [->|].
    + rewrite bool_decide_true by done. split; [done|by eexists].
    + by rewrite bool_decide_false, IH.
Qed.
Lemma unset_ok ps keys ie ps' :
  unset_properties ps keys ie = (ps', None) ->
  forall k, property ps' k = if decide (k ∈ keys) then None else property ps k.
Proof.
  revert ps. induction keys as [|k1 keys IH]; intros ps H k; cbn [unset_properties] in H.
  - injection H as <-. by rewrite decide_False by apply not_elem_of_nil.
  - destruct (_ || ie); [|done]. rewrite (IH _ H), property_filter.
    destruct (decide (k ∈ keys)) as [Hi|Hi].
    + by rewrite decide_True by (by right).
    + destruct (decide (k = k1)) as [->|Hn].
      * by rewrite decide_True by left.
      * by rewrite decide_False by (intros [?|?]%elem_of_cons; done).
Qed.
Lemma unset_if_exists ps keys : (unset_properties ps keys true).2 = None.
Proof. revert ps. induction keys as [|k keys IH]; intros ps; [done|]. cbn. by rewrite orb_true_r. Qed.

(** The keys removed by an unset, whether or not it fails. *)
Lemma unset_removes ps keys ie ps' e :
  unset_properties ps keys ie = (ps', e) ->
  exists done_keys, done_keys `prefix_of` keys /\
    (forall k, property ps' k = if decide (k ∈ done_keys) then None else property ps k) /\
    match e with
    | None => done_keys = keys
    | Some k => exists rest, keys = done_keys ++ k :: rest /\ ie = false /\ property ps' k = None
    end.
Proof.
  revert ps. induction keys as [|k1 keys IH]; intros ps H; cbn [unset_properties] in H.
  - injection H as <- <-. exists []. split; [done|]. split; [|done].
    intros k. by rewrite decide_False by apply not_elem_of_nil.
  - destruct (existsb _ ps || ie) eqn:E.
    + destruct (IH _ H) as (dk & Hp & Hk & He). exists (k1 :: dk). split; [by apply prefix_cons|]. split.
      * intros k. rewrite Hk, property_filter. destruct (decide (k ∈ dk)).
        { by rewrite decide_True by (by right). }
        destruct (decide (k = k1)) as [->|]; [by rewrite decide_True by left|].
        by rewrite decide_False by (intros [?|?]%elem_of_cons; done).
      * destruct e as [k|]; [|by rewrite He]. destruct He as (rest & -> & ? & ?). by exists rest.
    + injection H as <- <-. exists []. split; [apply prefix_nil|]. split.
      * intros k. by rewrite decide_False by apply not_elem_of_nil.
      * exists keys. apply orb_false_iff in E as [E ->]. split_and!; [done..|].
        destruct (property ps k1) eqn:Ep; [|done].
        assert (is_Some (property ps k1)) as Hs by (by rewrite Ep).
        apply property_is_some in Hs. by rewrite E in Hs.
Qed.

(** ** Column paths *)
Lemma retype_fields_spec change name fs :
  (match retype_fields change name fs with
   | Some (fs', found) =>
       map fname fs' = map fname fs /\
       found = existsb (fun f => bool_decide (fname f = name)) fs /\
       (forall n, n <> name -> find (fun f => bool_decide (fname f = n)) fs'
                             = find (fun f => bool_decide (fname f = n)) fs) /\
       (forall f, find (fun f => bool_decide (fname f = name)) fs = Some f ->
          exists t, change (ftype f) = Some t /\
            find (fun f => bool_decide (fname f = name)) fs' = Some (retype f t)) /\
       forall f, f ∈ fs -> fname f = name -> is_Some (change (ftype f))
   | None => exists f, f ∈ fs /\ fname f = name /\ change (ftype f) = None
   end).
Proof.
  induction fs as [|f fs IH]; cbn [retype_fields].
  - split_and!; try done. intros f Hf. by apply elem_of_nil in Hf.
  - destruct (decide (fname f = name)) as [Hn|Hn].
    + destruct (change (ftype f)) as [t|] eqn:Ec.
      * destruct (retype_fields change name fs) as [[fs2 fd]|].
        -- destruct IH as (H1 & H2 & H3 & H4 & H5). split_and!.
           ++ cbn. by rewrite H1.
           ++ cbn. by rewrite bool_decide_true.
           ++ intros n Hnn. cbn. rewrite !bool_decide_false; [by apply H3|congruence..].
           ++ intros f' Hf'. cbn in Hf'. rewrite bool_decide_true in Hf' by done. injection Hf' as <-.
              exists t. split; [done|]. cbn. by rewrite bool_decide_true.
           ++ intros f' [->|Hf']%elem_of_cons ?; [by rewrite Ec|by apply H5].
        -- destruct IH as (f' & ? & ? & ?). exists f'. split_and!; [by right|done..].
      * exists f. split_and!; [by left|done..].
    + destruct (retype_fields change name fs) as [[fs2 fd]|].
      * destruct IH as (H1 & H2 & H3 & H4 & H5). split_and!.
        -- cbn. by rewrite H1.
        -- cbn. by rewrite bool_decide_false.
        -- intros n Hnn. cbn. destruct (bool_decide (fname f = n)); [done|by apply H3].
        -- intros f' Hf'. cbn in Hf'. rewrite bool_decide_false in Hf' by done.
           destruct (H4 _ Hf') as (t & ? & ?). exists t. split; [done|]. cbn. by rewrite bool_decide_false.
        -- intros f' [->|Hf']%elem_of_cons ?; [done|by apply H5].
      * destruct IH as (f' & ? & ? & ?). exists f'. split_and!; [by right|done..].
Qed.

Lemma find_existsb {A} (p : A -> bool) l : existsb p l = true -> exists x, find p l = Some x /\ x ∈ l /\ p x = true.
Proof.
  induction l as [|a l IH]; [done|]. cbn. destruct (p a) eqn:E; cbn.
  - intros _. exists a. split_and!; [done|by left|done].
  - intros H. destruct (IH H) as (x & ? & ? & ?). exists x. split_and!; [done|by right|done].
Qed.

Lemma inside_resolves change rest name fs :
  (forall t, is_Some (change t) <-> resolves t rest = true) ->
  (match retype_fields change name fs with Some (_, true) => true | _ => false end) =
  (existsb (fun f => bool_decide (fname f = name)) fs
   && forallb (fun f => negb (bool_decide (fname f = name)) || resolves (ftype f) rest) fs).
Proof.
  intros Hc. pose proof (retype_fields_spec change name fs) as H.
  destruct (retype_fields change name fs) as [[fs' found]|].
  - destruct H as (_ & -> & _ & _ & H). destruct (existsb _ fs) eqn:E; [|done]. cbn.
    symmetry. apply forallb_forall. intros f Hf. apply elem_of_list_In in Hf.
    destruct (decide (fname f = name)) as [Hn|Hn].
    + rewrite bool_decide_true by done. cbn. apply Hc, H; done.
    + by rewrite bool_decide_false.
  - destruct H as (f & Hf & Hn & Hch). symmetry. apply andb_false_iff. right.
    apply not_true_iff_false. intros Hall. rewrite forallb_forall in Hall.
    specialize (Hall f (proj1 (elem_of_list_In _ _) Hf)). rewrite bool_decide_true in Hall by done.
    cbn in Hall. apply Hc in Hall. rewrite Hch in Hall. by destruct Hall.
Qed.

Lemma alter_nested_resolves path t new : is_Some (alter_nested t path new) <-> resolves t path = true.
Proof.
  revert t. induction path as [|name rest IH]; intros t.
  - cbn. split; intros _; [reflexivity|]. by eexists.
  - cbn [alter_nested resolves].
    destruct t as [id|fs|large f|f sorted].
    + split; [by intros [? ?]|done].
    + rewrite <- (inside_resolves (fun t => alter_nested t rest new)) by (intros; apply IH).
      destruct (retype_fields _ name fs) as [[fs' []]|]; split; try done; try (by eexists); by intros [? ?].
    + destruct (decide (name = str "element")) as [->|Hn].
      * rewrite bool_decide_true by done. cbn. rewrite <- IH, fmap_is_Some. done.
      * rewrite bool_decide_false by done. split; [by intros [? ?]|done].
    + destruct (ftype f) as [|entries| |]; try (split; [by intros [? ?]|done]).
      rewrite <- (inside_resolves (fun t => alter_nested t rest new)) by (intros; apply IH).
      destruct (retype_fields _ name entries) as [[fs' []]|]; split; try done; try (by eexists); by intros [? ?].
Qed.

Lemma apart_cons n p q : apart (n :: p) (n :: q) -> apart p q.
Proof. intros [H1 H2]. split; intros H; [apply H1|apply H2]; by apply prefix_cons. Qed.
Lemma apart_nil p : ¬ apart [] p.
Proof. intros [H _]. apply H, prefix_nil. Qed.
Lemma apart_nil_r p : ¬ apart p [].
Proof. intros [_ H]. apply H, prefix_nil. Qed.

Lemma alter_nested_type_at path t new t' :
  alter_nested t path new = Some t' ->
  type_at t' path = Some new /\ forall q, apart path q -> type_at t' q = type_at t q.
Proof.
  revert t t'. induction path as [|name rest IH]; intros t t' H.
  - cbn in H. injection H as <-. split; [done|]. intros q Hq. by apply apart_nil in Hq.
  - cbn [alter_nested] in H.
    assert (forall fs fs' : list field,
      retype_fields (fun t => alter_nested t rest new) name fs = Some (fs', true) ->
      match find (fun f => bool_decide (fname f = name)) fs' with
      | Some f => type_at (ftype f) rest | None => None end = Some new /\
      forall n q, apart (name :: rest) (n :: q) ->
        match find (fun f => bool_decide (fname f = n)) fs' with
        | Some f => type_at (ftype f) q | None => None end =
        match find (fun f => bool_decide (fname f = n)) fs with
        | Some f => type_at (ftype f) q | None => None end) as Hfs.
    { intros fs fs' Hr. pose proof (retype_fields_spec (fun t => alter_nested t rest new) name fs) as Hs.
      rewrite Hr in Hs. destruct Hs as (H1 & H2 & H3 & H4 & H5).
      destruct (find_existsb _ _ (eq_sym H2)) as (f & Hf & _ & _).
      destruct (H4 _ Hf) as (t1 & Ht1 & Hf'). destruct (IH _ _ Ht1) as [Ha Hb].
      split; [by rewrite Hf'|]. intros n q Hq. destruct (decide (n = name)) as [->|Hn].
      - rewrite Hf', Hf. cbn. apply Hb. by apply apart_cons in Hq.
      - by rewrite H3. }
    destruct t as [id|fs|large f|f sorted]; [done|..].
    + destruct (retype_fields _ name fs) as [[fs' []]|] eqn:Er; try done. injection H as <-.
      destruct (Hfs _ _ Er) as [Ha Hb]. split; [exact Ha|].
      intros [|n q] Hq; [by apply apart_nil_r in Hq|]. cbn [type_at]. by apply Hb.
    + destruct (decide (name = str "element")) as [->|Hn]; [|done].
      apply fmap_Some in H as (t1 & Ht1 & ->). destruct (IH _ _ Ht1) as [Ha Hb]. split.
      * cbn [type_at]. rewrite decide_True by done. exact Ha.
      * intros [|n q] Hq; [by apply apart_nil_r in Hq|]. cbn [type_at].
        destruct (decide (n = str "element")) as [->|]; [|done]. apply Hb. by apply apart_cons in Hq.
    + destruct f as [[[fn ft] fnl] fm]. unfold ftype in H |- *. cbn [fst snd] in H.
      destruct ft as [|entries| |] eqn:Ef; try done.
      destruct (retype_fields _ name entries) as [[fs' []]|] eqn:Er; try done. injection H as <-.
      destruct (Hfs _ _ Er) as [Ha Hb]. split; [exact Ha|].
      intros [|n q] Hq; [by apply apart_nil_r in Hq|]. cbn [type_at ftype fst snd]. by apply Hb.
Qed.

Lemma update_column_spec change name cs :
  (forall c c', change c = Some c' -> col_name c' = col_name c) ->
  match update_column change name cs with
  | Some cs' =>
      map col_name cs' = map col_name cs /\
      (exists c c', find (fun c => bool_decide (col_name c = name)) cs = Some c /\
         change c = Some c' /\ find (fun c => bool_decide (col_name c = name)) cs' = Some c') /\
      forall n, n <> name -> find (fun c => bool_decide (col_name c = n)) cs' =
                             find (fun c => bool_decide (col_name c = n)) cs
  | None => forall c, find (fun c => bool_decide (col_name c = name)) cs = Some c -> change c = None
  end.
Proof.
  intros Hch. induction cs as [|c cs IH]; cbn [update_column].
  - done.
  - destruct (decide (col_name c = name)) as [Hn|Hn].
    + destruct (change c) as [c'|] eqn:Ec; cbn.
      * pose proof (Hch _ _ Ec) as Hcn. split_and!.
        -- by rewrite Hcn.
        -- exists c, c'. rewrite !bool_decide_true by congruence. done.
        -- intros n Hnn. rewrite !bool_decide_false by congruence. done.
      * intros c'. rewrite bool_decide_true by done. by intros [= <-].
    + destruct (update_column change name cs) as [cs'|]; cbn.
      * destruct IH as (H1 & (c0 & c' & H2 & H3 & H4) & H5). split_and!.
        -- by rewrite H1.
        -- exists c0, c'. by rewrite !bool_decide_false.
        -- intros n Hnn. destruct (bool_decide (col_name c = n)); [done|]. by apply H5.
      * by rewrite bool_decide_false.
Qed.

(** ** Alterations *)
Definition half_way (a : alter) : Prop :=
  match a with UnsetProperties keys false => (length keys > 1)%nat | _ => False end.

Lemma alter_in_place_spec t a :
  ¬ half_way a ->
  match alter_in_place t a with
  | (t', None) => alter_allowed t a /\ altered t a t'
  | (t', Some e) => ¬ alter_allowed t a /\ t' = t
  end.
Proof.
  intros Hh. destruct a as [new|keys ie|path new|path d|? ?]; cbn [alter_in_place alter_allowed altered].
  - destruct (precondition_ok _ _) eqn:E; [|done]. split; [done|]. split; [done|].
    intros k. apply property_set.
  - destruct (unset_properties _ keys ie) as [ps [k|]] eqn:E.
    + destruct (unset_removes _ _ _ _ _ E) as (dk & Hp & Hk & rest & Heq & -> & Hnone).
      cbn in Hh. destruct dk as [|k1 dk]; [|subst keys; cbn in Hh; rewrite app_length in Hh; cbn in Hh; lia].
      cbn in Heq. subst keys. destruct rest; [|cbn in Hh; lia].
      cbn [unset_properties] in E. destruct (existsb _ _) eqn:Ee; cbn in E; [done|]. injection E as <-.
      split; [|by destruct t]. intros [?|Hall]; [done|].
      specialize (Hall k ltac:(by left)). apply property_is_some in Hall. by rewrite Ee in Hall.
    + split; [|split; [done|by apply (unset_ok _ _ _ _ E)]].
      destruct ie; [by left|right]. intros k Hk.
      cbn in Hh. destruct keys as [|k1 [|]]; [by apply elem_of_nil in Hk| |cbn in Hh; lia].
      apply elem_of_list_singleton in Hk as ->. cbn in E.
      destruct (existsb _ _) eqn:Ee; [|done]. by apply property_is_some.
  - destruct path as [|name rest]; cbn [alter_column_type].
    { split; [|done]. intros (? & ? & ? & ? & _). done. }
    set (change := fun c => _ <$> alter_nested (col_type c) rest new).
    pose proof (update_column_spec change name (tbl_columns t)) as Hu.
    assert (Hch : forall c c', change c = Some c' -> col_name c' = col_name c).
    { intros c c' (t1 & _ & ->)%fmap_Some. done. }
    specialize (Hu Hch). destruct (update_column change name (tbl_columns t)) as [cs|].
    + destruct Hu as (H1 & (c & c' & Hf & Hc & Hf') & H3).
      apply fmap_Some in Hc as (t1 & Ht1 & Hc').
      split; [|split_and!].
      * exists name, rest, c. split_and!; [done..|].
        apply (alter_nested_resolves _ _ new). by rewrite Ht1.
      * done.
      * exact H1.
      * unfold column_type, column_named. cbn [with_columns tbl_columns]. rewrite Hf', Hc'. cbn [col_type].
        by destruct (alter_nested_type_at _ _ _ _ Ht1).
      * intros [|n q] Hq; [done|]. unfold column_type, column_named. cbn [with_columns tbl_columns].
        destruct (decide (n = name)) as [->|Hn].
        -- rewrite Hf', Hf, Hc'. cbn [col_type]. apply (alter_nested_type_at _ _ _ _ Ht1). by apply apart_cons in Hq.
        -- by rewrite H3.
    + split; [|done]. intros (n & r & c & [= <- <-] & Hf & Hr). specialize (Hu _ Hf).
      apply fmap_None in Hu. apply (alter_nested_resolves _ _ new) in Hr. rewrite Hu in Hr. by destruct Hr.
  - unfold alter_column_default. destruct path as [|name [|? ?]].
    { split; [|done]. by intros (? & ? & _). }
    2: { split; [|done]. by intros (? & ? & _). }
    set (change := fun c => Some _).
    pose proof (update_column_spec change name (tbl_columns t)) as Hu.
    specialize (Hu ltac:(by intros c c' [= <-])).
    destruct (update_column change name (tbl_columns t)) as [cs|].
    + destruct Hu as (H1 & (c & c' & Hf & Hc & Hf') & H3). injection Hc as <-.
      split; [|split_and!].
      * exists name. split; [done|]. by exists c.
      * done.
      * exact H1.
      * intros n c0 Hc0. unfold column_named in *. cbn [with_columns tbl_columns].
        destruct (decide (n = name)) as [->|Hn].
        -- rewrite Hf in Hc0. injection Hc0 as <-. eexists. split; [exact Hf'|].
           by rewrite decide_True.
        -- rewrite H3 by done. exists c0. split_and!; [done..|]. rewrite decide_False; [done|congruence].
    + split; [|done]. intros (n & [= <-] & c & Hf). by specialize (Hu _ Hf).
  - split; [by intros []|done].
Qed.

(** ** The world *)
Lemma unchanged_refl w : unchanged w w.
Proof. by repeat split. Qed.
Lemma holds_put_db s ns d n : w_db (holds (put s ns d)) n = if decide (ns = n) then Some (db_status d) else w_db (holds s) n.
Proof. cbn. destruct (decide (ns = n)) as [->|]; [by rewrite lookup_insert|by rewrite lookup_insert_ne]. Qed.
Lemma holds_put_table s ns d n t :
  w_table (holds (put s ns d)) n t = if decide (ns = n) then db_tables d !! t else w_table (holds s) n t.
Proof. cbn. destruct (decide (ns = n)) as [->|]; [by rewrite lookup_insert|by rewrite lookup_insert_ne]. Qed.
Lemma holds_put_view s ns d n v :
  w_view (holds (put s ns d)) n v = if decide (ns = n) then db_views d !! v else w_view (holds s) n v.
Proof. cbn. destruct (decide (ns = n)) as [->|]; [by rewrite lookup_insert|by rewrite lookup_insert_ne]. Qed.
Lemma holds_db s ns d : cat_dbs s !! ns = Some d -> w_db (holds s) ns = Some (db_status d).
Proof. intros H. cbn. by rewrite H. Qed.
Lemma holds_table s ns d t : cat_dbs s !! ns = Some d -> w_table (holds s) ns t = db_tables d !! t.
Proof. intros H. cbn. by rewrite H. Qed.
Lemma holds_view s ns d v : cat_dbs s !! ns = Some d -> w_view (holds s) ns v = db_views d !! v.
Proof. intros H. cbn. by rewrite H. Qed.

(** Replacing the tables of one database at one name. *)
Lemma put_tables_only s ns d ts t :
  cat_dbs s !! ns = Some d -> (forall t', t' <> t -> ts !! t' = db_tables d !! t') ->
  only_table (holds s) (holds (put_tables s ns d ts)) ns t /\
  w_table (holds (put_tables s ns d ts)) ns t = ts !! t.
Proof.
  intros Hd Hts. unfold put_tables. split.
  - split_and!.
    + intros n _. rewrite holds_put_db. destruct (decide (ns = n)) as [<-|]; [|done]. by rewrite (holds_db _ _ _ Hd).
    + intros n t' Hn. rewrite holds_put_table. destruct (decide (ns = n)) as [<-|]; [|done].
      rewrite (holds_table _ _ _ _ Hd). apply Hts. intros ->. apply Hn. by split.
    + intros n v _. rewrite holds_put_view. destruct (decide (ns = n)) as [<-|]; [|done].
      by rewrite (holds_view _ _ _ _ Hd).
  - rewrite holds_put_table. by rewrite decide_True.
Qed.
Lemma put_tables_same s ns d ts :
  cat_dbs s !! ns = Some d -> (forall t', ts !! t' = db_tables d !! t') ->
  unchanged (holds s) (holds (put_tables s ns d ts)).
Proof.
  intros Hd Hts. unfold put_tables. split_and!.
  - intros n _. rewrite holds_put_db. destruct (decide (ns = n)) as [<-|]; [|done]. by rewrite (holds_db _ _ _ Hd).
  - intros n t' _. rewrite holds_put_table. destruct (decide (ns = n)) as [<-|]; [|done].
    by rewrite (holds_table _ _ _ _ Hd).
  - intros n v _. rewrite holds_put_view. destruct (decide (ns = n)) as [<-|]; [|done].
    by rewrite (holds_view _ _ _ _ Hd).
Qed.
Lemma put_views_only s ns d vs v :
  cat_dbs s !! ns = Some d -> (forall v', v' <> v -> vs !! v' = db_views d !! v') ->
  only_view (holds s) (holds (put_views s ns d vs)) ns v /\
  w_view (holds (put_views s ns d vs)) ns v = vs !! v.
Proof.
  intros Hd Hts. unfold put_views. split.
  - split_and!.
    + intros n _. rewrite holds_put_db. destruct (decide (ns = n)) as [<-|]; [|done]. by rewrite (holds_db _ _ _ Hd).
    + intros n t _. rewrite holds_put_table. destruct (decide (ns = n)) as [<-|]; [|done].
      by rewrite (holds_table _ _ _ _ Hd).
    + intros n v' Hn. rewrite holds_put_view. destruct (decide (ns = n)) as [<-|]; [|done].
      rewrite (holds_view _ _ _ _ Hd). apply Hts. intros ->. apply Hn. by split.
  - rewrite holds_put_view. by rewrite decide_True.
Qed.
Lemma put_views_same s ns d vs :
  cat_dbs s !! ns = Some d -> (forall v', vs !! v' = db_views d !! v') ->
  unchanged (holds s) (holds (put_views s ns d vs)).
Proof.
  intros Hd Hts. unfold put_views. split_and!.
  - intros n _. rewrite holds_put_db. destruct (decide (ns = n)) as [<-|]; [|done]. by rewrite (holds_db _ _ _ Hd).
  - intros n t' _. rewrite holds_put_table. destruct (decide (ns = n)) as [<-|]; [|done].
    by rewrite (holds_table _ _ _ _ Hd).
  - intros n v _. rewrite holds_put_view. destruct (decide (ns = n)) as [<-|]; [|done].
    by rewrite (holds_view _ _ _ _ Hd).
Qed.

(** Listings. *)
Lemma shows_values {A} (m : gmap text A) (name : A -> text) :
  (forall k x, m !! k = Some x -> name x = k) ->
  shows (map snd (map_to_list m)) (fun x => exists k, m !! k = Some x).
Proof.
  intros Hn. split.
  - assert (forall l : list (text * A), (forall p, p ∈ l -> name p.2 = p.1) -> NoDup l.*1 -> NoDup (map snd l)) as H.
    { induction l as [|p l IH]; intros Hl Hnd; [constructor|]. cbn in *. apply NoDup_cons in Hnd as [Hp Hnd].
      constructor; [|apply IH; [|done]; intros q Hq; apply Hl; by right].
      intros Hi. change (map snd l) with (l.*2) in Hi. apply elem_of_list_fmap in Hi as (q & Hq & Hql).
      apply Hp, elem_of_list_fmap. exists q. split; [|done].
      rewrite <- (Hl p) by left. rewrite Hq. apply Hl. by right. }
    apply H; [|apply NoDup_fst_map_to_list]. intros [k x] Hp. apply elem_of_map_to_list in Hp. by apply Hn.
  - intros x. change (map snd (map_to_list m)) with ((map_to_list m).*2). rewrite elem_of_list_fmap. split.
    + intros ([k y] & -> & Hp). apply elem_of_map_to_list in Hp. by exists k.
    + intros [k Hk]. exists (k, x). split; [done|]. by apply elem_of_map_to_list.
Qed.

Lemma is_child_of_spec a b : is_child_of a b = true <-> exists x, a = (b.1, b.2 ++ [x]).
Proof.
  unfold is_child_of. rewrite !andb_true_iff, !bool_decide_eq_true. destruct a as [ah at_], b as [bh bt]. cbn [fst snd].
  assert (forall l m, length l = S (length m) /\ forallb (fun p => bool_decide (p.1 = p.2)) (zip l m) = true
                      <-> exists x : text, l = m ++ [x]) as H.
  { induction l as [|y l IH]; intros m.
    - split; [intros [? _]; done|]. intros [x Hx]. by destruct m.
    - destruct m as [|z m]; cbn.
      + split.
        * intros [Hl _]. destruct l; [by exists y|done].
        * intros [x [= -> ->]]. done.
      + rewrite andb_true_iff, bool_decide_eq_true. split.
        * intros [Hl [-> Hf]]. injection Hl as Hl. destruct (proj1 (IH m) (conj Hl Hf)) as [x ->]. by exists x.
        * intros [x [= -> ->]]. destruct (proj2 (IH m) (ex_intro _ x eq_refl)) as [Hl Hf]. by rewrite Hl. }
  split.
  - intros [[-> Hl] Hf]. destruct (proj1 (H _ _) (conj Hl Hf)) as [x ->]. by exists x.
  - intros [x [= -> ->]]. destruct (proj2 (H (bt ++ [x]) bt) (ex_intro _ x eq_refl)) as [Hl Hf]. done.
Qed.

Lemma shows_databases s prefix :
  named s ->
  shows (map (fun p => db_status p.2)
           (List.filter (fun p : namespace * database => listed prefix p.1) (map_to_list (cat_dbs s))))
    (fun d => exists ns, w_db (holds s) ns = Some d /\
       match prefix with None => ns.2 = [] | Some p => exists x, ns = (p.1, p.2 ++ [x]) end).
Proof.
  intros Hn. split.
  - assert (forall l : list (namespace * database), (forall p, p ∈ l -> db_name (db_status p.2) = p.1) ->
      NoDup l.*1 -> NoDup (map (fun p => db_status p.2) (List.filter (fun p => listed prefix p.1) l))) as H.
    { induction l as [|p l IH]; intros Hl Hnd; [constructor|]. cbn in *. apply NoDup_cons in Hnd as [Hp Hnd].
      assert (forall q, q ∈ l -> db_name (db_status q.2) = q.1) as Hl' by (intros q Hq; apply Hl; by right).
      destruct (listed prefix p.1); [|by apply IH]. cbn. constructor; [|by apply IH].
      intros Hi. apply elem_of_list_In, in_map_iff in Hi as (q & Hq & Hql). apply List.filter_In in Hql as [Hql _].
      apply elem_of_list_In in Hql. apply Hp, elem_of_list_fmap. exists q. split; [|done].
      rewrite <- (Hl p) by left. rewrite <- Hq. by apply Hl'. }
    apply H; [|apply NoDup_fst_map_to_list]. intros [ns d] Hp. apply elem_of_map_to_list in Hp. by apply Hn.
  - intros d. rewrite elem_of_list_In, in_map_iff. split.
    + intros ([ns x] & <- & Hf). apply List.filter_In in Hf as [Hf Hl]. apply elem_of_list_In, elem_of_map_to_list in Hf.
      exists ns. cbn. rewrite Hf. split; [done|]. cbn in Hl. destruct prefix as [p|]; cbn in Hl.
      * by apply is_child_of_spec.
      * by apply bool_decide_eq_true in Hl.
    + intros (ns & Hd & Hp). cbn in Hd. apply fmap_Some in Hd as (x & Hx & ->). exists (ns, x). split; [done|].
      apply List.filter_In. split; [by apply elem_of_list_In, elem_of_map_to_list|]. cbn.
      destruct prefix as [p|]; cbn; [by apply is_child_of_spec|by apply bool_decide_eq_true].
Qed.

Lemma map_empty_lookup {A} (m : gmap text A) : m = ∅ <-> forall k, m !! k = None.
Proof. split; [intros -> k; apply lookup_empty|apply map_empty]. Qed.

(** ** Every operation does what is expected. *)
Lemma step_expected s o :
  named s -> ¬ may_stop_half_way o ->
  expected (cat_name s) (holds s) o (holds (step s o).1) (step s o).2.
Proof.
  intros Hn Hh.
  destruct o as [ns c|ns|p|ns ie ca|ns t c|ns t|ns|ns t ie|ns t a|ns v c|ns v|ns|ns v ie]; cbn [step expected].
  - destruct (cat_dbs s !! ns) as [d|] eqn:E.
    + rewrite (holds_db _ _ _ E). destruct (cd_if_not_exists c); (split; [apply unchanged_refl|done]).
    + assert (w_db (holds s) ns = None) as -> by (cbn; by rewrite E). cbn [fst snd].
      split_and!.
      * rewrite holds_put_db. by rewrite decide_True.
      * done.
      * intros n Hnn. rewrite holds_put_db. by rewrite decide_False.
      * intros n t _. rewrite holds_put_table. destruct (decide (ns = n)) as [<-|]; [|done].
        cbn. by rewrite E, lookup_empty.
      * intros n t _. rewrite holds_put_view. destruct (decide (ns = n)) as [<-|]; [|done].
        cbn. by rewrite E, lookup_empty.
  - cbn [holds w_db]. destruct (cat_dbs s !! ns) as [d|]; (split; [apply unchanged_refl|done]).
  - cbn [fst snd]. split; [apply unchanged_refl|]. eexists. split; [done|]. by apply shows_databases.
  - destruct (cat_dbs s !! ns) as [d|] eqn:E.
    + rewrite (holds_db _ _ _ E).
      assert (empty_db (holds s) ns <-> db_tables d = ∅ /\ db_views d = ∅) as He.
      { unfold empty_db. rewrite !map_empty_lookup. cbn. rewrite E. done. }
      destruct (negb ca && negb _) eqn:Eb; cbn [fst snd].
      * apply andb_true_iff in Eb as [Hca Hne]. right. destruct ca; [done|].
        split_and!; [done| |apply unchanged_refl|done].
        rewrite He. intros [H1 H2]. by rewrite !bool_decide_true in Hne by done.
      * left. split_and!.
        -- destruct ca; [by left|right]. apply He. cbn in Eb. apply negb_false_iff, andb_true_iff in Eb as [H1 H2].
           by apply bool_decide_eq_true in H1, H2.
        -- done.
        -- cbn. by rewrite lookup_delete.
        -- split; intros; cbn; by rewrite lookup_delete.
        -- intros n Hnn. cbn. by rewrite lookup_delete_ne.
        -- intros n t Hnn. cbn. by rewrite lookup_delete_ne.
        -- intros n t Hnn. cbn. by rewrite lookup_delete_ne.
    + assert (w_db (holds s) ns = None) as -> by (cbn; by rewrite E).
      destruct ie; (split; [apply unchanged_refl|done]).
  - destruct (create_table_ok c); [|split; [apply unchanged_refl|done]].
    destruct (cat_dbs s !! ns) as [d|] eqn:E.
    + rewrite (holds_db _ _ _ E), (holds_table _ _ _ _ E).
      assert (forall ts : gmap text table, (forall t', t' <> t -> ts !! t' = db_tables d !! t') ->
        w_table (holds (put_tables s ns d (<[t:=new_table (cat_name s) ns t c]> ts))) ns t
          = Some (new_table (cat_name s) ns t c) /\
        Table (new_table (cat_name s) ns t c) = Table (new_table (cat_name s) ns t c) /\
        only_table (holds s) (holds (put_tables s ns d (<[t:=new_table (cat_name s) ns t c]> ts))) ns t) as Hc.
      { intros ts Hts. destruct (put_tables_only s ns d (<[t:=new_table (cat_name s) ns t c]> ts) t E) as [H1 H2].
        - intros t' Ht'. rewrite lookup_insert_ne by done. by apply Hts.
        - split_and!; [|done..]. by rewrite H2, lookup_insert. }
      destruct (db_tables d !! t) as [old|] eqn:Et, (ct_mode c); cbn [fst snd];
        try (split; [apply unchanged_refl|done]); apply Hc; try done;
        intros; by rewrite lookup_delete_ne.
    + assert (w_db (holds s) ns = None) as -> by (cbn; by rewrite E). split; [apply unchanged_refl|done].
  - cbn [holds w_table]. destruct (cat_dbs s !! ns) as [d|]; cbn.
    + destruct (db_tables d !! t); (split; [apply unchanged_refl|done]).
    + split; [apply unchanged_refl|done].
  - destruct (cat_dbs s !! ns) as [d|] eqn:E.
    + rewrite (holds_db _ _ _ E). split; [apply unchanged_refl|]. eexists. split; [done|].
      destruct (shows_values (db_tables d) tbl_name) as [Hs1 Hs2]; [apply (Hn _ _ E)|].
      split; [exact Hs1|]. intros x. rewrite Hs2. cbn. by rewrite E.
    + assert (w_db (holds s) ns = None) as -> by (cbn; by rewrite E). split; [apply unchanged_refl|done].
  - destruct (cat_dbs s !! ns) as [d|] eqn:E.
    + rewrite (holds_db _ _ _ E), (holds_table _ _ _ _ E).
      destruct (db_tables d !! t) as [old|] eqn:Et.
      * rewrite bool_decide_true by done. cbn [orb fst snd].
        destruct (put_tables_only s ns d (delete t (db_tables d)) t E) as [H1 H2].
        { intros t' Ht'. by rewrite lookup_delete_ne. }
        split_and!; [|done..]. by rewrite H2, lookup_delete.
      * rewrite bool_decide_false by (by intros [? ?]). cbn [orb].
        assert (unchanged (holds s) (holds (put_tables s ns d (delete t (db_tables d))))) as Hu.
        { apply put_tables_same; [done|]. intros t'. by rewrite delete_notin. }
        destruct ie; (split; [exact Hu|done]).
    + assert (w_db (holds s) ns = None) as -> by (cbn; by rewrite E).
      assert (w_table (holds s) ns t = None) as -> by (cbn; by rewrite E).
      destruct ie; (split; [apply unchanged_refl|done]).
  - destruct (cat_dbs s !! ns) as [d|] eqn:E.
    + rewrite (holds_db _ _ _ E), (holds_table _ _ _ _ E).
      destruct (db_tables d !! t) as [old|] eqn:Et; [|split; [apply unchanged_refl|done]].
      assert (¬ half_way a) as Hha by (by destruct a as [|? []| | |]).
      pose proof (alter_in_place_spec old a Hha) as Hs. destruct (alter_in_place old a) as [new [e|]]; cbn [fst snd].
      * destruct Hs as [Ha ->]. right. split_and!; [done|by eexists|].
        apply put_tables_same; [done|]. intros t'. by rewrite insert_id.
      * destruct Hs as [Ha Hb]. left.
        destruct (put_tables_only s ns d (<[t:=new]> (db_tables d)) t E) as [H1 H2].
        { intros t' Ht'. by rewrite lookup_insert_ne. }
        split_and!; [done..|]. exists new. split; [|done]. by rewrite H2, lookup_insert.
    + assert (w_db (holds s) ns = None) as -> by (cbn; by rewrite E). split; [apply unchanged_refl|done].
  - destruct (cat_dbs s !! ns) as [d|] eqn:E.
    + rewrite (holds_db _ _ _ E), (holds_view _ _ _ _ E).
      assert (forall ts : gmap text view, (forall t', t' <> v -> ts !! t' = db_views d !! t') ->
        w_view (holds (put_views s ns d (<[v:=new_view (cat_name s) ns v c]> ts))) ns v
          = Some (new_view (cat_name s) ns v c) /\
        View (new_view (cat_name s) ns v c) = View (new_view (cat_name s) ns v c) /\
        only_view (holds s) (holds (put_views s ns d (<[v:=new_view (cat_name s) ns v c]> ts))) ns v) as Hc.
      { intros ts Hts. destruct (put_views_only s ns d (<[v:=new_view (cat_name s) ns v c]> ts) v E) as [H1 H2].
        - intros t' Ht'. rewrite lookup_insert_ne by done. by apply Hts.
        - split_and!; [|done..]. by rewrite H2, lookup_insert. }
      destruct (db_views d !! v) as [old|] eqn:Et; [|by apply Hc].
      destruct (cv_if_not_exists c); [split; [apply unchanged_refl|done]|].
      destruct (cv_replace c); [|split; [apply unchanged_refl|done]].
      apply Hc. intros; by rewrite lookup_delete_ne.
    + assert (w_db (holds s) ns = None) as -> by (cbn; by rewrite E). split; [apply unchanged_refl|done].
  - cbn [holds w_view]. destruct (cat_dbs s !! ns) as [d|]; cbn.
    + destruct (db_views d !! v); (split; [apply unchanged_refl|done]).
    + split; [apply unchanged_refl|done].
  - destruct (cat_dbs s !! ns) as [d|] eqn:E.
    + rewrite (holds_db _ _ _ E). split; [apply unchanged_refl|]. eexists. split; [done|].
      destruct (shows_values (db_views d) vw_name) as [Hs1 Hs2]; [apply (Hn _ _ E)|].
      split; [exact Hs1|]. intros x. rewrite Hs2. cbn. by rewrite E.
    + assert (w_db (holds s) ns = None) as -> by (cbn; by rewrite E). split; [apply unchanged_refl|done].
  - destruct (cat_dbs s !! ns) as [d|] eqn:E.
    + rewrite (holds_db _ _ _ E), (holds_view _ _ _ _ E).
      destruct (db_views d !! v) as [old|] eqn:Et.
      * rewrite bool_decide_true by done. cbn [orb fst snd].
        destruct (put_views_only s ns d (delete v (db_views d)) v E) as [H1 H2].
        { intros t' Ht'. by rewrite lookup_delete_ne. }
        split_and!; [|done..]. by rewrite H2, lookup_delete.
      * rewrite bool_decide_false by (by intros [? ?]). cbn [orb].
        assert (unchanged (holds s) (holds (put_views s ns d (delete v (db_views d))))) as Hu.
        { apply put_views_same; [done|]. intros t'. by rewrite delete_notin. }
        destruct ie; (split; [exact Hu|done]).
    + assert (w_db (holds s) ns = None) as -> by (cbn; by rewrite E).
      assert (w_view (holds s) ns v = None) as -> by (cbn; by rewrite E).
      destruct ie; (split; [apply unchanged_refl|done]).
Qed.

(** ** Other databases *)
Lemma step_elsewhere s o n :
  about o <> Some n -> cat_dbs (step s o).1 !! n = cat_dbs s !! n.
Proof.
  intros Ha.
  destruct o as [ns c|ns|p|ns ie ca|ns t c|ns t|ns|ns t ie|ns t a|ns v c|ns v|ns|ns v ie];
    cbn [step about] in *.
  all: try assert (ns <> n) as Hne by congruence.
  all: repeat case_match; try done; cbn [fst put put_tables put_views cat_dbs];
    try (by rewrite lookup_insert_ne); try (by rewrite lookup_delete_ne).
Qed.

(** ** Which tables there can be after a step *)
Lemma step_table s o ns t x :
  w_table (holds (step s o).1) ns t = Some x ->
  w_table (holds s) ns t = Some x \/
  (exists c, o = CreateTable ns t c /\ x = new_table (cat_name s) ns t c) \/
  (exists a y, o = AlterTable ns t a /\ w_table (holds s) ns t = Some y /\ x = (alter_in_place y a).1).
Proof.
  intros H. destruct (decide (about o = Some ns)) as [Ha|Ha].
  2: { left. cbn in *. by rewrite step_elsewhere in H. }
  destruct o as [n c|n|p|n ie ca|n t1 c|n t1|n|n t1 ie|n t1 a|n v c|n v|n|n v ie];
    cbn [about] in Ha; try injection Ha as ->; cbn [step] in H; try done.
  - left. destruct (cat_dbs s !! ns) eqn:E; [destruct (cd_if_not_exists c)|]; try done.
    cbn [fst] in H. rewrite holds_put_table, decide_True in H by done. cbn in H. by rewrite lookup_empty in H.
  - left. destruct (cat_dbs s !! ns) eqn:E; done.
  - left. destruct (cat_dbs s !! ns) eqn:E; [destruct (negb ca && _)|destruct ie]; try done.
    cbn in H. by rewrite lookup_delete in H.
  - destruct (create_table_ok c); [|by left].
    destruct (cat_dbs s !! ns) as [d|] eqn:E; [|by left].
    assert (forall ts : gmap text table, (forall t', ts !! t' = Some x -> db_tables d !! t' = Some x) ->
       w_table (holds (put_tables s ns d (<[t1:=new_table (cat_name s) ns t1 c]> ts))) ns t = Some x ->
       w_table (holds s) ns t = Some x \/
       (exists c0, CreateTable ns t1 c = CreateTable ns t c0 /\ x = new_table (cat_name s) ns t c0) \/
       (exists a y, CreateTable ns t1 c = AlterTable ns t a /\ w_table (holds s) ns t = Some y /\ x = (alter_in_place y a).1)) as Hc.
    { intros ts Hts Hl. unfold put_tables in Hl. rewrite holds_put_table, decide_True in Hl by done. cbn in Hl.
      apply lookup_insert_Some in Hl as [[<- <-]|[_ Hl]].
      - right. left. by exists c.
      - left. rewrite (holds_table _ _ _ _ E). by apply Hts. }
    destruct (db_tables d !! t1) eqn:Et, (ct_mode c); cbn [fst] in H; try (by left); refine (Hc _ _ H); try done.
    all: intros t' Hd; by apply lookup_delete_Some in Hd as [_ Hd].
  - left. destruct (cat_dbs s !! ns) as [d|] eqn:E; [destruct (db_tables d !! t1)|]; done.
  - left. destruct (cat_dbs s !! ns) as [d|] eqn:E; done.
  - left. destruct (cat_dbs s !! ns) as [d|] eqn:E; [|destruct ie; done].
    rewrite (holds_table _ _ _ _ E).
    destruct (_ || ie); cbn [fst] in H; unfold put_tables in H; rewrite holds_put_table, decide_True in H by done;
      cbn in H; by apply lookup_delete_Some in H as [_ H].
  - destruct (cat_dbs s !! ns) as [d|] eqn:E; [|by left].
    destruct (db_tables d !! t1) as [old|] eqn:Et; [|by left].
    destruct (alter_in_place old a) as [new e] eqn:Ea. cbn [fst] in H.
    unfold put_tables in H. rewrite holds_put_table, decide_True in H by done. cbn in H.
    apply lookup_insert_Some in H as [[<- <-]|[_ H]].
    + right. right. exists a, old. rewrite (holds_table _ _ _ _ E), Ea. done.
    + left. by rewrite (holds_table _ _ _ _ E).
  - left. destruct (cat_dbs s !! ns) as [d|] eqn:E; [|done].
    rewrite (holds_table _ _ _ _ E).
    destruct (db_views d !! v); [destruct (cv_if_not_exists c); [|destruct (cv_replace c)]|]; cbn [fst] in H;
      try (rewrite (holds_table _ _ _ _ E) in H; done);
      unfold put_views in H; rewrite holds_put_table, decide_True in H by done; done.
  - left. destruct (cat_dbs s !! ns) as [d|] eqn:E; [destruct (db_views d !! v)|]; done.
  - left. destruct (cat_dbs s !! ns) as [d|] eqn:E; done.
  - left. destruct (cat_dbs s !! ns) as [d|] eqn:E; [|destruct ie; done].
    rewrite (holds_table _ _ _ _ E).
    destruct (_ || ie); cbn [fst] in H; unfold put_views in H; rewrite holds_put_table, decide_True in H by done; done.
Qed.

(** ** Location keys *)
Lemma elem_of_rev {A} (x : A) l : x ∈ rev l <-> x ∈ l.
Proof. by rewrite !elem_of_list_In, <- in_rev. Qed.
Lemma lower_space c : is_space c = true -> lower c = c.
Proof.
  unfold is_space, lower. intros H.
  rewrite !orb_true_iff, !andb_true_iff, !N.leb_le, !N.eqb_eq in H.
  destruct ((65 <=? c)%N && (c <=? 90)%N) eqn:E; [|done].
  apply andb_true_iff in E as [E1%N.leb_le E2%N.leb_le]. lia.
Qed.
Lemma trim_start_id s : Forall (fun c => is_space c = false) s -> trim_start s = s.
Proof. destruct 1 as [|c s Hc _]; [done|]. cbn. by rewrite Hc. Qed.
Lemma trim_id s : Forall (fun c => is_space c = false) s -> trim s = s.
Proof.
  intros H. unfold trim. rewrite (trim_start_id s) by done.
  rewrite trim_start_id; [apply rev_involutive|]. by apply List.Forall_rev.
Qed.
Lemma eq_ci_no_space a k :
  eq_ci a k = true -> Forall (fun c => is_space c = false) k -> Forall (fun c => is_space (lower c) = false) k ->
  Forall (fun c => is_space c = false) a.
Proof.
  unfold eq_ci. rewrite bool_decide_eq_true. intros He _ Hk.
  assert (Forall (fun c => is_space c = false) (map lower k)) as H.
  { change (map lower k) with (lower <$> k). by apply Forall_fmap. }
  rewrite <- He in H. change (map lower a) with (lower <$> a) in H. apply Forall_fmap in H.
  eapply Forall_impl; [exact H|]. cbn. intros c Hc. destruct (is_space c) eqn:E; [|done].
  by rewrite lower_space, E in Hc.
Qed.
Lemma location_key_like k : is_metadata_location_key k = true -> location_like k = true.
Proof.
  intros H. unfold location_like. rewrite trim_id; [done|].
  unfold is_metadata_location_key in H. cbn [existsb METADATA_LOCATION_KEYS] in H.
  rewrite !orb_true_iff in H. destruct H as [H|[H|H]]; [..|done].
  all: eapply eq_ci_no_space; [exact H|..]; apply (bool_decide_unpack _); by vm_compute.
Qed.
Lemma eq_ci_both k : eq_ci k METADATA_LOCATION = true -> eq_ci k METADATA_LOCATION_UNDERSCORE = true -> False.
Proof.
  unfold eq_ci. rewrite !bool_decide_eq_true. intros H1 H2. rewrite H1 in H2. by vm_compute in H2.
Qed.
Lemma find_ext_in {A} (p q : A -> bool) l : (forall x, x ∈ l -> p x = q x) -> find p l = find q l.
Proof.
  induction l as [|a l IH]; intros H; [done|]. cbn. rewrite (H a) by left. destruct (q a); [done|].
  apply IH. intros x Hx. apply H. by right.
Qed.
Lemma location_single ps k :
  (forall p, p ∈ ps -> location_like p.1 = true -> p.1 = k) -> location_like k = true ->
  metadata_location_value ps = property ps k.
Proof.
  intros Hps Hk. unfold metadata_location_value.
  assert (forall K, K ∈ METADATA_LOCATION_KEYS ->
    property_value ps K = if eq_ci (trim k) K then property ps k else None) as Hp.
  { intros K HK. unfold property_value, property.
    assert (find (fun p => eq_ci (trim p.1) K) ps
      = find (fun p => bool_decide (p.1 = k) && eq_ci (trim k) K) ps) as ->.
    { apply find_ext_in. intros p Hp. destruct (decide (p.1 = k)) as [->|Hn].
      - by rewrite bool_decide_true.
      - rewrite bool_decide_false by done. cbn. apply not_true_iff_false. intros He.
        apply Hn, Hps; [done|]. unfold location_like, is_metadata_location_key.
        apply existsb_exists. exists K. split; [by apply elem_of_list_In|done]. }
    destruct (eq_ci (trim k) K).
    - f_equal. apply find_ext_in. intros. by rewrite andb_true_r.
    - replace (find _ ps) with (@None (text * text)); [done|]. symmetry.
      clear. induction ps as [|p ps IH]; [done|]. cbn. by rewrite andb_false_r. }
  rewrite !Hp by (unfold METADATA_LOCATION_KEYS; rewrite !elem_of_cons; tauto).
  unfold location_like, is_metadata_location_key in Hk. cbn [existsb METADATA_LOCATION_KEYS] in Hk.
  rewrite !orb_true_iff in Hk. destruct (eq_ci (trim k) METADATA_LOCATION) eqn:E1.
  - destruct (property ps k); [done|].
    destruct (eq_ci (trim k) METADATA_LOCATION_UNDERSCORE) eqn:E2; [|done]. by destruct (eq_ci_both _ E1 E2).
  - destruct Hk as [?|[->|?]]; done.
Qed.

Lemma elem_of_upsert ps k v p : p ∈ upsert ps k v -> p ∈ ps \/ p = (k, v).
Proof.
  induction ps as [|[k1 v1] ps IH]; cbn.
  - intros ->%elem_of_list_singleton. by right.
  - destruct (decide (k1 = k)) as [->|].
    + intros [->|H]%elem_of_cons; [by right|]. left. by right.
    + intros [->|H]%elem_of_cons; [left; by left|]. destruct (IH H); [left; by right|by right].
Qed.
Lemma elem_of_set ps new p : p ∈ set_properties ps new -> p ∈ ps \/ p ∈ new.
Proof.
  unfold set_properties. revert ps. induction new as [|[k v] new IH]; intros ps; [by left|].
  cbn [fold_left fst snd]. intros [H|H]%IH; [|right; by right].
  apply elem_of_upsert in H as [H| -> ]; [by left|right; by left].
Qed.
Lemma elem_of_unset ps keys ie p : p ∈ (unset_properties ps keys ie).1 -> p ∈ ps.
Proof.
  revert ps. induction keys as [|k keys IH]; intros ps; [done|]. cbn.
  destruct (_ || ie); [|done]. intros H%IH. by apply elem_of_list_filter in H as [_ H].
Qed.
Lemma elem_of_property ps k v : property ps k = Some v -> (k, v) ∈ ps.
Proof.
  induction ps as [|[k1 v1] ps IH]; [done|]. rewrite property_cons. destruct (decide (k1 = k)) as [->|].
  - intros [= ->]. by left.
  - intros H. right. by apply IH.
Qed.
Lemma property_elem ps k v : (k, v) ∈ ps -> is_Some (property ps k).
Proof.
  induction ps as [|[k1 v1] ps IH]; [by intros ?%elem_of_nil|]. rewrite property_cons.
  destruct (decide (k1 = k)); [by eexists|]. intros [[= -> ->]|H]%elem_of_cons; [done|by apply IH].
Qed.
Lemma find_elem {A} (p : A -> bool) l x : find p l = Some x -> x ∈ l /\ p x = true.
Proof. intros H. apply find_some in H as [H1 H2]. by rewrite elem_of_list_In. Qed.
Lemma based_on_key new b : based_on new b -> exists k v, (k, v) ∈ new /\ is_metadata_location_key k = true.
Proof.
  intros [_ [v Hv]]. unfold metadata_location_update in Hv. apply fmap_Some in Hv as ([k v'] & Hf & _).
  apply find_elem in Hf as [H1 H2]. by exists k, v'.
Qed.

(** ** At most one winner *)
Section winners.
  Context (ns : namespace) (t k b : text).
  Notation single w := (one_location_key w ns t k).
  Definition moved (w : world) : Prop := forall x, w_table w ns t = Some x -> location x <> Some b.

  Lemma keeps_elem ps x (o : op) :
    keeps_to_key ns t k b o ->
    (o = AlterTable ns t (SetProperties ps) \/ exists c, o = CreateTable ns t c /\ ct_properties c = ps) ->
    x ∈ ps -> location_like x.1 = true -> x.1 = k /\ x.2 <> b.
  Proof.
    intros Hk [->|(c & -> & <-)]; cbn in Hk.
    - by apply Hk.
    - destruct c. cbn in Hk |- *. by apply Hk.
  Qed.

  Lemma single_step s o :
    single (holds s) -> keeps_to_key ns t k b o -> single (holds (step s o).1).
  Proof.
    intros Hs Hk x p Hx Hp Hl. apply step_table in Hx as [Hx|[(c & -> & ->)|(a & y & -> & Hy & ->)]].
    - by eapply Hs.
    - cbn in Hp. apply (keeps_elem (ct_properties c) p _ Hk); [right; by exists c|done..].
    - destruct a as [new|keys ie|path new|path d|? ?]; cbn in Hp.
      + destruct (precondition_ok _ _); cbn in Hp; [|by eapply Hs].
        apply elem_of_set in Hp as [Hp|Hp]; [by eapply Hs|].
        apply (keeps_elem new p _ Hk); [by left|done..].
      + destruct (unset_properties (tbl_properties y) keys ie) as [ps [e|]] eqn:E; cbn in Hp;
          eapply Hs; try done; apply (elem_of_unset _ keys ie); by rewrite E.
      + destruct (alter_column_type _ _ _); by eapply Hs.
      + destruct (alter_column_default _ _ _); by eapply Hs.
      + by eapply Hs.
  Qed.

  Lemma location_property w x :
    single w -> w_table w ns t = Some x ->
    location x = if location_like k then property (tbl_properties x) k else None.
  Proof.
    intros Hs Hx. unfold location. destruct (location_like k) eqn:E.
    - apply location_single; [|done]. intros p Hp Hl. by eapply Hs.
    - unfold metadata_location_value, property_value.
      assert (forall K, K ∈ METADATA_LOCATION_KEYS ->
        find (fun p => eq_ci (trim p.1) K) (tbl_properties x) = None) as H.
      { intros K HK. destruct (find _ _) as [p|] eqn:Ef; [|done]. exfalso. apply find_elem in Ef as [Hp He].
        assert (location_like p.1 = true) as Hl.
        { apply existsb_exists. exists K. split; [by apply elem_of_list_In|done]. }
        pose proof (Hs _ _ Hx Hp Hl) as Hpk. rewrite Hpk in Hl. by rewrite E in Hl. }
      rewrite !H; [done|..]; unfold METADATA_LOCATION_KEYS; rewrite !elem_of_cons; tauto.
  Qed.

  Lemma moved_step s o :
    single (holds s) -> moved (holds s) -> keeps_to_key ns t k b o -> moved (holds (step s o).1).
  Proof.
    intros Hs Hm Hk x Hx. pose proof (single_step s o Hs Hk) as Hs'.
    rewrite (location_property _ _ Hs' Hx). destruct (location_like k) eqn:Ek; [|done].
    apply step_table in Hx as [Hx|[(c & -> & ->)|(a & y & -> & Hy & ->)]].
    - specialize (Hm _ Hx). by rewrite (location_property _ _ Hs Hx), Ek in Hm.
    - cbn. intros Hp%elem_of_property.
      destruct (keeps_elem (ct_properties c) (k, b) _ Hk) as [_ ?]; [right; by exists c|done..].
    - specialize (Hm _ Hy). rewrite (location_property _ _ Hs Hy), Ek in Hm.
      assert (forall new, tbl_properties (with_properties y new) = new) as Hwp by done.
      destruct a as [new|keys ie|path new|path d|? ?]; cbn [alter_in_place].
      + destruct (precondition_ok _ _); [|done]. cbn [fst]. rewrite Hwp, property_set.
        destruct (property (rev new) k) as [v|] eqn:Ev; [|done]. intros [= ->].
        apply elem_of_property in Ev. rewrite elem_of_rev in Ev.
        destruct (keeps_elem new (k, b) _ Hk) as [_ ?]; [by left|done..].
      + destruct (unset_properties (tbl_properties y) keys ie) as [ps e] eqn:E.
        destruct (unset_removes _ _ _ _ _ E) as (dk & _ & Hdk & _).
        destruct e; cbn [fst]; rewrite Hwp, Hdk; by destruct (decide (k ∈ dk)).
      + destruct (alter_column_type _ _ _); done.
      + destruct (alter_column_default _ _ _); done.
      + done.
  Qed.

  Lemma wins_moved s o :
    single (holds s) -> keeps_to_key ns t k b o -> wins ns t b o (step s o).2 = true ->
    ¬ moved (holds s) /\ moved (holds (step s o).1).
  Proof.
    intros Hs Hk Hw. destruct o as [| | | | | | | |n t1 a| | | |]; try done.
    destruct a as [new| | | |]; try done. unfold wins in Hw.
    destruct (step s (AlterTable n t1 (SetProperties new))).2 eqn:Er; try done.
    rewrite !andb_true_iff, !bool_decide_eq_true in Hw. destruct Hw as [[[-> ->] Hprev] Hloc].
    pose proof (single_step s _ Hs Hk) as Hs'.
    destruct (based_on_key new b (conj Hprev Hloc)) as (k1 & v1 & Hin & Hkey).
    pose proof (location_key_like _ Hkey) as Hll.
    destruct (keeps_elem new (k1, v1) _ Hk) as [Hk1 _]; [by left|done..|]. cbn in Hk1. subst k1.
    cbn [step] in Er, Hs' |- *. destruct (cat_dbs s !! ns) as [d|] eqn:Ed; [|done].
    destruct (db_tables d !! t) as [old|] eqn:Et; [|done].
    cbn [alter_in_place] in Er, Hs' |- *.
    destruct (precondition_ok (tbl_properties old) new) eqn:Ep; [|done]. cbn [fst snd] in Hs' |- *.
    assert (w_table (holds s) ns t = Some old) as Hold by (by rewrite (holds_table _ _ _ _ Ed)).
    split.
    - intros Hm. apply (Hm old Hold). unfold precondition_ok in Ep. rewrite Hprev in Ep.
      destruct (metadata_location_update new); [|by destruct Hloc]. by apply bool_decide_eq_true in Ep.
    - intros x Hx. rewrite (location_property _ _ Hs' Hx), Hll.
      unfold put_tables in Hx. rewrite holds_put_table, decide_True in Hx by done. cbn in Hx.
      rewrite lookup_insert in Hx. injection Hx as <-. cbn [with_properties tbl_properties]. rewrite property_set.
      destruct (property (rev new) k) as [v|] eqn:Ev.
      + intros [= ->]. apply elem_of_property in Ev. rewrite elem_of_rev in Ev.
        destruct (keeps_elem new (k, b) _ Hk) as [_ ?]; [by left|done..].
      + assert (is_Some (property (rev new) k)) as [v Hv].
        { apply (property_elem _ _ v1). by apply elem_of_rev. }
        by rewrite Hv in Ev.
  Qed.

  Lemma winners_moved s os :
    single (holds s) -> moved (holds s) -> Forall (keeps_to_key ns t k b) os ->
    winners ns t b os (run s os).2 = 0.
  Proof.
    revert s. induction os as [|o os IH]; intros s Hs Hm Hk; [done|]. apply Forall_cons in Hk as [Hko Hk].
    cbn [run]. destruct (step s o) as [s' r] eqn:E. destruct (run s' os) as [s'' rs] eqn:Er. cbn [snd winners].
    assert (s' = (step s o).1) as Hs' by (by rewrite E). assert (r = (step s o).2) as Hr by (by rewrite E).
    assert (wins ns t b o r = false) as ->.
    { apply not_true_iff_false. intros Hw. rewrite Hr in Hw. by destruct (wins_moved _ _ Hs Hko Hw). }
    specialize (IH s'). rewrite Er in IH. apply IH; [|..|done]; subst s'.
    - by apply single_step.
    - by apply moved_step.
  Qed.

  Lemma winners_one s os :
    single (holds s) -> Forall (keeps_to_key ns t k b) os -> winners ns t b os (run s os).2 <= 1.
  Proof.
    revert s. induction os as [|o os IH]; intros s Hs Hk; [cbn; lia|]. apply Forall_cons in Hk as [Hko Hk].
    cbn [run]. destruct (step s o) as [s' r] eqn:E. destruct (run s' os) as [s'' rs] eqn:Er. cbn [snd winners].
    assert (s' = (step s o).1) as Hs' by (by rewrite E). assert (r = (step s o).2) as Hr by (by rewrite E).
    destruct (wins ns t b o r) eqn:Hw.
    - rewrite Hr in Hw. destruct (wins_moved _ _ Hs Hko Hw) as [_ Hm]. rewrite <- Hs' in Hm.
      assert (single (holds s')) as Hs1 by (subst s'; by apply single_step).
      pose proof (winners_moved s' os Hs1 Hm Hk) as H0. rewrite Er in H0. cbn in H0. lia.
    - specialize (IH s'). rewrite Er in IH. cbn in IH |- *. apply IH; [|done]. subst s'. by apply single_step.
  Qed.
End winners.

(** ** The precondition *)
Lemma update_needs_base s ns t new b :
  based_on new b -> (step s (AlterTable ns t (SetProperties new))).2 = Done ->
  exists x, w_table (holds s) ns t = Some x /\ location x = Some b.
Proof.
  intros [Hp Hl] Hd. cbn [step] in Hd. destruct (cat_dbs s !! ns) as [d|] eqn:Ed; [|done].
  destruct (db_tables d !! t) as [old|] eqn:Et; [|done]. exists old.
  split; [by rewrite (holds_table _ _ _ _ Ed)|]. cbn [alter_in_place] in Hd.
  destruct (precondition_ok (tbl_properties old) new) eqn:Ep; [|done].
  unfold precondition_ok in Ep. rewrite Hp in Ep.
  destruct (metadata_location_update new); [|by destruct Hl]. by apply bool_decide_eq_true in Ep.
Qed.
Lemma update_with_base s ns t new b x :
  based_on new b -> w_table (holds s) ns t = Some x -> location x = Some b ->
  (step s (AlterTable ns t (SetProperties new))).2 = Done.
Proof.
  intros [Hp Hl] Hx Hb. cbn in Hx. cbn [step]. destruct (cat_dbs s !! ns) as [d|] eqn:Ed; [|done].
  cbn in Hx. rewrite Hx. cbn [alter_in_place]. unfold precondition_ok. rewrite Hp.
  destruct (metadata_location_update new); [|by destruct Hl].
  unfold location in Hb. by rewrite bool_decide_true.
Qed.
Lemma unset_step s ns t keys ie x :
  w_table (holds s) ns t = Some x ->
  let '(s', r) := step s (AlterTable ns t (UnsetProperties keys ie)) in
  exists removed x',
    w_table (holds s') ns t = Some x' /\ same_but_properties x x' /\ only_table (holds s) (holds s') ns t /\
    removed `prefix_of` keys /\
    (forall k, property (tbl_properties x') k =
       if decide (k ∈ removed) then None else property (tbl_properties x) k) /\
    (r = Done /\ removed = keys \/
     exists k rest, r = Error (NoProperty k (tbl_name x)) /\ keys = removed ++ k :: rest /\
       ie = false /\ property (tbl_properties x') k = None).
Proof.
  intros Hx. cbn in Hx. cbn [step]. destruct (cat_dbs s !! ns) as [d|] eqn:Ed; [|done]. cbn in Hx. rewrite Hx.
  cbn [alter_in_place]. destruct (unset_properties (tbl_properties x) keys ie) as [ps e] eqn:E.
  destruct (unset_removes _ _ _ _ _ E) as (dk & Hp & Hk & He).
  assert (forall x', only_table (holds s) (holds (put_tables s ns d (<[t:=x']> (db_tables d)))) ns t /\
     w_table (holds (put_tables s ns d (<[t:=x']> (db_tables d)))) ns t = Some x') as Hput.
  { intros x'. destruct (put_tables_only s ns d (<[t:=x']> (db_tables d)) t Ed) as [H1 H2].
    - intros t' Ht'. by rewrite lookup_insert_ne.
    - split; [done|]. by rewrite H2, lookup_insert. }
  destruct e as [k|]; cbn [fst snd]; exists dk; eexists; (split; [apply Hput|]); (split; [done|]); (split; [apply Hput|]);
    (split; [done|]); (split; [exact Hk|]).
  - right. destruct He as (rest & ? & ? & ?). by exists k, rest.
  - by left.
Qed.

(** ** The columns of a new table *)
Lemma same_letter_lower a b : same_letter a b <-> lower a = lower b.
Proof.
  unfold same_letter, lower.
  destruct (N.leb_spec 65 a), (N.leb_spec a 90), (N.leb_spec 65 b), (N.leb_spec b 90); cbn; lia.
Qed.
Lemma eq_ci_same_name a b : eq_ci a b = true <-> same_name a b.
Proof.
  unfold eq_ci, same_name. rewrite bool_decide_eq_true. revert b. induction a as [|x a IH]; intros [|y b]; cbn.
  - split; [constructor|done].
  - split; [done|]. intros H. by inversion H.
  - split; [done|]. intros H. by inversion H.
  - rewrite Forall2_cons, same_letter_lower, <- IH. split; [by intros [= -> ->]|by intros [-> ->]].
Qed.
Lemma table_column_as_asked o c : column_as_asked o c (table_column o c).
Proof.
  unfold column_as_asked, table_column. cbn. do 7 (split; [done|]). split.
  - rewrite existsb_exists. split.
    + intros (f & Hf & H). apply elem_of_list_In in Hf. apply eq_ci_same_name in H. eauto.
    + intros (f & Hf & H). apply elem_of_list_In in Hf. apply eq_ci_same_name in H. eauto.
  - destruct (ct_bucket_by o) as [b|]; [|split; [done|by intros (?&?&?&_)]]. rewrite existsb_exists. split.
    + intros (f & Hf & H). apply elem_of_list_In in Hf. apply eq_ci_same_name in H. eauto.
    + intros (b' & f & Hb & Hf & H). apply (inj Some) in Hb as <-. apply elem_of_list_In in Hf.
      apply eq_ci_same_name in H. eauto.
Qed.
