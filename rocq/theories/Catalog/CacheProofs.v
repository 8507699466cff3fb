From Coq Require Import NArith ZifyN Ascii String Lia.
From stdpp Require Import prelude gmap list strings.
From Verif.Lib Require Import Text.
From Verif.Catalog Require Import MemoryModel MemorySpec MemoryProofs CacheModel CacheSpec.

Lemma same_answer_refl r : same_answer r r.
Proof. by destruct r; cbn. Qed.
Lemma same_answer_sym r r' : same_answer r r' -> same_answer r' r.
Proof. destruct r, r'; cbn; intros; by symmetry. Qed.
Lemma same_answer_trans r1 r2 r3 : same_answer r1 r2 -> same_answer r2 r3 -> same_answer r1 r3.
Proof. destruct r1, r2; cbn; try done; intros H; destruct r3; cbn; try done; intros; by etrans. Qed.
Lemma same_answer_failed r r' : same_answer r r' -> failed r = failed r'.
Proof. destruct r, r'; cbn; by intros; simplify_eq. Qed.

Section cache.
  Context {S : Type} (istep : S -> op -> S * out) (allowed : op -> Prop) (f : flags).
  Context (wb : well_behaved istep allowed).

  Lemma key_of_listing o k : key_of o = Some k -> is_listing o.
  Proof. by destruct o. Qed.
  Lemma key_of_inj o o' k : key_of o = Some k -> key_of o' = Some k -> o = o'.
  Proof. destruct o, o'; cbn; intros; simplify_eq; done. Qed.
  Lemma listing_reads o : is_listing o -> only_reads o.
  Proof. by destruct o. Qed.

  Lemma after_snoc s es e : after istep f s (es ++ [e]) = (event_step istep f (after istep f s es) e).1.
  Proof. unfold after. by rewrite fold_left_app. Qed.

  (** What the cache does to the catalog behind it: at most the operation itself. *)
  Lemma own_inner st o :
    st_inner (event_step istep f st (Own o)).1 = (istep (st_inner st) o).1.
  Proof.
    cbn. unfold request. destruct (key_of o) as [k|] eqn:Ek.
    - assert (Hr : (istep (st_inner st) o).1 = st_inner st)
        by (apply (wb_reads _ _ wb); eauto using listing_reads, key_of_listing).
      destruct (enabled f k); [destruct (st_cache st !! k) eqn:E|]; cbn.
      + done.
      + by destruct (istep (st_inner st) o).
      + by destruct (istep (st_inner st) o).
    - by destruct (istep (st_inner st) o).
  Qed.

  (** An entry after a request was there before, not touched by it, or is the answer just read. *)
  Lemma own_cache st o k r :
    st_cache (event_step istep f st (Own o)).1 !! k = Some r ->
    (st_cache st !! k = Some r /\ (failed (istep (st_inner st) o).2 = true \/ invalidates o k = false)) \/
    (key_of o = Some k /\ (istep (st_inner st) o).2 = r /\ failed r = false).
  Proof.
    cbn. unfold request. destruct (key_of o) as [k'|] eqn:Ek.
    - assert (Hi : invalidates o k = false) by (destruct o; try done).
      destruct (enabled f k'); [destruct (st_cache st !! k') eqn:E|]; cbn.
      + by left; auto.
      + destruct (istep (st_inner st) o) as [s' r'] eqn:Es. cbn.
        destruct (failed r') eqn:Ef; [by left; auto|].
        intros [[-> ->]|[Hne H]]%lookup_insert_Some; [by right|by left; auto].
      + destruct (istep (st_inner st) o); cbn. by left; auto.
    - destruct (istep (st_inner st) o) as [s' r'] eqn:Es. cbn.
      destruct (failed r') eqn:Ef; [by left; auto|].
      rewrite map_filter_lookup_Some. cbn. intros [H1 H2]. left; auto.
  Qed.

  (** The answer to a listing: an entry, or what the catalog says. *)
  Lemma own_answer st l k :
    key_of l = Some k ->
    (event_step istep f st (Own l)).2 =
      Some (match (if enabled f k then st_cache st !! k else None) with
            | Some r => r
            | None => (istep (st_inner st) l).2
            end).
  Proof.
    intros Hk. cbn. unfold request. rewrite Hk. destruct (enabled f k); [destruct (_ !! k)|]; cbn; try done;
      by destruct (istep (st_inner st) l).
  Qed.

  (** An operation that does not remove an entry is not meant to change it,
      unless it creates the database that is listed. *)
  Lemma invalidates_meant s o l k :
    key_of l = Some k -> invalidates o k = false -> meant_to_change istep s o l ->
    exists ns c, o = CreateDatabase ns c /\ (l = ListTables ns \/ l = ListViews ns) /\ failed (istep s l).2 = true.
  Proof.
    destruct l; intros [= <-]; destruct o; cbn; intros Hi Hm; try done;
      try (rewrite bool_decide_eq_false in Hi; done);
      destruct Hm as [-> Hf]; eexists _, _; split_and!; eauto.
  Qed.

  Lemma invalidates_cases s o l k :
    key_of l = Some k -> invalidates o k = false ->
    match o, l with
    | CreateDatabase ns _, (ListTables ns' | ListViews ns') => ns' = ns
    | _, _ => False
    end \/ ¬ meant_to_change istep s o l.
  Proof.
    destruct l; intros [= <-]; destruct o; cbn; intros Hi; auto; try done;
      try (rewrite bool_decide_eq_false in Hi; by auto);
      match goal with |- ?a = ?b \/ _ => destruct (decide (a = b)) as [?|Hn] end; auto;
      right; by intros [? _].
  Qed.

  (** ** Nobody else changes the catalog: entries are current. *)
  Definition current (st : state) : Prop :=
    forall l k r, key_of l = Some k -> st_cache st !! k = Some r ->
      same_answer r (istep (st_inner st) l).2 /\ failed r = false.

  Lemma current_after s es :
    Forall sequential es -> Forall own es -> Forall (allows allowed) es -> current (after istep f s es).
  Proof.
    induction es as [|e es IH] using rev_ind; intros Hs Ho Ha.
    - intros l k r _ H. cbn in H. by rewrite lookup_empty in H.
    - rewrite Forall_app, Forall_singleton in Hs; destruct Hs as [Hs He]. rewrite Forall_app, Forall_singleton in Ho; destruct Ho as [Ho Heo].
      rewrite Forall_app, Forall_singleton in Ha; destruct Ha as [Ha Hea].
      rewrite after_snoc. set (st := after istep f s es) in *. specialize (IH Hs Ho Ha).
      destruct e as [o|o|k'|o|]; cbn in Hea; try done.
      + intros l k r Hk Hc. rewrite own_inner.
        destruct (own_cache _ _ _ _ Hc) as [[H1 H2]|[H1 [H2 H3]]].
        * destruct (IH _ _ _ Hk H1) as [Hr Hf]. split; [|done].
          eapply same_answer_trans; [exact Hr|]. apply same_answer_sym.
          pose proof (key_of_listing _ _ Hk) as Hl.
          destruct H2 as [H2|H2]; [by apply (wb_failed _ _ wb)|].
          apply (wb_frame _ _ wb); [done|done|]. intros Hm.
          destruct (invalidates_meant _ _ _ _ Hk H2 Hm) as (_ & _ & _ & _ & Hff).
          apply same_answer_failed in Hr. congruence.
        * rewrite <- (key_of_inj _ _ _ H1 Hk). split; [|done]. rewrite <- H2.
          match goal with |- same_answer (istep ?a _).2 (istep ?b _).2 => replace b with a; [by apply same_answer_refl|symmetry] end.
          apply (wb_reads _ _ wb). eauto using listing_reads, key_of_listing.
      + intros l k r Hk Hc. cbn in *. apply lookup_delete_Some in Hc as [_ Hc]. by eapply IH.
  Qed.

  Lemma coherent s es l :
    Forall sequential es -> Forall own es -> Forall (allows allowed) es -> is_listing l ->
    exists r, (event_step istep f (after istep f s es) (Own l)).2 = Some r /\
      same_answer r (istep (st_inner (after istep f s es)) l).2.
  Proof.
    intros Hs Ho Ha Hl. assert (exists k, key_of l = Some k) as [k Hk] by (destruct l; try done; by eexists).
    eexists. split; [by apply (own_answer _ _ k Hk)|].
    destruct (enabled f k); [|apply same_answer_refl].
    destruct (_ !! k) as [r|] eqn:E; [|apply same_answer_refl].
    by destruct (current_after s es Hs Ho Ha l k r Hk E).
  Qed.

  (** ** With changes by others. *)
  Notation ok := (no_older_than_own_change istep f).
  Lemma fresh_after s es l k r :
    Forall sequential es -> Forall (allows allowed) es ->
    key_of l = Some k -> st_cache (after istep f s es) !! k = Some r -> ok s es l r.
  Proof.
    intros Hs Ha Hk. pose proof (key_of_listing _ _ Hk) as Hl. revert r.
    induction es as [|e es IH] using rev_ind; intros r Hc.
    - cbn in Hc. by rewrite lookup_empty in Hc.
    - rewrite Forall_app, Forall_singleton in Hs; destruct Hs as [Hs He].
      rewrite Forall_app, Forall_singleton in Ha; destruct Ha as [Ha Hea]. specialize (IH Hs Ha).
      assert (Hkeep : st_cache (after istep f s es) !! k = Some r ->
                (forall o, e = Own o ->
                   match o, l with
                   | CreateDatabase ns _, (ListTables ns' | ListViews ns') => ns' = ns
                   | _, _ => False
                   end \/
                   same_answer (istep (istep (st_inner (after istep f s es)) o).1 l).2
                     (istep (st_inner (after istep f s es)) l).2) ->
                ok s (es ++ [e]) l r).
      { intros H1 H2. destruct (IH r H1) as (p & q & -> & Hr & Hq).
        exists p, (q ++ [e]). split_and!; [by rewrite app_assoc|done|].
        intros q1 o q2 Heq.
        destruct q2 as [|x q2' _] using rev_ind.
        - apply app_inj_tail in Heq as [<- ->].
          destruct (H2 o eq_refl) as [H|H]; [by left|right].
          by rewrite (app_assoc p q), (after_snoc _ (p ++ q)), own_inner.
        - change (Own o :: q2' ++ [x]) with ((Own o :: q2') ++ [x]) in Heq.
          rewrite app_assoc in Heq. apply app_inj_tail in Heq as [-> _]. by apply (Hq q1 o q2'). }
      rewrite after_snoc in Hc. destruct e as [o|o|k'|o|]; cbn in Hea; try done.
      + destruct (own_cache _ _ _ _ Hc) as [[H1 H2]|[H1 [H2 H3]]].
        * apply Hkeep; [done|]. intros o' [= <-].
          destruct H2 as [H2|H2]; [right; by apply (wb_failed _ _ wb)|].
          destruct (invalidates_cases (st_inner (after istep f s es)) _ _ _ Hk H2) as [H|H]; [by left|right].
          by apply (wb_frame _ _ wb).
        * pose proof (key_of_inj _ _ _ H1 Hk) as ->.
          exists es, [Own l]. split_and!; [done|done|]. intros q1 o q2 Heq.
          destruct q1 as [|? []]; simplify_eq/=. right.
          rewrite app_nil_r, after_snoc, own_inner.
          match goal with |- same_answer (istep ?a _).2 (istep ?b _).2 => replace a with b; [by apply same_answer_refl|symmetry] end.
          apply (wb_reads _ _ wb). by apply listing_reads.
      + by apply Hkeep.
      + cbn in Hc. apply lookup_delete_Some in Hc as [_ Hc]. by apply Hkeep.
  Qed.

  Lemma bounded s es l :
    Forall sequential es -> Forall (allows allowed) es -> is_listing l ->
    exists r, (event_step istep f (after istep f s es) (Own l)).2 = Some r /\ ok s es l r.
  Proof.
    intros Hs Ha Hl. assert (exists k, key_of l = Some k) as [k Hk] by (destruct l; try done; by eexists).
    eexists. split; [by apply own_answer|].
    destruct (enabled f k); [destruct (_ !! k) as [r|] eqn:E|].
    - by apply (fresh_after s es l k r).
    - exists es, []. rewrite app_nil_r. split_and!; [done|done|]. intros q1 o q2 H. by destruct q1.
    - exists es, []. rewrite app_nil_r. split_and!; [done|done|]. intros q1 o q2 H. by destruct q1.
  Qed.
End cache.

(** ** The in-memory catalog is well behaved, except for half-way failures. *)
Lemma unset_single_fails ps k b ps' k' :
  unset_properties ps [k] b = (ps', Some k') -> ps' = ps.
Proof. cbn. destruct (_ || b); by intros [= <-]. Qed.
Lemma with_same_properties t : with_properties t (tbl_properties t) = t.
Proof. by destruct t. Qed.
Lemma put_same s ns d : cat_dbs s !! ns = Some d -> put s ns d = s.
Proof. intros H. destruct s as [n m]. unfold put. cbn in *. by rewrite insert_id. Qed.
Lemma put_tables_same s ns d ts :
  cat_dbs s !! ns = Some d -> ts = db_tables d -> put_tables s ns d ts = s.
Proof. intros H ->. unfold put_tables. destruct d. by apply put_same. Qed.
Lemma put_views_same s ns d vs :
  cat_dbs s !! ns = Some d -> vs = db_views d -> put_views s ns d vs = s.
Proof. intros H ->. unfold put_views. destruct d. by apply put_same. Qed.

Lemma alter_failed_same t a t' e ns n :
  alter_in_place t a = (t', Some e) -> ¬ may_stop_half_way (AlterTable ns n a) -> t' = t.
Proof.
  destruct a as [new|keys b|path ty|path d|]; cbn [alter_in_place]; intros H Hn.
  - destruct (precondition_ok _ _); by simplify_eq.
  - destruct (unset_properties (tbl_properties t) keys b) as [ps [k|]] eqn:Eu; [|done].
    injection H as <- _. cbn [may_stop_half_way] in Hn.
    assert (ps = tbl_properties t) as ->; [|apply with_same_properties].
    destruct b.
    + exfalso. clear -Eu. revert Eu. generalize (tbl_properties t).
      induction keys as [|k' keys IH]; intros l; cbn [unset_properties]; [done|].
      rewrite orb_true_r. apply IH.
    + destruct keys as [|k1 [|k2 keys]]; [done| |cbn in Hn; lia].
      by apply unset_single_fails in Eu.
  - destruct (alter_column_type _ _ _); by simplify_eq.
  - destruct (alter_column_default _ _ _); by simplify_eq.
  - by simplify_eq.
Qed.

Lemma step_failed s o : ¬ may_stop_half_way o -> failed (step s o).2 = true -> (step s o).1 = s.
Proof.
  intros Hn. destruct o; cbn [step];
    repeat (match goal with |- context [match ?x with _ => _ end] =>
              lazymatch x with context [match _ with _ => _ end] => fail | _ => destruct x eqn:? end end; cbn [fst snd failed]);
    try done; intros _.
  - apply put_tables_same; [done|]. apply delete_notin.
    apply orb_false_iff in Heqb as [Hb _]. apply bool_decide_eq_false in Hb. by apply eq_None_not_Some.
  - apply put_tables_same; [done|]. apply insert_id. subst. by rewrite (alter_failed_same _ _ _ _ _ _ Heqp Hn).
  - apply put_views_same; [done|]. apply delete_notin.
    apply orb_false_iff in Heqb as [Hb _]. apply bool_decide_eq_false in Hb. by apply eq_None_not_Some.
Qed.

Lemma filter_permutation {A} (p : A -> bool) (l l' : list A) :
  l ≡ₚ l' -> List.filter p l ≡ₚ List.filter p l'.
Proof.
  induction 1 as [|x l l' _ IH|x y l|l1 l2 l3 _ IH1 _ IH2]; cbn.
  - done.
  - destruct (p x); by rewrite IH.
  - destruct (p x), (p y); try done. apply Permutation_swap.
  - by etrans.
Qed.
Lemma databases_listing (pre : option namespace) (m m' : gmap namespace database) :
  db_status <$> m' = db_status <$> m ->
  map (fun p => db_status p.2) (List.filter (fun p => listed pre p.1) (map_to_list m')) ≡ₚ
  map (fun p => db_status p.2) (List.filter (fun p => listed pre p.1) (map_to_list m)).
Proof.
  assert (H : forall m : gmap namespace database,
    map (fun p => db_status p.2) (List.filter (fun p => listed pre p.1) (map_to_list m)) ≡ₚ
    map snd (List.filter (fun p => listed pre p.1) (map_to_list (db_status <$> m)))).
  { intros m0. etrans; [|symmetry; apply Permutation_map, filter_permutation, map_to_list_fmap]. generalize (map_to_list m0). intros l.
    induction l as [|[k d] l IH]; [done|]. cbn. destruct (listed pre k); cbn; by rewrite IH. }
  intros He. by rewrite (H m'), (H m), He.
Qed.

(** The statuses of the databases change only when databases come and go. *)
Lemma step_statuses s o :
  match o with CreateDatabase _ _ | DropDatabase _ _ _ => False | _ => True end ->
  db_status <$> cat_dbs (step s o).1 = db_status <$> cat_dbs s.
Proof.
  intros Ho.
  assert (Hput : forall ns d d', cat_dbs s !! ns = Some d -> db_status d' = db_status d ->
    db_status <$> cat_dbs (put s ns d') = db_status <$> cat_dbs s).
  { intros ns d d' H1 H2. cbn. rewrite fmap_insert, H2. apply insert_id. by rewrite lookup_fmap, H1. }
  destruct o; try done; cbn [step];
    repeat (match goal with |- context [match ?x with _ => _ end] =>
              lazymatch x with context [match _ with _ => _ end] => fail | _ => destruct x eqn:? end end; cbn [fst snd]);
    try done; (eapply Hput; [done|done]).
Qed.

Lemma step_tables s o ns :
  match o with
  | CreateDatabase ns' _ => ns' = ns -> is_Some (cat_dbs s !! ns)
  | DropDatabase ns' _ _ | CreateTable ns' _ _ | DropTable ns' _ _ | AlterTable ns' _ _ => ns' <> ns
  | _ => True
  end -> db_tables <$> cat_dbs (step s o).1 !! ns = db_tables <$> cat_dbs s !! ns.
Proof.
  intros Ho. destruct (decide (about o = Some ns)) as [Ha|Ha]; [|by rewrite step_elsewhere].
  destruct o; cbn in Ha; simplify_eq; try done; cbn [step];
    repeat (match goal with |- context [match ?x with _ => _ end] =>
              lazymatch x with context [match _ with _ => _ end] => fail | _ => destruct x eqn:? end end; cbn [fst snd]);
    try done; try (destruct (Ho eq_refl); congruence);
    try congruence;
    unfold put_views, put; cbn [cat_dbs]; by rewrite lookup_insert.
Qed.
Lemma step_views s o ns :
  match o with
  | CreateDatabase ns' _ => ns' = ns -> is_Some (cat_dbs s !! ns)
  | DropDatabase ns' _ _ | CreateView ns' _ _ | DropView ns' _ _ => ns' <> ns
  | _ => True
  end -> db_views <$> cat_dbs (step s o).1 !! ns = db_views <$> cat_dbs s !! ns.
Proof.
  intros Ho. destruct (decide (about o = Some ns)) as [Ha|Ha]; [|by rewrite step_elsewhere].
  destruct o; cbn in Ha; simplify_eq; try done; cbn [step];
    repeat (match goal with |- context [match ?x with _ => _ end] =>
              lazymatch x with context [match _ with _ => _ end] => fail | _ => destruct x eqn:? end end; cbn [fst snd]);
    try done; try (destruct (Ho eq_refl); congruence);
    try congruence;
    unfold put_tables, put; cbn [cat_dbs]; by rewrite lookup_insert.
Qed.

Lemma memory_well_behaved : well_behaved step (fun o => ¬ may_stop_half_way o).
Proof.
  split.
  - intros s o Ho. destruct o; try done; cbn [step]; by repeat case_match.
  - intros s o l Hn _ Hf. rewrite (step_failed s o Hn Hf). apply same_answer_refl.
  - intros s o l _ Hl Hm. destruct l as [| |p| | | |ns| | | | |ns|]; try done.
    + cbn [step snd same_answer]. apply databases_listing, step_statuses. by destruct o; cbn in *.
    + assert (H : db_tables <$> cat_dbs (step s o).1 !! ns = db_tables <$> cat_dbs s !! ns).
      { apply step_tables. destruct o; cbn [meant_to_change] in Hm; try done; try (intros ->; done).
        intros ->. apply not_eq_None_Some. intros E. apply Hm. cbn [step]. by rewrite E. }
      cbn [step]. destruct (cat_dbs (step s o).1 !! ns), (cat_dbs s !! ns); cbn in *; try done.
      injection H as ->. done.
    + assert (H : db_views <$> cat_dbs (step s o).1 !! ns = db_views <$> cat_dbs s !! ns).
      { apply step_views. destruct o; cbn [meant_to_change] in Hm; try done; try (intros ->; done).
        intros ->. apply not_eq_None_Some. intros E. apply Hm. cbn [step]. by rewrite E. }
      cbn [step]. destruct (cat_dbs (step s o).1 !! ns), (cat_dbs s !! ns); cbn in *; try done.
      injection H as ->. done.
Qed.
