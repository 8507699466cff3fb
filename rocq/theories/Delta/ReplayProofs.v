(** Replay, checkpoints and compacted files. *)
From Coq Require Import NArith ZArith ZifyN Lia.
From stdpp Require Import prelude list gmap.
From Verif.Lib Require Import Text.
From Verif.Delta Require Import ActionModel ReplaySpec.
Local Open Scope Z_scope.

Lemma replay_app st l1 l2 : replay st (l1 ++ l2) = replay (replay st l1) l2.
Proof. apply foldl_app. Qed.
Lemma replay_snoc st l a : replay st (l ++ [a]) = apply_action (replay st l) a.
Proof. by rewrite replay_app. Qed.

(** ** The last action wins *)
Lemma replay_protocol st l :
  rs_protocol (replay st l) = match table_protocol l with Some p => Some p | None => rs_protocol st end.
Proof.
  unfold table_protocol. induction l as [|a l IH] using rev_ind; [done|].
  rewrite replay_snoc, omap_app. destruct (replay st l) as [p m t d ad rm]; cbn in IH.
  destruct a; cbn; rewrite ?app_nil_r, ?last_snoc; done.
Qed.
Lemma replay_metadata st l :
  rs_metadata (replay st l) = match table_metadata l with Some p => Some p | None => rs_metadata st end.
Proof.
  unfold table_metadata. induction l as [|a l IH] using rev_ind; [done|].
  rewrite replay_snoc, omap_app. destruct (replay st l) as [p m t d ad rm]; cbn in IH.
  destruct a; cbn; rewrite ?app_nil_r, ?last_snoc; done.
Qed.
Lemma replay_txns st l a :
  rs_txns (replay st l) !! a = match live_txn l a with Some t => Some t | None => rs_txns st !! a end.
Proof.
  unfold live_txn. induction l as [|x l IH] using rev_ind; [done|].
  rewrite replay_snoc, omap_app. destruct (replay st l) as [p m t d ad rm]; cbn in IH.
  destruct x as [| | | |x| | |]; cbn; rewrite ?app_nil_r; try done.
  destruct (decide (txn_app x = a)) as [<-|Hn]; cbn; rewrite ?app_nil_r, ?last_snoc.
  - apply lookup_insert.
  - by rewrite lookup_insert_ne.
Qed.
Lemma replay_domains st l n :
  rs_domains (replay st l) !! n =
    match last (omap (domain_event n) l) with
    | Some d => if dom_removed d then None else Some d
    | None => rs_domains st !! n
    end.
Proof.
  induction l as [|x l IH] using rev_ind; [done|].
  rewrite replay_snoc, omap_app. destruct (replay st l) as [p m t d ad rm]; cbn in IH.
  destruct x as [| | | | |x| |]; cbn; rewrite ?app_nil_r; try done.
  destruct (decide (dom_name x = n)) as [<-|Hn]; cbn; rewrite ?app_nil_r, ?last_snoc;
    destruct (dom_removed x); by rewrite ?lookup_delete, ?lookup_insert, ?lookup_delete_ne, ?lookup_insert_ne.
Qed.
Lemma replay_adds st l k :
  rs_adds (replay st l) !! k =
    match last (omap (file_event k) l) with
    | Some (inl x) => Some x
    | Some (inr _) => None
    | None => rs_adds st !! k
    end.
Proof.
  induction l as [|x l IH] using rev_ind; [done|].
  rewrite replay_snoc, omap_app. destruct (replay st l) as [p m t d ad rm]; cbn in IH.
  destruct x as [x|x| | | | | |]; cbn; rewrite ?app_nil_r; try done.
  - destruct (decide (add_key x = k)) as [<-|Hn]; cbn; rewrite ?app_nil_r, ?last_snoc;
      by rewrite ?lookup_insert, ?lookup_insert_ne.
  - destruct (decide (rm_key x = k)) as [<-|Hn]; cbn; rewrite ?app_nil_r, ?last_snoc;
      by rewrite ?lookup_delete, ?lookup_delete_ne.
Qed.
Lemma replay_removes st l k :
  rs_removes (replay st l) !! k =
    match last (omap (file_event k) l) with
    | Some (inl _) => None
    | Some (inr x) => Some x
    | None => rs_removes st !! k
    end.
Proof.
  induction l as [|x l IH] using rev_ind; [done|].
  rewrite replay_snoc, omap_app. destruct (replay st l) as [p m t d ad rm]; cbn in IH.
  destruct x as [x|x| | | | | |]; cbn; rewrite ?app_nil_r; try done.
  - destruct (decide (add_key x = k)) as [<-|Hn]; cbn; rewrite ?app_nil_r, ?last_snoc;
      by rewrite ?lookup_delete, ?lookup_delete_ne.
  - destruct (decide (rm_key x = k)) as [<-|Hn]; cbn; rewrite ?app_nil_r, ?last_snoc;
      by rewrite ?lookup_insert, ?lookup_insert_ne.
Qed.

Lemma replay_is_table l : is_table l (replay rs_empty l).
Proof.
  split_and!; intros.
  - rewrite replay_protocol. by destruct (table_protocol l).
  - rewrite replay_metadata. by destruct (table_metadata l).
  - rewrite replay_adds. unfold live_file. destruct (last _) as [[]|]; done.
  - rewrite replay_removes. unfold tombstone. destruct (last _) as [[]|]; done.
  - rewrite replay_domains. unfold live_domain. by destruct (last _).
  - rewrite replay_txns. by destruct (live_txn _ _).
Qed.

Lemma rstate_eq s1 s2 :
  rs_protocol s1 = rs_protocol s2 -> rs_metadata s1 = rs_metadata s2 ->
  (forall a, rs_txns s1 !! a = rs_txns s2 !! a) -> (forall n, rs_domains s1 !! n = rs_domains s2 !! n) ->
  (forall k, rs_adds s1 !! k = rs_adds s2 !! k) -> (forall k, rs_removes s1 !! k = rs_removes s2 !! k) -> s1 = s2.
Proof.
  destruct s1, s2; cbn. intros -> -> H1 H2 H3 H4. f_equal; apply map_eq; auto.
Qed.

(** ** Well-kept states *)
Record rs_ok (st : rstate) : Prop := {
  ok_add : forall k a, rs_adds st !! k = Some a -> add_key a = k /\ rs_removes st !! k = None;
  ok_remove : forall k r, rs_removes st !! k = Some r -> rm_key r = k;
  ok_txn : forall a t, rs_txns st !! a = Some t -> txn_app t = a;
  ok_domain : forall n d, rs_domains st !! n = Some d -> dom_name d = n /\ dom_removed d = false
}.
Lemma rs_ok_empty : rs_ok rs_empty.
Proof. split; intros *; cbn; rewrite ?lookup_empty; done. Qed.
Lemma last_omap_Some {A B} (f : A -> option B) l b : last (omap f l) = Some b -> exists a, a ∈ l /\ f a = Some b.
Proof.
  intros H. apply last_Some in H as [l' H].
  assert (b ∈ omap f l) as Hb by (rewrite H; set_solver).
  apply elem_of_list_omap in Hb as (a & ? & ?). eauto.
Qed.
Lemma rs_ok_replay st l : rs_ok st -> rs_ok (replay st l).
Proof.
  intros Hok. split.
  - intros k a. rewrite replay_adds, replay_removes.
    destruct (last (omap (file_event k) l)) as [[x|x]|] eqn:E; intros H; [injection H as ->| |].
    + split; [|done]. apply last_omap_Some in E as (b & _ & E). destruct b as [y|y| | | | | |]; cbn in E; try done;
        case_decide; by simplify_eq.
    + done.
    + by apply Hok.
  - intros k r. rewrite replay_removes.
    destruct (last (omap (file_event k) l)) as [[x|x]|] eqn:E; intros H; [done| |by apply Hok].
    injection H as ->.
    apply last_omap_Some in E as (b & _ & E). destruct b as [y|y| | | | | |]; cbn in E; try done;
      case_decide; by simplify_eq.
  - intros a t. rewrite replay_txns. unfold live_txn.
    destruct (last _) as [x|] eqn:E; [|by apply Hok]. intros [= ->].
    apply last_omap_Some in E as (b & _ & E). destruct b; cbn in E; try done; case_decide; by simplify_eq.
  - intros n d. rewrite replay_domains.
    destruct (last _) as [x|] eqn:E; [|by apply Hok]. destruct (dom_removed x) eqn:Er; [done|]. intros [= ->].
    split; [|done]. apply last_omap_Some in E as (b & _ & E). destruct b; cbn in E; try done; case_decide; by simplify_eq.
Qed.
Lemma prune_spec now st st' :
  prune now st = Some st' ->
  exists m, rs_metadata st = Some m /\
    rs_protocol st' = rs_protocol st /\ rs_metadata st' = rs_metadata st /\ rs_domains st' = rs_domains st /\
    rs_adds st' = rs_adds st /\
    (forall a t, rs_txns st' !! a = Some t <-> rs_txns st !! a = Some t /\ keep_txn (cutoffs m now).2 t = true) /\
    (forall k r, rs_removes st' !! k = Some r <-> rs_removes st !! k = Some r /\ keep_remove (cutoffs m now).1 r = true).
Proof.
  unfold prune. destruct (rs_metadata st) as [m|] eqn:E; cbn [mbind option_bind]; [|done].
  destruct (cutoffs m now) as [cr ct] eqn:Ec. intros [= <-]. exists m. rewrite Ec.
  cbn [fst snd rs_protocol rs_metadata rs_domains rs_adds rs_txns rs_removes].
  split_and!; try done; intros; rewrite map_filter_lookup_Some; done.
Qed.
Lemma rs_ok_prune now st st' : rs_ok st -> prune now st = Some st' -> rs_ok st'.
Proof.
  intros Hok (m & _ & _ & _ & Hd & Ha & Ht & Hr)%prune_spec. split.
  - intros k a. rewrite Ha. intros H. destruct (ok_add st Hok k a H) as [? Hn]. split; [done|].
    destruct (rs_removes st' !! k) as [r|] eqn:E; [|done]. apply Hr in E as [E _]. congruence.
  - intros k r [H _]%Hr. by apply Hok.
  - intros a t [H _]%Ht. by apply Hok.
  - intros n d. rewrite Hd. apply Hok.
Qed.

(** ** Rows of a checkpoint restore the state, in any order *)
Lemma omap_perm {A B} (f : A -> option B) (l1 l2 : list A) : l1 ≡ₚ l2 -> omap f l1 ≡ₚ omap f l2.
Proof.
  induction 1 as [|x l1 l2 _ IH|x y l|l1 l2 l3 _ IH1 _ IH2]; cbn; [done|..].
  - destruct (f x); [by f_equiv|done].
  - destruct (f x), (f y); try done. apply Permutation_swap.
  - by etrans.
Qed.
(** The rows of one kind that a key picks. *)
Lemma omap_rows_key {K V B} `{Countable K} (m : gmap K V) (f : V -> option B) (k : K) :
  (forall k' v, m !! k' = Some v -> k' <> k -> f v = None) ->
  omap (f ∘ snd) (map_to_list m) ≡ₚ match m !! k with Some v => match f v with Some b => [b] | None => [] end | None => [] end.
Proof.
  intros Hf. destruct (m !! k) as [v|] eqn:E.
  - rewrite <- (insert_delete m k v E). rewrite map_to_list_insert by apply lookup_delete. cbn.
    assert (omap (f ∘ snd) (map_to_list (delete k m)) = []) as ->.
    { apply elem_of_nil_inv. intros b (p & Hp & Hb)%elem_of_list_omap. destruct p as [k' v'].
      apply elem_of_map_to_list in Hp. apply lookup_delete_Some in Hp as [Hne Hp]. cbn in Hb.
      rewrite (Hf k' v') in Hb; [done|done|]. congruence. }
    by destruct (f v).
  - assert (omap (f ∘ snd) (map_to_list m) = []) as ->; [|done].
    apply elem_of_nil_inv. intros b (p & Hp & Hb)%elem_of_list_omap. destruct p as [k' v'].
    apply elem_of_map_to_list in Hp. cbn in Hb. rewrite (Hf k' v') in Hb; [done|done|]. congruence.
Qed.
Lemma omap_fmap' {A B C} (g : A -> B) (f : B -> option C) (l : list A) : omap f (g <$> l) = omap (f ∘ g) l.
Proof. induction l as [|x l IH]; cbn; [done|]. destruct (f (g x)); cbn; by rewrite IH. Qed.
Lemma omap_none {A B} (f : A -> option B) (l : list A) : (forall x, x ∈ l -> f x = None) -> omap f l = [].
Proof. intros H. apply elem_of_nil_inv. intros b (x & Hx & Hb)%elem_of_list_omap. rewrite H in Hb; done. Qed.
Lemma omap_filter_none {A B} (f : A -> option B) (P : A -> Prop) `{forall x, Decision (P x)} (l : list A) :
  omap f (filter P l) = omap (fun x => if decide (P x) then f x else None) l.
Proof.
  induction l as [|x l IH]; [done|]. rewrite filter_cons. destruct (decide (P x)) eqn:E; cbn; rewrite ?E.
  - destruct (f x); by rewrite IH.
  - by rewrite IH.
Qed.

Definition opt_list {A} (o : option A) : list A := match o with Some x => [x] | None => [] end.
Lemma last_opt_list {A} (l : list A) o : l ≡ₚ opt_list o -> last l = o.
Proof.
  destruct o as [x|]; cbn; intros H.
  - by apply Permutation_singleton_r in H as ->.
  - by apply Permutation_nil_r in H as ->.
Qed.
Definition file_state (st : rstate) (k : fkey) : option (add + remove) :=
  match rs_adds st !! k with Some x => Some (inl x) | None => inr <$> rs_removes st !! k end.
(** The rows say about each thing exactly what the state says. *)
Record rows_match (st : rstate) (rows : list action) : Prop := {
  rm_p : omap protocol_event rows ≡ₚ opt_list (rs_protocol st);
  rm_m : omap metadata_event rows ≡ₚ opt_list (rs_metadata st);
  rm_t : forall a, omap (txn_event a) rows ≡ₚ opt_list (rs_txns st !! a);
  rm_d : forall n, omap (domain_event n) rows ≡ₚ opt_list (rs_domains st !! n);
  rm_f : forall k, omap (file_event k) rows ≡ₚ opt_list (file_state st k)
}.
Lemma rows_match_perm st r1 r2 : r1 ≡ₚ r2 -> rows_match st r1 -> rows_match st r2.
Proof.
  intros H [Hp Hm Ht Hd Hf].
  split; intros; (etrans; [symmetry; apply omap_perm; exact H|]); auto.
Qed.

(** Replaying such rows over a state. *)
Lemma rows_match_replay st rows base :
  rs_ok st -> rows_match st rows ->
  let s := replay base rows in
  rs_protocol s = match rs_protocol st with Some p => Some p | None => rs_protocol base end /\
  rs_metadata s = match rs_metadata st with Some p => Some p | None => rs_metadata base end /\
  (forall a, rs_txns s !! a = match rs_txns st !! a with Some p => Some p | None => rs_txns base !! a end) /\
  (forall n, rs_domains s !! n = match rs_domains st !! n with Some p => Some p | None => rs_domains base !! n end) /\
  (forall k, rs_adds s !! k = match file_state st k with
                              | Some (inl x) => Some x | Some (inr _) => None | None => rs_adds base !! k end) /\
  (forall k, rs_removes s !! k = match file_state st k with
                              | Some (inl _) => None | Some (inr r) => Some r | None => rs_removes base !! k end).
Proof.
  intros Hok [Hp Hm Ht Hd Hf]. split_and!; intros.
  - rewrite replay_protocol. unfold table_protocol. by rewrite (last_opt_list _ _ Hp).
  - rewrite replay_metadata. unfold table_metadata. by rewrite (last_opt_list _ _ Hm).
  - rewrite replay_txns. unfold live_txn. by rewrite (last_opt_list _ _ (Ht a)).
  - rewrite replay_domains. rewrite (last_opt_list _ _ (Hd n)).
    destruct (rs_domains st !! n) as [d|] eqn:E; [|done]. destruct (ok_domain st Hok n d E) as [_ ->]. done.
  - rewrite replay_adds. by rewrite (last_opt_list _ _ (Hf k)).
  - rewrite replay_removes. by rewrite (last_opt_list _ _ (Hf k)).
Qed.
Lemma rows_match_restore st rows : rs_ok st -> rows_match st rows -> replay rs_empty rows = st.
Proof.
  intros Hok Hm. destruct (rows_match_replay st rows rs_empty Hok Hm) as (H1 & H2 & H3 & H4 & H5 & H6).
  apply rstate_eq.
  - rewrite H1. by destruct (rs_protocol st).
  - rewrite H2. by destruct (rs_metadata st).
  - intros a. rewrite H3. cbn. rewrite lookup_empty. by destruct (rs_txns st !! a).
  - intros a. rewrite H4. cbn. rewrite lookup_empty. by destruct (rs_domains st !! a).
  - intros k. rewrite H5. unfold file_state. cbn. rewrite lookup_empty.
    destruct (rs_adds st !! k); [done|]. by destruct (rs_removes st !! k).
  - intros k. rewrite H6. unfold file_state. cbn. rewrite lookup_empty.
    destruct (rs_adds st !! k) as [a|] eqn:E; [by destruct (ok_add st Hok k a E)|]. by destruct (rs_removes st !! k).
Qed.

(** Each kind of row answers to one kind of question. *)
Section rows.
  Context (st : rstate) (Hok : rs_ok st).
  Let tx : list action := ATxn ∘ snd <$> map_to_list (rs_txns st).
  Let dm : list action := ADomain ∘ snd <$> map_to_list (rs_domains st).
  Let rm : list action := ARemove ∘ snd <$> map_to_list (rs_removes st).
  Let ad : list action := AAdd ∘ snd <$> map_to_list (rs_adds st).
  Lemma rows_other {A B} (c : A -> action) (f : action -> option B) (l : list A) :
    (forall x, f (c x) = None) -> omap f (c <$> l) = [].
  Proof. intros H. apply omap_none. intros x (y & -> & _)%elem_of_list_fmap. done. Qed.
  Lemma tx_rows a : omap (txn_event a) tx ≡ₚ opt_list (rs_txns st !! a).
  Proof.
    unfold tx. rewrite omap_fmap'. change (txn_event a ∘ (ATxn ∘ snd)) with ((fun t => txn_event a (ATxn t)) ∘ @snd text txn).
    rewrite (omap_rows_key (rs_txns st) (fun t => txn_event a (ATxn t)) a).
    - destruct (rs_txns st !! a) as [t|] eqn:E; [|done]. cbn. rewrite decide_True; [done|]. by apply Hok.
    - intros k v Hv Hne. cbn. rewrite decide_False; [done|]. rewrite (ok_txn st Hok k v Hv). done.
  Qed.
  Lemma dm_rows n : omap (domain_event n) dm ≡ₚ opt_list (rs_domains st !! n).
  Proof.
    unfold dm. rewrite omap_fmap'.
    change (domain_event n ∘ (ADomain ∘ snd)) with ((fun t => domain_event n (ADomain t)) ∘ @snd text domain).
    rewrite (omap_rows_key (rs_domains st) (fun t => domain_event n (ADomain t)) n).
    - destruct (rs_domains st !! n) as [t|] eqn:E; [|done]. cbn. rewrite decide_True; [done|]. by apply Hok.
    - intros k v Hv Hne. cbn. rewrite decide_False; [done|]. destruct (ok_domain st Hok k v Hv) as [-> _]. done.
  Qed.
  Lemma rm_rows k : omap (file_event k) rm ≡ₚ opt_list (inr <$> rs_removes st !! k).
  Proof.
    unfold rm. rewrite omap_fmap'.
    change (file_event k ∘ (ARemove ∘ snd)) with ((fun t => file_event k (ARemove t)) ∘ @snd fkey remove).
    rewrite (omap_rows_key (rs_removes st) (fun t => file_event k (ARemove t)) k).
    - destruct (rs_removes st !! k) as [t|] eqn:E; [|done]. cbn. rewrite decide_True; [done|]. by apply Hok.
    - intros k' v Hv Hne. cbn. rewrite decide_False; [done|]. rewrite (ok_remove st Hok k' v Hv). done.
  Qed.
  Lemma ad_rows k : omap (file_event k) ad ≡ₚ opt_list (inl <$> rs_adds st !! k).
  Proof.
    unfold ad. rewrite omap_fmap'.
    change (file_event k ∘ (AAdd ∘ snd)) with ((fun t => file_event k (AAdd t)) ∘ @snd fkey add).
    rewrite (omap_rows_key (rs_adds st) (fun t => file_event k (AAdd t)) k).
    - destruct (rs_adds st !! k) as [t|] eqn:E; [|done]. cbn. rewrite decide_True; [done|]. by apply Hok.
    - intros k' v Hv Hne. cbn. rewrite decide_False; [done|]. destruct (ok_add st Hok k' v Hv) as [-> _]. done.
  Qed.
  Lemma file_rows k : opt_list (inr <$> rs_removes st !! k) ++ opt_list (inl <$> rs_adds st !! k) = opt_list (file_state st k).
  Proof.
    unfold file_state. destruct (rs_adds st !! k) as [a|] eqn:E.
    - destruct (ok_add st Hok k a E) as [_ ->]. done.
    - cbn. by rewrite app_nil_r.
  Qed.
  (** All rows of a state, whatever the order of the parts. *)
  Lemma rows_match_parts pre rows :
    rows ≡ₚ pre ++ tx ++ dm ++ rm ++ ad ->
    omap protocol_event pre ≡ₚ opt_list (rs_protocol st) ->
    omap metadata_event pre ≡ₚ opt_list (rs_metadata st) ->
    (forall a, omap (txn_event a) pre = []) -> (forall n, omap (domain_event n) pre = []) ->
    (forall k, omap (file_event k) pre = []) ->
    rows_match st rows.
  Proof.
    intros Hp H1 H2 H3 H4 H5. symmetry in Hp. apply (rows_match_perm _ _ _ Hp).
    split; intros; rewrite !omap_app.
    - rewrite H1. unfold tx, dm, rm, ad. rewrite !rows_other by done. by rewrite !app_nil_r.
    - rewrite H2. unfold tx, dm, rm, ad. rewrite !rows_other by done. by rewrite !app_nil_r.
    - rewrite H3. rewrite tx_rows. unfold dm, rm, ad. rewrite !rows_other by done. by rewrite !app_nil_r.
    - rewrite H4. rewrite dm_rows. unfold tx, rm, ad. rewrite !rows_other by done. by rewrite !app_nil_r.
    - rewrite H5. rewrite rm_rows, ad_rows. unfold tx, dm. rewrite !rows_other by done. cbn. by rewrite file_rows.
  Qed.
End rows.

Lemma classic_rows_match st rows : rs_ok st -> classic_rows st = Some rows -> rows_match st rows.
Proof.
  intros Hok. unfold classic_rows.
  destruct (rs_protocol st) as [p|] eqn:Ep; cbn [mbind option_bind]; [|done].
  destruct (rs_metadata st) as [m|] eqn:Em; cbn [mbind option_bind]; [|done]. intros [= <-].
  eapply (rows_match_parts st Hok [AProtocol p; AMetadata m]); [done|..]; cbn; by rewrite ?Ep, ?Em.
Qed.
Lemma v2_rows_match st rows : rs_ok st -> v2_rows st = Some rows -> rows_match st rows.
Proof.
  intros Hok. unfold v2_rows.
  destruct (rs_protocol st) as [p|] eqn:Ep; cbn [mbind option_bind]; [|done].
  destruct (rs_metadata st) as [m|] eqn:Em; cbn [mbind option_bind]; [|done]. intros [= <-].
  eapply (rows_match_parts st Hok [AOther 0; AProtocol p; AMetadata m; AOther 1]); [|cbn; by rewrite ?Ep, ?Em..].
  set (tx := _ <$> map_to_list (rs_txns st)). set (dm := _ <$> map_to_list (rs_domains st)).
  set (rm := _ <$> map_to_list (rs_removes st)). set (ad := _ <$> map_to_list (rs_adds st)).
  clearbody tx dm rm ad. cbn [app]. do 3 f_equiv.
  change (AOther 1 :: tx ++ dm ++ rm ++ ad) with ([AOther 1] ++ tx ++ dm ++ rm ++ ad).
  change (AOther 1 :: ad ++ rm) with ([AOther 1] ++ ad ++ rm).
  rewrite (app_assoc tx dm), (Permutation_app_comm ad rm). rewrite !app_assoc. f_equiv. f_equiv.
  rewrite <- app_assoc. rewrite (Permutation_app_comm [AOther 1] (tx ++ dm)). by rewrite app_assoc.
Qed.

(** ** Up to expired entries *)
Lemma is_table_upto_refl cuts l : is_table_upto cuts l (replay rs_empty l).
Proof.
  destruct (replay_is_table l) as (H1 & H2 & H3 & H4 & H5 & H6). split_and!; intros; auto.
Qed.
Lemma is_table_upto_weaken cuts cuts' l st :
  cuts ⊆ cuts' -> is_table_upto cuts l st -> is_table_upto cuts' l st.
Proof.
  intros Hs (H1 & H2 & H3 & H4 & H5 & H6). split_and!; intros; auto.
  - destruct (H4 k) as [?|(? & r & ? & ts & c & ? & ? & ?)]; [by left|]. right. split; [done|].
    exists r. split; [done|]. exists ts, c. auto.
  - destruct (H6 a) as [?|(? & r & ? & ts & c & ? & ? & ?)]; [by left|]. right. split; [done|].
    exists r. split; [done|]. exists ts, c. auto.
Qed.
Lemma last_app_or {A} (l1 l2 : list A) : last (l1 ++ l2) = match last l2 with Some x => Some x | None => last l1 end.
Proof. apply last_app. Qed.
Lemma is_table_upto_replay cuts l l' st :
  is_table_upto cuts l st -> is_table_upto cuts (l ++ l') (replay st l').
Proof.
  intros (H1 & H2 & H3 & H4 & H5 & H6). split_and!; intros.
  - rewrite replay_protocol, H1. unfold table_protocol. by rewrite omap_app, last_app_or.
  - rewrite replay_metadata, H2. unfold table_metadata. by rewrite omap_app, last_app_or.
  - rewrite replay_adds, H3. unfold live_file. rewrite omap_app, last_app_or.
    by destruct (last (omap (file_event k) l')) as [[]|].
  - rewrite replay_removes. specialize (H4 k). unfold tombstone in *. rewrite omap_app, last_app_or.
    destruct (last (omap (file_event k) l')) as [[]|]; auto.
  - rewrite replay_domains, H5. unfold live_domain. rewrite omap_app, last_app_or.
    by destruct (last (omap (domain_event n) l')).
  - rewrite replay_txns. specialize (H6 a). unfold live_txn in *. rewrite omap_app, last_app_or.
    destruct (last (omap (txn_event a) l')); auto.
Qed.
Lemma is_table_upto_prune cuts l st st' now :
  is_table_upto cuts l st -> prune now st = Some st' ->
  exists m, table_metadata l = Some m /\ is_table_upto (cuts ++ [cutoffs m now]) l st'.
Proof.
  intros (H1 & H2 & H3 & H4 & H5 & H6) (m & Hm & Hp & Hmd & Hd & Ha & Ht & Hr)%prune_spec.
  exists m. split; [by rewrite <- H2|]. split_and!.
  - by rewrite Hp.
  - by rewrite Hmd.
  - intros k. by rewrite Ha.
  - intros k. destruct (rs_removes st' !! k) as [r|] eqn:E.
    + apply Hr in E as [E _]. destruct (H4 k) as [He|[He _]]; [|congruence]. left. congruence.
    + destruct (H4 k) as [He|(He & r & Hr' & ts & c & ? & ? & ?)].
      * destruct (tombstone l k) as [r|] eqn:Et; [|by left]. right. split; [done|]. exists r. split; [done|].
        assert (keep_remove (cutoffs m now).1 r = false) as Hk.
        { destruct (keep_remove (cutoffs m now).1 r) eqn:Ek; [|done].
          assert (rs_removes st' !! k = Some r) by (apply Hr; done). congruence. }
        unfold keep_remove in Hk. destruct (rm_ts r) as [ts|] eqn:Ets; [|done].
        exists ts, (cutoffs m now). split_and!; [done|set_solver|lia].
      * right. split; [done|]. exists r. split; [done|]. exists ts, c. split_and!; [done|set_solver|done].
  - intros n. by rewrite Hd.
  - intros a. destruct (rs_txns st' !! a) as [r|] eqn:E.
    + apply Ht in E as [E _]. destruct (H6 a) as [He|[He _]]; [|congruence]. left. congruence.
    + destruct (H6 a) as [He|(He & r & Hr' & ts & c & ? & ? & ?)].
      * destruct (live_txn l a) as [r|] eqn:Et; [|by left]. right. split; [done|]. exists r. split; [done|].
        assert (keep_txn (cutoffs m now).2 r = false) as Hk.
        { destruct (keep_txn (cutoffs m now).2 r) eqn:Ek; [|done].
          assert (rs_txns st' !! a = Some r) by (apply Ht; done). congruence. }
        unfold keep_txn in Hk. destruct (txn_updated r) as [ts|] eqn:Ets; [|done].
        exists ts, (cutoffs m now). split_and!; [done|set_solver|lia].
      * right. split; [done|]. exists r. split; [done|]. exists ts, c. split_and!; [done|set_solver|done].
Qed.

(** ** Compacted files *)
(** What a compacted file keeps of its range. *)
Definition compacted_state (min_ts : Z) (st : rstate) : rstate :=
  RState (rs_protocol st) (rs_metadata st) (rs_txns st) (rs_domains st) (rs_adds st)
    (filter (fun kr => keep_compacted min_ts kr.2 = true) (rs_removes st)).
Lemma compacted_state_ok min_ts st : rs_ok st -> rs_ok (compacted_state min_ts st).
Proof.
  intros Hok. split; cbn.
  - intros k a H. destruct (ok_add st Hok k a H) as [? Hn]. split; [done|].
    apply map_filter_lookup_None. by left.
  - intros k r H. apply map_filter_lookup_Some in H as [H _]. by apply Hok.
  - apply Hok.
  - apply Hok.
Qed.
Lemma filter_snd_omap {K V B} (P : V -> Prop) `{forall v, Decision (P v)} (f : V -> option B) (l : list (K * V)) :
  omap f (filter P l.*2) = omap (f ∘ snd) (filter (fun kv => P kv.2) l).
Proof.
  induction l as [|[k v] l IH]; [done|]. rewrite fmap_cons, !filter_cons. cbn [snd].
  destruct (decide (P v)); cbn; [|done]. destruct (f v); by rewrite IH.
Qed.
Lemma compacted_rows_match min_ts st : rs_ok st -> rows_match (compacted_state min_ts st) (compacted_rows min_ts st).
Proof.
  intros Hok. pose proof (compacted_state_ok min_ts st Hok) as Hok'.
  assert (filter (fun d => dom_removed d = false) (map_to_list (rs_domains st)).*2 = (map_to_list (rs_domains st)).*2) as Hd.
  { assert (Forall (fun d => dom_removed d = false) (map_to_list (rs_domains st)).*2) as HF.
    { apply Forall_forall. intros d (p & -> & Hp)%elem_of_list_fmap. destruct p as [n d].
      apply elem_of_map_to_list in Hp. by apply (ok_domain st Hok n d). }
    revert HF. generalize (map_to_list (rs_domains st)).*2. intros l HF.
    induction HF as [|d l Hd HF IH]; [done|]. rewrite filter_cons_True by done. by f_equal. }
  assert (filter (fun r => keep_compacted min_ts r = true) (map_to_list (rs_removes st)).*2
          ≡ₚ (map_to_list (rs_removes (compacted_state min_ts st))).*2) as Hr.
  { cbn. generalize (rs_removes st). intros m. induction m as [|k r m Hm IH] using map_ind.
    - rewrite map_filter_empty, map_to_list_empty. done.
    - rewrite map_to_list_insert by done. rewrite fmap_cons, filter_cons. cbn [snd].
      destruct (decide (keep_compacted min_ts r = true)) as [Hk|Hk].
      + rewrite map_filter_insert_True by done.
        rewrite map_to_list_insert by (apply map_filter_lookup_None; by left).
        rewrite fmap_cons. cbn [snd]. by rewrite IH.
      + rewrite map_filter_insert_not' by (try done; intros y; rewrite Hm; done). done. }
  unfold compacted_rows. rewrite Hd.
  eapply (rows_match_parts _ Hok' (opt_row AProtocol (rs_protocol st) ++ opt_row AMetadata (rs_metadata st))).
  - rewrite <- !app_assoc. rewrite Hr.
    rewrite (list_fmap_compose snd ADomain), (list_fmap_compose snd ARemove). done.
  - cbn. destruct (rs_protocol st), (rs_metadata st); done.
  - cbn. destruct (rs_protocol st), (rs_metadata st); done.
  - intros. destruct (rs_protocol st), (rs_metadata st); done.
  - intros. destruct (rs_protocol st), (rs_metadata st); done.
  - intros. destruct (rs_protocol st), (rs_metadata st); done.
Qed.
