(** Proofs about exchange routing. *)
From stdpp Require Import prelude list sorting.
From Coq Require Import Sorting.Sorted.
From Verif.Lib Require Import ListFacts.
From Verif.Exec Require Import GraphModel ExchangeModel ExchangeSpec.

Lemma mapM_total {A B} (f : A -> option B) (g : A -> B) (l : list A) :
  (forall x, x ∈ l -> f x = Some (g x)) -> mapM f l = Some (map g l).
Proof.
  induction l as [|x l IH]; intros H; [done|].
  cbn [map]. apply mapM_Some. constructor.
  - apply H. left.
  - apply mapM_Some. apply IH. intros y Hy. apply H. by right.
Qed.

Lemma mapM_None_elem {A B} (f : A -> option B) (l : list A) x :
  x ∈ l -> f x = None -> mapM f l = None.
Proof.
  intros Hin Hx. destruct (mapM f l) as [k|] eqn:E; [|done].
  apply mapM_Some_1 in E. apply elem_of_list_lookup in Hin as [i Hi].
  destruct (Forall2_lookup_l _ _ _ _ _ E Hi) as (y & _ & Hy). congruence.
Qed.

Lemma elem_of_range se x : x ∈ range se <-> se.1 <= x < se.2.
Proof. unfold range. rewrite elem_of_seq_iff. lia. Qed.
Lemma NoDup_range se : NoDup (range se).
Proof. apply NoDup_ListNoDup, seq_NoDup. Qed.
Lemma NoDup_seq n m : NoDup (seq n m).
Proof. apply NoDup_ListNoDup, seq_NoDup. Qed.

Lemma in_rescale_range ip op p q :
  0 < op -> q ∈ range (rescale_range p ip op) <-> owns ip op p q.
Proof.
  intros Hop. rewrite elem_of_range. unfold rescale_range, owns. cbn [fst snd].
  pose proof (Nat.div_mod (p * ip) op ltac:(lia)).
  pose proof (Nat.mod_upper_bound (p * ip) op ltac:(lia)).
  pose proof (Nat.div_mod ((p + 1) * ip) op ltac:(lia)).
  pose proof (Nat.mod_upper_bound ((p + 1) * ip) op ltac:(lia)).
  set (d1 := p * ip / op) in *. set (d2 := (p + 1) * ip / op) in *.
  set (r1 := p * ip mod op) in *. set (r2 := (p+1) * ip mod op) in *.
  clearbody d1 d2 r1 r2. split; intros [H3 H4]; split; nia.
Qed.

Lemma owner_exists ip op q :
  q < ip -> 0 < op -> exists p, p < op /\ owns ip op p q.
Proof.
  intros Hq Hop. exists (((q + 1) * op - 1) / ip).
  pose proof (Nat.div_mod ((q + 1) * op - 1) ip ltac:(lia)).
  pose proof (Nat.mod_upper_bound ((q + 1) * op - 1) ip ltac:(lia)).
  set (d := ((q + 1) * op - 1) / ip) in *. set (r := ((q + 1) * op - 1) mod ip) in *.
  clearbody d r. unfold owns. split_and!; nia.
Qed.

Lemma owner_mono ip op q q' p p' :
  owns ip op p q -> owns ip op p' q' -> q <= q' -> p <= p'.
Proof. unfold owns. intros [H1 H2] [H3 H4] H. nia. Qed.

Lemma owner_unique ip op q p p' :
  owns ip op p q -> owns ip op p' q -> p = p'.
Proof.
  intros H1 H2.
  pose proof (owner_mono _ _ _ _ _ _ H1 H2 (le_n _)).
  pose proof (owner_mono _ _ _ _ _ _ H2 H1 (le_n _)). lia.
Qed.

Lemma owner_bound ip op p q : p < op -> owns ip op p q -> q < ip.
Proof. unfold owns. intros ? [H1 H2]. nia. Qed.

Lemma rescale_block_size ip op p :
  0 < op -> ip / op <= length (range (rescale_range p ip op)) <= ip / op + 1.
Proof.
  intros Hop. unfold range, rescale_range. cbn [fst snd]. rewrite seq_length.
  pose proof (Nat.div_mod (p * ip) op ltac:(lia)).
  pose proof (Nat.mod_upper_bound (p * ip) op ltac:(lia)).
  pose proof (Nat.div_mod ((p + 1) * ip) op ltac:(lia)).
  pose proof (Nat.mod_upper_bound ((p + 1) * ip) op ltac:(lia)).
  pose proof (Nat.div_mod ip op ltac:(lia)).
  pose proof (Nat.mod_upper_bound ip op ltac:(lia)).
  set (d1 := p * ip / op) in *. set (d2 := (p + 1) * ip / op) in *. set (d := ip / op) in *.
  set (r1 := p * ip mod op) in *. set (r2 := (p+1) * ip mod op) in *. set (r := ip mod op) in *.
  clearbody d1 d2 r1 r2 d r.
  assert (E : op * d2 + r2 = op * d1 + r1 + (op * d + r)) by lia.
  assert (d1 <= d2) by nia.
  assert (d <= d2 - d1) by nia. assert (d2 - d1 <= d + 1) by nia. lia.
Qed.

(** ** The keys a task reads, in closed form *)
Section closed.
  Context (att : nat -> option nat) (a : nat -> nat) (ip ic op : nat).
  Hypothesis Hatt : forall q, q < ip -> att q = Some (a q).

  Definition pkeys (q : nat) : list input_key := map (fun c => InputKey q (a q) c) (seq 0 ic).

  Lemma partition_keys_total q : q < ip -> partition_keys att ic q = Some (pkeys q).
  Proof. intros Hq. unfold partition_keys. by rewrite (Hatt q Hq). Qed.

  Lemma channel_keys_total c :
    channel_keys att ip c = Some (map (fun q => InputKey q (a q) c) (seq 0 ip)).
  Proof.
    apply mapM_total. intros q Hq. apply elem_of_seq_iff in Hq. by rewrite Hatt by lia.
  Qed.

  Lemma partition_groups_total l :
    (forall q, q ∈ l -> q < ip) -> mapM (partition_keys att ic) l = Some (map pkeys l).
  Proof. intros H. apply mapM_total. intros q Hq. by apply partition_keys_total, H. Qed.

  Definition read_closed (m : input_mode) (p : nat) : list input_key :=
    match m with
    | Forward => pkeys p
    | Merge | Broadcast => flat_map pkeys (seq 0 ip)
    | Shuffle => map (fun q => InputKey q (a q) p) (seq 0 ip)
    | Rescale => flat_map pkeys (range (rescale_range p ip op))
    end.

  Lemma lookup_map_seq {B} (f : nat -> B) n i : i < n -> map f (seq 0 n) !! i = Some (f i).
  Proof.
    intros Hi. change (map f) with (fmap (M:=list) f).
    rewrite list_lookup_fmap, lookup_seq_lt by done. done.
  Qed.

  Lemma read_task_closed m p :
    shape_ok m ip ic op -> p < op -> read_task m att ip ic op p = Some (read_closed m p).
  Proof.
    intros Hs Hp. unfold read_task, input_groups. destruct m; cbn in Hs.
    - rewrite partition_groups_total by (intros q Hq; apply elem_of_seq_iff in Hq; lia).
      cbn [mbind option_bind opened_groups mapM]. rewrite lookup_map_seq by lia.
      cbn. by rewrite app_nil_r.
    - rewrite partition_groups_total by (intros q Hq; apply elem_of_seq_iff in Hq; lia).
      cbn [mbind option_bind opened_groups].
      rewrite (mapM_total _ pkeys).
      2: { intros q Hq. apply elem_of_seq_iff in Hq. by rewrite lookup_map_seq by lia. }
      cbn. by rewrite flat_map_concat_map.
    - rewrite (mapM_total _ (fun c => map (fun q => InputKey q (a q) c) (seq 0 ip)))
        by (intros; apply channel_keys_total).
      cbn [mbind option_bind opened_groups mapM]. rewrite lookup_map_seq by lia.
      cbn. by rewrite app_nil_r.
    - rewrite partition_groups_total by (intros q Hq; apply elem_of_seq_iff in Hq; lia).
      cbn. by rewrite app_nil_r, flat_map_concat_map.
    - rewrite (mapM_total _ (fun o => concat (map pkeys (range (rescale_range o ip op))))).
      2: { intros o Ho. apply elem_of_seq_iff in Ho. rewrite partition_groups_total; [done|].
           intros q Hq. apply in_rescale_range in Hq; [|lia]. eapply owner_bound; [|done]. lia. }
      cbn [mbind option_bind opened_groups mapM]. rewrite lookup_map_seq by lia.
      cbn. by rewrite app_nil_r, flat_map_concat_map.
  Qed.

  Lemma elem_of_pkeys q k :
    k ∈ pkeys q <-> ik_partition k = q /\ ik_channel k < ic /\ ik_attempt k = a (ik_partition k).
  Proof.
    unfold pkeys. rewrite elem_of_map_iff. split.
    - intros (c & -> & Hc%elem_of_seq_iff). cbn. split_and!; [done|lia|done].
    - destruct k as [q' a' c]. cbn. intros (-> & Hc & ->). exists c. split; [done|].
      apply elem_of_seq_iff. lia.
  Qed.
  Lemma NoDup_pkeys q : NoDup (pkeys q).
  Proof. apply NoDup_map_inj; [|apply NoDup_seq]. intros x y _ _ [=]. done. Qed.
  Lemma NoDup_flat_pkeys l : NoDup l -> NoDup (flat_map pkeys l).
  Proof.
    intros Hl. apply NoDup_flat_map; [done|intros; apply NoDup_pkeys|].
    intros x y z _ _ Hx%elem_of_pkeys Hy%elem_of_pkeys. naive_solver.
  Qed.

  Lemma read_closed_NoDup m p : NoDup (read_closed m p).
  Proof.
    destruct m; cbn [read_closed].
    - apply NoDup_pkeys.
    - apply NoDup_flat_pkeys, NoDup_seq.
    - apply NoDup_map_inj; [|apply NoDup_seq]. intros x y _ _ [=]. done.
    - apply NoDup_flat_pkeys, NoDup_seq.
    - apply NoDup_flat_pkeys, NoDup_range.
  Qed.

  Lemma read_closed_elem m p k :
    shape_ok m ip ic op -> p < op ->
    k ∈ read_closed m p <->
    wanted m ip ic op p (ik_partition k) (ik_channel k) /\
    ik_attempt k = a (ik_partition k).
  Proof.
    intros Hs Hp. unfold wanted. destruct m; cbn in *.
    - rewrite elem_of_pkeys. subst. intuition lia.
    - rewrite elem_of_flat_map. split.
      + intros (q & Hq%elem_of_seq_iff & Hk%elem_of_pkeys). intuition lia.
      + intros [(H1 & H2 & _) H3]. exists (ik_partition k).
        split; [apply elem_of_seq_iff; lia|]. by apply elem_of_pkeys.
    - rewrite elem_of_map_iff. split.
      + intros (q & -> & Hq%elem_of_seq_iff). cbn. intuition lia.
      + destruct k as [q a' c]. cbn. intros [(H1 & H2 & ->) ->]. exists q. split; [done|].
        apply elem_of_seq_iff. lia.
    - rewrite elem_of_flat_map. split.
      + intros (q & Hq%elem_of_seq_iff & Hk%elem_of_pkeys). intuition lia.
      + intros [(H1 & H2 & _) H3]. exists (ik_partition k).
        split; [apply elem_of_seq_iff; lia|]. by apply elem_of_pkeys.
    - rewrite elem_of_flat_map. split.
      + intros (q & Hq & Hk%elem_of_pkeys). apply in_rescale_range in Hq; [|lia].
        pose proof (owner_bound _ _ _ _ Hp Hq). destruct Hk as (-> & ? & ?). done.
      + intros [(H1 & H2 & H3) H4]. exists (ik_partition k).
        split; [by apply in_rescale_range; [lia|]|]. by apply elem_of_pkeys.
  Qed.
End closed.

Lemma reads_exactly m att ip ic op p :
  shape_ok m ip ic op -> p < op -> (forall q, q < ip -> is_Some (att q)) ->
  exists l, read_task m att ip ic op p = Some l /\ NoDup l /\
    forall k, k ∈ l <->
      wanted m ip ic op p (ik_partition k) (ik_channel k) /\
      att (ik_partition k) = Some (ik_attempt k).
Proof.
  intros Hs Hp Hatt.
  assert (Ha : forall q, q < ip -> att q = Some (default 0 (att q))).
  { intros q Hq. destruct (Hatt q Hq) as [x Hx]. by rewrite Hx. }
  exists (read_closed (fun q => default 0 (att q)) ip ic op m p). split_and!.
  - exact (read_task_closed _ _ _ _ _ Ha m p Hs Hp).
  - apply read_closed_NoDup.
  - intros k. rewrite (read_closed_elem _ _ _ _ m p k Hs Hp).
    split; intros [Hw Hk]; (split; [done|]).
    + rewrite Hk. apply Ha. apply Hw.
    + by rewrite Hk.
Qed.

(** ** Counting the readers of one stream *)
Lemma filter_count_unique {A} `{EqDecision A} (P : A -> Prop) `{!forall x, Decision (P x)}
  (l : list A) k0 :
  NoDup l -> (forall k, k ∈ l -> P k -> k = k0) -> P k0 ->
  length (filter P l) = if decide (k0 ∈ l) then 1 else 0.
Proof.
  intros Hnd Hu Hk0. induction l as [|x l IH].
  - destruct (decide _) as [Hin|]; [by apply elem_of_nil in Hin|done].
  - apply NoDup_cons in Hnd as [Hx Hnd].
    assert (IH' := IH Hnd (fun k Hk => Hu k (elem_of_list_further _ _ _ Hk))).
    rewrite filter_cons. destruct (decide (P x)) as [HP|HP].
    + assert (x = k0) as -> by (apply Hu; [left|done]).
      cbn [length]. rewrite IH'. rewrite !decide_False by done.
      rewrite decide_True by left. done.
    + rewrite IH'. destruct (decide (k0 ∈ l)).
      * rewrite decide_True by (by right). done.
      * rewrite decide_False; [done|]. intros [->|?]%elem_of_cons; done.
Qed.

Lemma sum_map_const {A} (f : A -> nat) c (l : list A) :
  (forall x, x ∈ l -> f x = c) -> sum_list (map f l) = length l * c.
Proof.
  induction l as [|x l IH]; intros H; [done|].
  cbn [map sum_list length]. rewrite (H x) by left.
  change (sum_list_with id) with sum_list. cbn. f_equal.
  rewrite <- IH; [done|]. intros y Hy. apply H. by right.
Qed.

Lemma sum_map_unique (f : nat -> nat) x0 (l : list nat) :
  NoDup l -> x0 ∈ l -> f x0 = 1 -> (forall x, x ∈ l -> x <> x0 -> f x = 0) ->
  sum_list (map f l) = 1.
Proof.
  induction l as [|x l IH]; intros Hnd Hin H1 H0; [by apply elem_of_nil in Hin|].
  apply NoDup_cons in Hnd as [Hx Hnd]. cbn [map].
  destruct (decide (x = x0)) as [->|Hne].
  - assert (sum_list (map f l) = length l * 0) as E.
    { apply sum_map_const. intros y Hy. apply H0; [by right|]. by intros ->. }
    cbn in *. rewrite E, H1. lia.
  - apply elem_of_cons in Hin as [->|Hin]; [done|].
    specialize (IH Hnd Hin H1 (fun y Hy => H0 y (elem_of_list_further _ _ _ Hy))).
    cbn in *. rewrite IH, (H0 x); [done|left|done].
Qed.

Lemma edge_count m att ip ic op q c :
  shape_ok m ip ic op -> (forall r, r < ip -> is_Some (att r)) -> q < ip -> c < ic ->
  sum_list (map (fun p =>
     length (filter (fun k => ik_partition k = q /\ ik_channel k = c)
       (default [] (read_task m att ip ic op p)))) (seq 0 op)) = edge_readers m op.
Proof.
  intros Hs Hatt Hq Hc. destruct (Hatt q Hq) as [a Ha].
  set (f := fun p => length (filter _ _)).
  assert (Hf1 : forall p, p < op -> wanted m ip ic op p q c -> f p = 1).
  { intros p Hp Hw. unfold f.
    destruct (reads_exactly m att ip ic op p Hs Hp Hatt) as (l & -> & Hnd & Hl). cbn [default].
    rewrite (filter_count_unique _ l (InputKey q a c)); [|done| |done].
    - apply decide_True. apply Hl. cbn. done.
    - intros [q' a' c'] Hk [Hk1 Hk2]. cbn in *. subst.
      apply Hl in Hk as [_ Hk]. cbn in Hk. congruence. }
  assert (Hf0 : forall p, p < op -> ~ wanted m ip ic op p q c -> f p = 0).
  { intros p Hp Hw. unfold f.
    destruct (reads_exactly m att ip ic op p Hs Hp Hatt) as (l & -> & Hnd & Hl). cbn [default].
    rewrite (filter_count_unique _ l (InputKey q a c)); [|done| |done].
    - apply decide_False. intros Hk. apply Hl in Hk as [Hk _]. cbn in Hk. done.
    - intros [q' a' c'] Hk [Hk1 Hk2]. cbn in *. subst.
      apply Hl in Hk as [_ Hk]. cbn in Hk. congruence. }
  assert (Huniq : forall p0, p0 < op -> wanted m ip ic op p0 q c ->
            (forall p, p < op -> wanted m ip ic op p q c -> p = p0) ->
            sum_list (map f (seq 0 op)) = 1).
  { intros p0 Hp0 Hw Hu. apply (sum_map_unique f p0).
    - apply NoDup_seq.
    - apply elem_of_seq_iff. lia.
    - by apply Hf1.
    - intros p Hp%elem_of_seq_iff Hne. apply Hf0; [lia|]. intros Hw'. apply Hne, Hu; [lia|done]. }
  assert (Hall : (forall p, p < op -> wanted m ip ic op p q c) -> sum_list (map f (seq 0 op)) = op).
  { intros H. rewrite (sum_map_const f 1); [rewrite seq_length; lia|].
    intros p Hp%elem_of_seq_iff. apply Hf1; [lia|]. apply H. lia. }
  destruct m; cbn [edge_readers]; unfold wanted in *; cbn in Hs.
  - apply (Huniq q); [lia|done|]. intros p _ (_ & _ & ->). done.
  - apply Hall. done.
  - apply (Huniq c); [lia|done|]. intros p _ (_ & _ & ->). done.
  - apply Hall. done.
  - destruct (owner_exists ip op q Hq Hs) as (p0 & Hp0 & Hw).
    apply (Huniq p0); [done|done|]. intros p _ (_ & _ & Hw'). eapply owner_unique; done.
Qed.

Lemma flat_map_ext_in_list {A B} (f g : A -> list B) (l : list A) :
  (forall x, x ∈ l -> f x = g x) -> flat_map f l = flat_map g l.
Proof.
  induction l as [|x l IH]; intros H; [done|]. cbn. rewrite (H x) by left.
  f_equal. apply IH. intros y Hy. apply H. by right.
Qed.

(** The number of times a stream is opened, over all edges. *)
Lemma opens_replicas g i prod att q c :
  g !! i = Some prod -> edges_shaped g i ->
  (forall r, r < st_partitions prod -> is_Some (att r)) ->
  q < st_partitions prod -> c < st_channels prod ->
  replicas g i = Nat.max 1 (opens g att i q c).
Proof.
  intros Hi Hsh Hatt Hq Hc. unfold replicas, opens. rewrite Hi. do 2 f_equal.
  apply flat_map_ext_in_list. intros cons Hcons.
  apply map_ext_in. intros inp Hinp%elem_of_list_In%elem_of_list_filter.
  destruct Hinp as [Hin1 Hin2].
  rewrite edge_count; [by destruct (in_mode inp)| |done|done|done].
  by apply (Hsh prod cons inp).
Qed.

(** ** Failures and locators *)
Lemma unknown_attempt m att ip ic op q :
  q < ip -> (m = Shuffle -> 0 < ic) -> (m = Rescale -> 0 < op) -> att q = None ->
  input_groups m att ip ic op = None.
Proof.
  intros Hq Hic Hop Hnone.
  assert (Hpk : partition_keys att ic q = None) by (unfold partition_keys; by rewrite Hnone).
  assert (Hseq : q ∈ seq 0 ip) by (apply elem_of_seq_iff; lia).
  unfold input_groups. destruct m.
  - by apply (mapM_None_elem _ _ q).
  - by apply (mapM_None_elem _ _ q).
  - apply (mapM_None_elem _ _ 0); [apply elem_of_seq_iff; specialize (Hic eq_refl); lia|].
    unfold channel_keys. apply (mapM_None_elem _ _ q); [done|]. by rewrite Hnone.
  - by rewrite (mapM_None_elem _ _ q).
  - destruct (owner_exists ip op q Hq (Hop eq_refl)) as (p & Hp & Ho).
    apply (mapM_None_elem _ _ p); [apply elem_of_seq_iff; lia|].
    rewrite (mapM_None_elem _ _ q); [done| |done].
    apply in_rescale_range; [lia|done].
Qed.

Lemma driver_locator_spec asg groups out :
  driver_locator asg groups = Some out <->
  out = groups /\
  forall k, k ∈ concat groups -> asg (ik_partition k) (ik_attempt k) = Some ADriver.
Proof.
  unfold driver_locator. destruct (forallb _ _) eqn:E.
  - rewrite forallb_elem in E. split.
    + intros [= <-]. split; [done|]. intros k Hk. apply E in Hk. by apply bool_decide_eq_true in Hk.
    + intros [-> _]. done.
  - split; [done|]. intros [_ H]. exfalso.
    assert (forallb (fun k => bool_decide (asg (ik_partition k) (ik_attempt k) = Some ADriver))
              (concat groups) = true) as E'; [|congruence].
    apply forallb_elem. intros k Hk. apply bool_decide_eq_true. by apply H.
Qed.

Lemma worker_locator_spec asg groups out :
  worker_locator asg groups = Some out <->
  map (map snd) out = groups /\
  forall w k, (w, k) ∈ concat out -> asg (ik_partition k) (ik_attempt k) = Some (AWorker w).
Proof.
  unfold worker_locator.
  assert (Hg : forall ks (wks : list (nat * input_key)),
    mapM (fun k => match asg (ik_partition k) (ik_attempt k) with
                   | Some (AWorker w) => Some (w, k) | _ => None end) ks = Some wks <->
    map snd wks = ks /\
    forall w k, (w, k) ∈ wks -> asg (ik_partition k) (ik_attempt k) = Some (AWorker w)).
  { intros ks. induction ks as [|k ks IH]; intros wks.
    - cbn. split; [intros [= <-]; split; [done|by intros ?? ?%elem_of_nil]|].
      intros [H _]. by destruct wks.
    - rewrite mapM_Some. split.
      + intros H. apply Forall2_cons_inv_l in H as ([w k'] & wks' & Hk & Hr & ->).
        apply mapM_Some in Hr. apply IH in Hr as [Hr1 Hr2].
        destruct (asg _ _) as [[|w']|] eqn:E; [done| |done]. injection Hk as <- <-.
        cbn. rewrite Hr1. split; [done|].
        intros w k2 [[= -> ->]|Hin]%elem_of_cons; [done|by apply Hr2].
      + intros [Hm Ha]. destruct wks as [|[w k'] wks]; [done|]. cbn in Hm. injection Hm as -> Hm.
        constructor.
        * rewrite (Ha w k) by left. done.
        * apply mapM_Some, IH. split; [done|]. intros w' k2 Hin. apply Ha. by right. }
  revert out. induction groups as [|ks groups IH]; intros out.
  - cbn. split; [intros [= <-]; split; [done|by intros ?? ?%elem_of_nil]|].
    intros [H _]. by destruct out.
  - rewrite mapM_Some. split.
    + intros H. apply Forall2_cons_inv_l in H as (wks & out' & Hk & Hr & ->).
      apply mapM_Some in Hr. apply IH in Hr as [Hr1 Hr2]. apply Hg in Hk as [Hk1 Hk2].
      cbn. rewrite Hr1, Hk1. split; [done|].
      intros w k [Hin|Hin]%elem_of_app; [by apply Hk2|by apply Hr2].
    + intros [Hm Ha]. destruct out as [|wks out]; [done|]. cbn in Hm. injection Hm as Hm1 Hm2.
      constructor.
      * apply Hg. split; [done|]. intros w k Hin. apply Ha. cbn. apply elem_of_app. by left.
      * apply mapM_Some, IH. split; [done|]. intros w k Hin. apply Ha. cbn.
        apply elem_of_app. by right.
Qed.

Lemma service_locator_reads m ip ic op groups p i :
  service_locator m ic op = Some groups -> shape_ok m ip ic op -> p < op ->
  i ∈ opened_groups m ip p ->
  exists cs, groups !! i = Some cs /\ NoDup cs /\
    forall c q, q < ip -> (c ∈ cs <-> wanted m ip ic op p q c).
Proof.
  intros Hg Hs Hp Hi. unfold wanted. destruct m; cbn in *; try done.
  - apply elem_of_list_singleton in Hi as ->. injection Hg as <-.
    exists [p]. split_and!; [by apply (lookup_map_seq (fun x => [x]))|apply NoDup_singleton|].
    intros c q Hq. rewrite elem_of_list_singleton. intuition lia.
  - apply elem_of_list_singleton in Hi as ->. injection Hg as <-.
    exists (seq 0 ic). split_and!; [by apply lookup_replicate_2; lia|apply NoDup_seq|].
    intros c q Hq. rewrite elem_of_seq_iff. intuition lia.
Qed.

Lemma coalesce_spec ip op p l :
  coalesce_inputs ip op p = Some l <->
  p < op /\ op <= ip /\ StronglySorted lt l /\ forall q, q ∈ l <-> owns ip op p q.
Proof.
  assert (Hss : forall n m, StronglySorted lt (seq n m)).
  { intros n m. revert n. induction m as [|m IH]; intros n; [constructor|].
    cbn. constructor; [apply IH|]. apply Forall_forall. intros x Hx%elem_of_seq_iff. lia. }
  unfold coalesce_inputs. split.
  - destruct (decide _); [done|]. destruct (decide _); [done|]. intros [= <-].
    split_and!; [lia|lia|apply Hss|]. intros q. apply in_rescale_range. lia.
  - intros (Hp & Hop & Hsort & Hl). rewrite decide_False by lia. rewrite decide_False by lia.
    assert (AntiSymm eq lt) by (intros x1 x2 ? ?; lia).
    f_equal. apply (StronglySorted_unique lt).
    + apply Hss.
    + done.
    + apply NoDup_Permutation; [apply NoDup_range| |].
      * clear -Hsort. induction Hsort as [|x l Hs IH Hf]; constructor; [|done].
        intros Hin. rewrite Forall_forall in Hf. specialize (Hf _ Hin). lia.
      * intros q. rewrite Hl. apply in_rescale_range. lia.
Qed.
