From stdpp Require Import prelude list.
From Coq Require Import Lia.
From Verif.Lib Require Import ListFacts.
From Verif.Exec Require Import JobModel JobOutputModel JobOutputSpec AssignerProofs.

Section proofs.
Context {A : Type}.
Implicit Types (es : list (out_event A)) (inner : list (wrapper A)) (out : list (received A)).

Lemma Permutation_refl' {B} (l k : list B) : l = k -> l ≡ₚ k.
Proof. by intros ->. Qed.

Lemma same_slot_iff k k' : same_slot k k' = true <-> slot_of k = slot_of k'.
Proof.
  unfold same_slot, slot_of. rewrite !andb_true_iff, !bool_decide_eq_true.
  split; [intros [[-> ->] ->]; done|intros [= -> -> ->]; done].
Qed.

Lemma received_app x (o1 o2 : list (received A)) :
  received_for x (o1 ++ o2) = received_for x o1 ++ received_for x o2.
Proof. apply flat_map_app. Qed.
Lemma arrivals_app x es1 es2 : arrivals x (es1 ++ es2) = arrivals x es1 ++ arrivals x es2.
Proof. apply omap_app. Qed.

Lemma out_run_snoc s es e :
  out_run s (es ++ [e]) =
  ((out_step (out_run s es).1 e).1, (out_run s es).2 ++ (out_step (out_run s es).1 e).2).
Proof.
  revert s. induction es as [|e0 es IH]; intros s; cbn [app out_run].
  - destruct (out_step s e) as [s1 o1] eqn:E. cbn. rewrite E. cbn. by rewrite app_nil_r.
  - destruct (out_step s e0) as [s1 o1]. rewrite IH.
    destruct (out_run s1 es) as [s2 o2]. cbn. by rewrite app_assoc.
Qed.

(** Members of a slot that are still read. *)
Definition reading (x : slot) (w : wrapper A) : Prop := slot_of (wr_key w) = x /\ is_Some (wr_inner w).
Global Instance reading_dec x w : Decision (reading x w).
Proof. unfold reading. solve_decision. Defined.

Definition slot_ok (x : slot) (inner : list (wrapper A)) (got expected : list A) : Prop :=
  match filter (reading x) inner with
  | [] => got = expected
  | [w] => exists rest, wr_inner w = Some rest /\ got ++ rows_of rest = expected /\ wr_count w = length got
  | _ => False
  end.

Definition good (inner : list (wrapper A)) (es : list (out_event A)) (out : list (received A)) : Prop :=
  forall x, slot_ok x inner (received_for x out) (expected_for x es).

Lemma slot_ok_member x inner got expected i w :
  slot_ok x inner got expected -> inner !! i = Some w -> reading x w ->
  filter (reading x) inner = [w] /\
  exists rest, wr_inner w = Some rest /\ got ++ rows_of rest = expected /\ wr_count w = length got.
Proof.
  unfold slot_ok. intros Hok Hi Hr.
  assert (w ∈ filter (reading x) inner) as Hin.
  { apply elem_of_list_filter. split; [done|]. by eapply elem_of_list_lookup_2. }
  destruct (filter (reading x) inner) as [|w' [|]]; [set_solver| |done].
  apply elem_of_list_singleton in Hin. subst. done.
Qed.

Lemma filter_insert_other (P : wrapper A -> Prop) `{!forall x, Decision (P x)} inner i w w' :
  inner !! i = Some w -> ~ P w -> ~ P w' -> filter P (<[i:=w']> inner) = filter P inner.
Proof.
  intros Hi Hw Hw'. apply elem_of_list_split_length in Hi as (l1 & l2 & -> & ->).
  rewrite insert_app_r_alt, Nat.sub_diag by lia. cbn.
  rewrite !filter_app, !filter_cons_False by done. done.
Qed.
Lemma filter_insert_single (P : wrapper A -> Prop) `{!forall x, Decision (P x)} inner i w w' :
  inner !! i = Some w -> P w -> P w' -> filter P inner = [w] -> filter P (<[i:=w']> inner) = [w'].
Proof.
  intros Hi Hw Hw' Hf. apply elem_of_list_split_length in Hi as (l1 & l2 & -> & ->).
  rewrite insert_app_r_alt, Nat.sub_diag by lia. cbn.
  rewrite filter_app, filter_cons_True in * by done.
  destruct (filter P l1) as [|a l]; cbn in *.
  - injection Hf as Hf. by rewrite Hf.
  - injection Hf as _ Hf. by destruct l.
Qed.
Lemma filter_delete_other (P : wrapper A -> Prop) `{!forall x, Decision (P x)} inner i w :
  inner !! i = Some w -> ~ P w -> filter P (delete i inner) = filter P inner.
Proof.
  intros Hi Hw. apply elem_of_list_split_length in Hi as (l1 & l2 & -> & ->).
  rewrite delete_middle. rewrite !filter_app, filter_cons_False by done. done.
Qed.
Lemma filter_delete_single (P : wrapper A -> Prop) `{!forall x, Decision (P x)} inner i w :
  inner !! i = Some w -> P w -> filter P inner = [w] -> filter P (delete i inner) = [].
Proof.
  intros Hi Hw Hf. apply elem_of_list_split_length in Hi as (l1 & l2 & -> & ->).
  rewrite delete_middle. rewrite filter_app, filter_cons_True in * by done.
  destruct (filter P l1) as [|a l]; cbn in *.
  - injection Hf as Hf. done.
  - injection Hf as _ Hf. by destruct l.
Qed.

Lemma poll_good inner i es out inner' o :
  good inner es out -> poll_inner i inner = (inner', o) -> RError ∉ o ->
  good inner' es (out ++ o).
Proof.
  intros Hg Hp Hne x. specialize (Hg x). rewrite received_app.
  unfold poll_inner in Hp. destruct (inner !! i) as [w|] eqn:Hi.
  2:{ injection Hp as <- <-. cbn. by rewrite app_nil_r. }
  unfold poll_wrapper in Hp.
  destruct (decide (slot_of (wr_key w) = x)) as [Hx|Hx].
  - destruct (wr_inner w) as [[|[rows|] rest]|] eqn:Hin.
    + (* end of the stream *) injection Hp as <- <-. cbn. rewrite app_nil_r.
      destruct (slot_ok_member _ _ _ _ _ _ Hg Hi) as (Hf & rest & Hr & He & _).
      { split; [done|]. rewrite Hin. by eexists. }
      unfold slot_ok. rewrite (filter_delete_single (reading x) _ _ _ Hi (conj Hx (ex_intro _ _ Hr)) Hf).
      rewrite Hin in Hr. injection Hr as <-. cbn in He. by rewrite app_nil_r in He.
    + (* a batch *) injection Hp as <- <-.
      destruct (slot_ok_member _ _ _ _ _ _ Hg Hi) as (Hf & rest' & Hr & He & Hc).
      { split; [done|]. rewrite Hin. by eexists. }
      unfold slot_ok. erewrite (filter_insert_single (reading x)); [|exact Hi| | |exact Hf].
      2:{ split; [done|]. rewrite Hin. by eexists. }
      2:{ split; [done|]. by eexists. }
      cbn. rewrite decide_True by done. rewrite app_nil_r.
      rewrite Hin in Hr. injection Hr as <-. cbn in He.
      exists rest. split_and!; [done| |].
      * rewrite <- He, <- app_assoc. done.
      * rewrite app_length. lia.
    + injection Hp as <- <-. set_solver.
    + (* muted *) injection Hp as <- <-. cbn. rewrite app_nil_r.
      unfold slot_ok. rewrite (filter_delete_other _ _ _ _ Hi); [exact Hg|].
      intros [_ Hs]. rewrite Hin in Hs. by destruct Hs.
  - assert (~ reading x w) as Hnr by (intros [? _]; done).
    destruct (wr_inner w) as [[|[rows|] rest]|] eqn:Hin; injection Hp as <- <-.
    + cbn. rewrite app_nil_r. unfold slot_ok. by rewrite (filter_delete_other _ _ _ _ Hi).
    + unfold slot_ok. rewrite (filter_insert_other _ _ _ _ _ Hi) by (try done; intros [? _]; done).
      cbn. rewrite decide_False by done. cbn. rewrite app_nil_r. exact Hg.
    + set_solver.
    + cbn. rewrite app_nil_r. unfold slot_ok. by rewrite (filter_delete_other _ _ _ _ Hi).
Qed.

Lemma expected_snoc_other x es e :
  (forall k c, e = EStream k c -> slot_of k <> x) -> expected_for x (es ++ [e]) = expected_for x es.
Proof.
  intros He. unfold expected_for. rewrite arrivals_app.
  assert (arrivals x [e] = []) as ->; [|by rewrite app_nil_r].
  unfold arrivals. destruct e; cbn; try done. rewrite decide_False; [done|]. by eapply He.
Qed.
Lemma expected_snoc_same es k c : expected_for (slot_of k) (es ++ [EStream k c]) = rows_of c.
Proof.
  unfold expected_for. rewrite arrivals_app.
  assert (arrivals (slot_of k) [EStream k c] = [c]) as ->.
  { unfold arrivals. cbn. by rewrite decide_True. }
  by rewrite last_snoc.
Qed.

Lemma stream_good inner es out k c :
  good inner es out ->
  existsb (conflicts_with k) inner = false ->
  (forall c0, last (arrivals (slot_of k) es) = Some c0 ->
     rows_of c0 = [] \/ received_for (slot_of k) out <> rows_of c0) ->
  good (map (mute_if_needed k) inner ++ [Wrapper k (Some c) 0]) (es ++ [EStream k c]) out.
Proof.
  intros Hg Hno Hin x. specialize (Hg x). unfold slot_ok. rewrite filter_app.
  destruct (decide (slot_of k = x)) as [<-|Hx].
  - rewrite expected_snoc_same.
    rewrite (filter_none _ (map _ inner)).
    2:{ intros w (w0 & -> & Hw0)%elem_of_map_iff [Hs Hi]. unfold mute_if_needed in *.
        destruct (same_slot (wr_key w0) k) eqn:E; [by destruct Hi|].
        apply same_slot_iff in Hs. congruence. }
    cbn. rewrite decide_True by (split; [done|by eexists]).
    exists c. cbn. split; [done|].
    assert (received_for (slot_of k) out = []) as ->; [|done].
    unfold slot_ok in Hg.
    destruct (filter (reading (slot_of k)) inner) as [|w [|]] eqn:Ef; [| |done].
    + unfold expected_for in Hg.
      destruct (last (arrivals (slot_of k) es)) as [c0|] eqn:El; [|done].
      destruct (Hin c0 eq_refl) as [Hr|Hr]; congruence.
    + destruct Hg as (rest & _ & _ & Hc).
      assert (w ∈ filter (reading (slot_of k)) inner) as Hw by (rewrite Ef; set_solver).
      apply elem_of_list_filter in Hw as [[Hs _] Hw].
      destruct (wr_count w) as [|n] eqn:Ec; [by apply nil_length_inv|].
      exfalso. assert (existsb (conflicts_with k) inner = true) as Ht; [|congruence].
      apply existsb_exists. exists w. split; [by apply elem_of_list_In|].
      unfold conflicts_with. apply andb_true_iff. split; [by apply same_slot_iff|].
      rewrite Ec. done.
  - rewrite expected_snoc_other by (intros ?? [= <- <-]; done).
    cbn. rewrite decide_False by (intros [? _]; done). rewrite app_nil_r.
    assert (filter (reading x) (map (mute_if_needed k) inner) = filter (reading x) inner) as ->; [|exact Hg].
    clear Hg Hno. induction inner as [|w inner IH]; [done|]. cbn [map].
    unfold mute_if_needed at 1. destruct (same_slot (wr_key w) k) eqn:E.
    + apply same_slot_iff in E.
      rewrite !filter_cons_False by (intros [? _]; cbn in *; congruence). exact IH.
    + rewrite !filter_cons, IH. done.
Qed.


Lemma slots_app es1 es2 : slots (es1 ++ es2) = slots es1 ++ slots es2.
Proof. apply omap_app. Qed.
Lemma closed_last_prefix es e : closed_last (es ++ [e]) -> closed_last es.
Proof.
  intros Hc es1 es2 ->.
  assert (slots (es2 ++ [e]) = []) as Hs.
  { apply (Hc es1). by rewrite <- app_assoc. }
  rewrite slots_app in Hs. by apply app_eq_nil in Hs as [? _].
Qed.
Lemma retries_prefix es e : retries_in_time (es ++ [e]) -> retries_in_time es.
Proof.
  intros Hr es1 k c es2 -> . apply (Hr es1 k c (es2 ++ [e])). by rewrite <- app_assoc.
Qed.

Definition run_ok es : Prop :=
  match (out_run out_init es).1 with
  | OActive inner => good inner es (out_run out_init es).2 /\ EClose ∉ es
  | ODraining inner => good inner es (out_run out_init es).2 /\ EClose ∈ es
  | OCompleted => EClose ∈ es /\ forall x, received_for x (out_run out_init es).2 = expected_for x es
  | OFailed => False
  end.

Lemma good_snoc_other inner es e out :
  (forall k c, e <> EStream k c) -> good inner es out -> good inner (es ++ [e]) out.
Proof.
  intros He Hg x. rewrite expected_snoc_other; [apply Hg|]. intros k c ->. by destruct (He k c).
Qed.

Lemma run_ok_reachable es :
  closed_last es -> retries_in_time es -> RError ∉ (out_run out_init es).2 -> run_ok es.
Proof.
  induction es as [|e es IH] using rev_ind; intros Hc Hr Hne.
  { unfold run_ok. cbn. split; [|set_solver]. intros x. done. }
  rewrite out_run_snoc in Hne. cbn [snd] in Hne.
  specialize (IH (closed_last_prefix _ _ Hc) (retries_prefix _ _ Hr)).
  assert (RError ∉ (out_run out_init es).2) as Hne0 by set_solver. specialize (IH Hne0).
  unfold run_ok in *. rewrite out_run_snoc. cbn [fst snd].
  specialize (Hr es). pose proof (fun x => Hc es [] x) as _.
  destruct (out_run out_init es) as [s out] eqn:E. cbn [fst snd] in *.
  assert (EClose ∈ es -> forall k c, e <> EStream k c) as Hlate.
  { intros Hin k c ->. apply elem_of_list_split in Hin as (l1 & l2 & ->).
    assert (slots (l2 ++ [EStream k c]) = []) as Hs.
    { apply (Hc l1). by rewrite <- app_assoc. }
    rewrite slots_app in Hs. apply app_eq_nil in Hs as [_ Hs]. done. }
  destruct s as [inner|inner| |]; [| | |done].
  - destruct IH as [Hg Hcl]. destruct e as [k c| | |i|]; cbn [out_step] in *.
    + destruct (existsb (conflicts_with k) inner) eqn:Ec; cbn [fst snd] in *; [set_solver|].
      rewrite app_nil_r. split; [|set_solver]. apply stream_good; [done|done|].
      intros c0 Hc0. eapply (Hr k c []); done.
    + cbn in Hne. set_solver.
    + cbn. rewrite app_nil_r. split; [|set_solver]. by apply good_snoc_other.
    + destruct (poll_inner i inner) as [inner' o] eqn:Ep. cbn [fst snd] in *.
      split; [|set_solver]. apply good_snoc_other; [done|].
      eapply poll_good; [done|done|set_solver].
    + cbn. rewrite app_nil_r. split; [|set_solver]. by apply good_snoc_other.
  - destruct IH as [Hg Hcl]. specialize (Hlate Hcl).
    destruct e as [k c| | |i|]; cbn [out_step] in *.
    + by destruct (Hlate k c).
    + destruct inner; cbn; rewrite app_nil_r; (split; [by apply good_snoc_other|set_solver]).
    + destruct inner; cbn; rewrite app_nil_r; (split; [by apply good_snoc_other|set_solver]).
    + destruct (poll_inner i inner) as [inner' o] eqn:Ep.
      assert (good inner' (es ++ [EPoll i]) (out ++ o)) as Hg'.
      { apply good_snoc_other; [done|]. eapply poll_good; [done|done|].
        destruct inner; cbn [fst snd] in Hne; set_solver. }
      destruct inner; cbn [fst snd]; (split; [done|set_solver]).
    + destruct inner as [|w inner]; cbn [fst snd].
      * split; [set_solver|]. intros x. specialize (Hg x).
        rewrite received_app, expected_snoc_other by done. cbn. by rewrite app_nil_r.
      * rewrite app_nil_r. split; [by apply good_snoc_other|set_solver].
  - destruct IH as [Hcl Hx]. specialize (Hlate Hcl).
    assert (forall x, received_for x (out ++ []) = expected_for x (es ++ [e])) as Hx'.
    { intros x. rewrite app_nil_r, expected_snoc_other; [apply Hx|].
      intros k c ->. by destruct (Hlate k c). }
    destruct e; cbn; (split; [set_solver|exact Hx']).
Qed.

Lemma exactly_once es :
  closed_last es -> retries_in_time es -> clean_end es ->
  forall x, received_for x (out_run out_init es).2 = expected_for x es.
Proof.
  intros Hc Hr [He Hne]. pose proof (run_ok_reachable es Hc Hr Hne) as Hok.
  unfold run_ok in Hok. rewrite He in Hok. apply Hok.
Qed.

(** All rows together. *)
Lemma all_received_slots (out : list (received A)) (xs : list slot) :
  NoDup xs -> (forall k rows, Rows k rows ∈ out -> slot_of k ∈ xs) ->
  all_received out ≡ₚ flat_map (fun x => received_for x out) xs.
Proof.
  intros Hnd. induction out as [|r out IH]; intros Hin.
  { cbn. clear. induction xs; [done|]. cbn. done. }
  change (all_received (r :: out)) with
    ((match r with Rows _ rows => rows | _ => [] end) ++ all_received out).
  rewrite IH by (intros; eapply Hin; right; done).
  assert (forall ys (f g : slot -> list A), flat_map (fun x => f x ++ g x) ys ≡ₚ flat_map f ys ++ flat_map g ys) as Hsplit.
  { clear. induction ys as [|y ys IH]; intros f g; [done|]. cbn. rewrite IH. solve_Permutation. }
  assert (flat_map (fun x => received_for x (r :: out)) xs ≡ₚ
    flat_map (fun x => received_for x [r]) xs ++ flat_map (fun x => received_for x out) xs) as ->.
  { rewrite <- Hsplit. apply Permutation_refl'. apply flat_map_ext. intros x.
    change (r :: out) with ([r] ++ out). apply received_app. }
  apply Permutation_app; [|done].
  destruct r as [k rows| |]; cbn.
  - assert (slot_of k ∈ xs) as Hk by (apply (Hin k rows); set_solver).
    clear Hin IH. induction xs as [|x xs IHx]; [set_solver|].
    apply NoDup_cons in Hnd as [Hx Hnd]. cbn.
    destruct (decide (slot_of k = x)) as [->|Hne].
    + rewrite app_nil_r.
      assert (flat_map (fun y => (if decide (x = y) then rows else []) ++ []) xs = []) as ->; [|by rewrite app_nil_r].
      clear -Hx. induction xs as [|y ys IH]; [done|]. cbn.
      rewrite decide_False by set_solver. cbn. apply IH. set_solver.
    + cbn. apply IHx; [done|set_solver].
  - clear. induction xs; [done|]. cbn. done.
  - clear. induction xs; [done|]. cbn. done.
Qed.

Lemma rows_have_slot es k rows :
  Rows k rows ∈ (out_run out_init es).2 -> slot_of k ∈ slots es.
Proof.
  assert ((forall inner, (out_run out_init es).1 = OActive inner \/ (out_run out_init es).1 = ODraining inner ->
      forall w, w ∈ inner -> slot_of (wr_key w) ∈ slots es) /\
    (forall k rows, Rows k rows ∈ (out_run out_init es).2 -> slot_of k ∈ slots es)) as [_ H]; [|apply H].
  clear k rows. induction es as [|e es [IH1 IH2]] using rev_ind.
  { cbn. split; [|set_solver]. intros inner [[= <-]|?]; [set_solver|done]. }
  rewrite out_run_snoc. cbn [fst snd]. rewrite slots_app.
  destruct (out_run out_init es) as [s out]. cbn [fst snd] in *.
  assert (forall i inner inner' o, poll_inner i inner = (inner', o) ->
    (forall w, w ∈ inner -> slot_of (wr_key w) ∈ slots es) ->
    (forall w, w ∈ inner' -> slot_of (wr_key w) ∈ slots es) /\
    (forall k rows, Rows k rows ∈ o -> slot_of k ∈ slots es)) as Hpoll.
  { intros i inner inner' o Hp Hw. unfold poll_inner in Hp.
    destruct (inner !! i) as [w|] eqn:Ei; [|injection Hp as <- <-; split; [done|set_solver]].
    assert (w ∈ inner) as Hwi by (by eapply elem_of_list_lookup_2).
    assert (forall w', slot_of (wr_key w') = slot_of (wr_key w) ->
      forall v, v ∈ <[i:=w']> inner -> slot_of (wr_key v) ∈ slots es) as Hins.
    { intros w' Hk v [j Hj]%elem_of_list_lookup.
      destruct (decide (i = j)) as [->|Hij].
      - rewrite list_lookup_insert in Hj by (by eapply lookup_lt_Some). injection Hj as <-.
        rewrite Hk. by apply Hw.
      - rewrite list_lookup_insert_ne in Hj by done. apply Hw. by eapply elem_of_list_lookup_2. }
    unfold poll_wrapper in Hp.
    destruct (wr_inner w) as [[|[rows|] rest]|]; injection Hp as <- <-.
    - split; [|set_solver]. intros v Hv. apply Hw.
      eapply elem_of_submseteq; [exact Hv|]. apply sublist_submseteq, sublist_delete.
    - split; [by apply Hins|]. intros k rows' [= -> ->]%elem_of_list_singleton. by apply Hw.
    - split; [by apply Hins|]. intros k rows' ?%elem_of_list_singleton. done.
    - split; [|set_solver]. intros v Hv. apply Hw.
      eapply elem_of_submseteq; [exact Hv|]. apply sublist_submseteq, sublist_delete. }
  destruct s as [inner|inner| |].
  - specialize (IH1 inner (or_introl eq_refl)). destruct e as [k c| | |i|]; cbn [out_step].
    + destruct (existsb _ _); cbn [fst snd]; (split; [|set_solver]); intros inner' [[= <-]|[=]].
      intros w [(w0 & -> & Hw0)%elem_of_map_iff|Hw]%elem_of_app.
      * unfold mute_if_needed. apply IH1 in Hw0. destruct (same_slot _ _); cbn; set_solver.
      * apply elem_of_list_singleton in Hw as ->. cbn. set_solver.
    + cbn. split; [|set_solver]. intros inner' [[=]|[=]].
    + cbn. rewrite app_nil_r. split; [|set_solver]. intros inner' [[=]|[= <-]]. set_solver.
    + destruct (poll_inner i inner) as [inner' o] eqn:Ep.
      destruct (Hpoll _ _ _ _ Ep IH1) as [H1 H2]. cbn [fst snd].
      split; [intros inner'' [[= <-]|[=]]; set_solver|set_solver].
    + cbn. rewrite app_nil_r. split; [|set_solver]. intros inner' [[= <-]|[=]]. set_solver.
  - specialize (IH1 inner (or_intror eq_refl)).
    destruct e as [k c| | |i|]; cbn [out_step].
    + destruct inner as [|w inner]; cbn; rewrite app_nil_r;
        (split; [|set_solver]); intros inner' [[=]|[= <-]]; set_solver.
    + destruct inner as [|w inner]; cbn; rewrite app_nil_r;
        (split; [|set_solver]); intros inner' [[=]|[= <-]]; set_solver.
    + destruct inner as [|w inner]; cbn; rewrite app_nil_r;
        (split; [|set_solver]); intros inner' [[=]|[= <-]]; set_solver.
    + destruct (poll_inner i inner) as [inner' o] eqn:Ep.
      destruct (Hpoll _ _ _ _ Ep IH1) as [H1 H2].
      destruct inner; cbn [fst snd]; (split; [intros inner'' [[=]|[= <-]]; set_solver|set_solver]).
    + destruct inner as [|w inner]; cbn.
      * split; [intros inner' [[=]|[=]]|set_solver].
      * rewrite app_nil_r. split; [|set_solver]. intros inner' [[=]|[= <-]]; set_solver.
  - destruct e; cbn; rewrite app_nil_r; (split; [|set_solver]); intros inner' [[=]|[=]].
  - destruct e; cbn; rewrite app_nil_r; (split; [|set_solver]); intros inner' [[=]|[=]].
Qed.

Lemma all_rows es :
  closed_last es -> retries_in_time es -> clean_end es ->
  all_received (out_run out_init es).2 ≡ₚ flat_map (fun x => expected_for x es) (remove_dups (slots es)).
Proof.
  intros Hc Hr He.
  rewrite (all_received_slots _ (remove_dups (slots es))).
  - apply Permutation_refl'. apply flat_map_ext. intros x. by apply exactly_once.
  - apply NoDup_remove_dups.
  - intros k rows Hin. apply elem_of_remove_dups. by eapply rows_have_slot.
Qed.

Lemma no_retry_in_time es : no_retry es -> retries_in_time es.
Proof.
  intros Hn es1 k c es2 -> c0 Hc0. exfalso. unfold no_retry in Hn.
  rewrite slots_app in Hn. apply NoDup_app in Hn as (_ & Hd & _).
  apply last_Some in Hc0 as [l Hl].
  assert (c0 ∈ arrivals (slot_of k) es1) as Hin by (rewrite Hl; set_solver).
  unfold arrivals in Hin. apply elem_of_list_omap in Hin as (e & He & Hm).
  destruct e as [k' c'| | | |]; try done. destruct (decide (slot_of k' = slot_of k)) as [Hk|]; [|done].
  apply (Hd (slot_of k)).
  - unfold slots. apply elem_of_list_omap. exists (EStream k' c'). by rewrite Hk.
  - unfold slots. cbn. set_solver.
Qed.

Lemma remove_dups_NoDup {B} `{EqDecision B} (l : list B) : NoDup l -> remove_dups l = l.
Proof.
  induction 1 as [|x l Hx Hnd IH]; [done|]. cbn. destruct (decide_rel _ x l); [done|]. by rewrite IH.
Qed.
Lemma all_rows_no_retry es :
  closed_last es -> no_retry es -> clean_end es ->
  all_received (out_run out_init es).2 ≡ₚ flat_map (fun x => expected_for x es) (slots es).
Proof.
  intros Hc Hn He. rewrite all_rows by (try done; by apply no_retry_in_time).
  by rewrite remove_dups_NoDup.
Qed.

Lemma out_run_app s es1 es2 :
  out_run s (es1 ++ es2) =
  ((out_run (out_run s es1).1 es2).1, (out_run s es1).2 ++ (out_run (out_run s es1).1 es2).2).
Proof.
  revert s. induction es1 as [|e es1 IH]; intros s; cbn [app out_run].
  - cbn. by destruct (out_run s es2).
  - destruct (out_step s e) as [s1 o1]. rewrite IH. destruct (out_run s1 es1) as [s2 o2]. cbn.
    by rewrite app_assoc.
Qed.
Lemma failed_stays es : out_run (@OFailed A) es = (OFailed, []).
Proof. induction es as [|e es IH]; [done|]. cbn. by destruct e; rewrite IH. Qed.

Lemma late_replacement es k c es' :
  closed_last (es ++ [EStream k c]) -> retries_in_time es ->
  RError ∉ (out_run out_init es).2 ->
  received_for (slot_of k) (out_run out_init es).2 <> [] ->
  received_for (slot_of k) (out_run out_init es).2 <> expected_for (slot_of k) es ->
  RError ∈ (out_run out_init (es ++ EStream k c :: es')).2 /\
  forall x, received_for x (out_run out_init (es ++ EStream k c :: es')).2
          = received_for x (out_run out_init es).2.
Proof.
  intros Hc Hr Hne Hsome Hless.
  pose proof (run_ok_reachable es (closed_last_prefix _ _ Hc) Hr Hne) as Hok.
  unfold run_ok in Hok. rewrite out_run_app. cbn [out_run snd].
  destruct (out_run out_init es) as [s out] eqn:E. cbn [fst snd] in *.
  assert (EClose ∉ es) as Hncl.
  { intros Hin. apply elem_of_list_split in Hin as (l1 & l2 & ->).
    assert (slots (l2 ++ [EStream k c]) = []) as Hs.
    { apply (Hc l1). by rewrite <- app_assoc. }
    rewrite slots_app in Hs. apply app_eq_nil in Hs as [_ Hs]. done. }
  destruct s as [inner|inner| |]; [|by destruct Hok|by destruct Hok|done].
  destruct Hok as [Hg _]. specialize (Hg (slot_of k)). unfold slot_ok in Hg.
  assert (existsb (conflicts_with k) inner = true) as Hconf.
  { destruct (filter (reading (slot_of k)) inner) as [|w [|]] eqn:Ef; [done| |done].
    destruct Hg as (rest & _ & _ & Hcnt).
    assert (w ∈ filter (reading (slot_of k)) inner) as Hw by (rewrite Ef; set_solver).
    apply elem_of_list_filter in Hw as [[Hs _] Hw].
    apply existsb_exists. exists w. split; [by apply elem_of_list_In|].
    unfold conflicts_with. apply andb_true_iff. split; [by apply same_slot_iff|].
    destruct (wr_count w); [|done]. symmetry in Hcnt. by apply nil_length_inv in Hcnt. }
  cbn [out_step]. rewrite Hconf, failed_stays. cbn. split; [set_solver|].
  intros x. rewrite received_app. cbn. by rewrite app_nil_r.
Qed.
End proofs.
