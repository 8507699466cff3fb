From Coq Require Import NArith ZifyN Ascii String Lia.
From stdpp Require Import prelude list gmap.
From Verif Require Import Lib.Text Checkpoint.CheckpointModel Checkpoint.CheckpointSpec
  Checkpoint.CheckpointProofs.
Local Open Scope N_scope.

Section write.
Context {Row : Type} (psize : list Row -> N) (uuid_ok : text -> bool).
Implicit Types bs : list (option (list Row)).

Lemma mapM_id_cons b bs : mapM id (Some b :: bs) =
  match mapM id bs with Some l => Some (b :: l) | None => None end.
Proof. reflexivity. Qed.
Lemma mapM_id_none bs : mapM id bs = None <-> None ∈ bs.
Proof.
  induction bs as [|[b|] bs IH].
  - split; [done|]. intros H. by apply elem_of_nil in H.
  - rewrite mapM_id_cons, elem_of_cons.
    destruct (mapM id bs) as [l|].
    + split; [intros H; discriminate H|]. intros [?|?]; [done|].
      assert (Some l = None) by (by apply IH). done.
    + split; [|done]. intros _. right. by apply IH.
  - split; [intros _; left|done].
Qed.
Lemma mapM_id_map (bl : list (list Row)) : mapM id (map Some bl) = Some bl.
Proof.
  induction bl as [|b bl IH]; [done|]. cbn [map]. by rewrite mapM_id_cons, IH.
Qed.
Lemma mapM_id_some bs bl : mapM id bs = Some bl -> bs = map Some bl.
Proof.
  revert bl. induction bs as [|[b|] bs IH]; intros bl H.
  - cbn in H. apply (inj Some) in H as <-. done.
  - rewrite mapM_id_cons in H. destruct (mapM id bs) as [l|]; [|done].
    apply (inj Some) in H as <-. cbn [map]. f_equal. by apply IH.
  - done.
Qed.

Lemma first_batch_error nc c bs : None ∈ bs ->
  match first_batch nc c bs with
  | Some (_, Some (_, rest)) => None ∈ rest
  | Some (_, None) => False
  | None => True
  end.
Proof.
  revert c. induction bs as [|[b|] bs IH]; intros c H; cbn [first_batch].
  - by apply elem_of_nil in H.
  - apply elem_of_cons in H as [H|H]; [done|]. cbv zeta.
    destruct (u64_max <? _); [done|].
    destruct (nc || (length b =? 0)%nat); [by apply IH|done].
  - done.
Qed.
Lemma write_error nc pre p u bs : None ∈ bs -> write_partition psize nc pre p u bs = None.
Proof.
  intros H. unfold write_partition. pose proof (first_batch_error nc 0 bs H) as G.
  destruct (first_batch nc 0 bs) as [[c [[b rest]|]]|]; [|done|done].
  apply mapM_id_none in G. by rewrite G.
Qed.

Definition written (nc : bool) (pre : path) (p : N) (u : text) (bl : list (list Row))
    : option (path * list Row) * meta :=
  let rows := concat bl in
  let loc := pre ++ [part_name p u] in
  if nc || (length rows =? 0)%nat then (None, Meta p None 0 (count_rows bl))
  else (Some (loc, rows), Meta p (Some loc) (psize rows) (count_rows bl)).

Lemma first_batch_ok nc c (bl : list (list Row)) : c + count_rows bl <= u64_max ->
  match first_batch nc c (map Some bl) with
  | None => False
  | Some (c', None) => nc || (length (concat bl) =? 0)%nat = true /\ c' = c + count_rows bl
  | Some (_, Some (b, rest)) =>
    nc || (length (concat bl) =? 0)%nat = false /\
    exists rl, rest = map Some rl /\ b ++ concat rl = concat bl
  end.
Proof.
  revert c. induction bl as [|b bl IH]; intros c H; cbn [map first_batch].
  - cbn [concat length]. rewrite orb_true_r. split; [done|]. unfold count_rows. cbn. lia.
  - assert (Hc : count_rows (b :: bl) = N.of_nat (length b) + count_rows bl).
    { unfold count_rows. cbn [concat]. rewrite app_length. lia. }
    cbv zeta. destruct (N.ltb_spec u64_max (c + N.of_nat (length b))); [lia|].
    destruct (nc || (length b =? 0)%nat) eqn:E.
    + specialize (IH (c + N.of_nat (length b)) ltac:(lia)).
      assert (E2 : nc || (length (concat (b :: bl)) =? 0)%nat
        = nc || (length (concat bl) =? 0)%nat).
      { destruct nc; [done|]. cbn [orb] in *. apply Nat.eqb_eq in E.
        cbn [concat]. rewrite app_length, E. done. }
      rewrite E2. destruct (first_batch nc (c + N.of_nat (length b)) (map Some bl)) as [[c' [[b' rest]|]]|].
      * destruct IH as [H1 (rl & H2 & H3)]. split; [done|]. exists rl. split; [done|].
        rewrite H3. apply orb_false_iff in H1 as [-> _]. cbn [orb] in E. apply Nat.eqb_eq in E.
        destruct b; [done|done].
      * destruct IH as [H1 ->]. split; [done|]. lia.
      * done.
    + apply orb_false_iff in E as [-> E]. split.
      * cbn [orb]. apply Nat.eqb_neq in E. apply Nat.eqb_neq. cbn [concat]. rewrite app_length. lia.
      * by exists bl.
Qed.

Lemma write_ok nc pre p u (bl : list (list Row)) : count_rows bl <= u64_max ->
  write_partition psize nc pre p u (map Some bl) = Some (written nc pre p u bl).
Proof.
  intros H. unfold write_partition, written. pose proof (first_batch_ok nc 0 bl ltac:(lia)) as G.
  destruct (first_batch nc 0 (map Some bl)) as [[c' [[b rest]|]]|]; [|..|done].
  - destruct G as [G1 (rl & -> & G2)]. rewrite G1, mapM_id_map. rewrite G2. done.
  - destruct G as [G1 ->]. rewrite G1. done.
Qed.

Lemma write_gives nc pre p u bs f m : write_partition psize nc pre p u bs = Some (f, m) ->
  match f with Some (loc, _) => loc = pre ++ [part_name p u] | None => True end.
Proof.
  unfold write_partition. destruct (first_batch nc 0 bs) as [[c' [[b rest]|]]|]; [..|done].
  - destruct (mapM id rest) as [l|]; [|done]. intros H. apply (inj Some), (inj2 pair) in H as [<- _].
    done.
  - intros H. apply (inj Some), (inj2 pair) in H as [<- _]. done.
Qed.

(** ** Writing, collecting and reading *)
Context (psize_pos : forall rows, psize rows <> 0).

Lemma written_acceptable nc pre p u bl : uuid_ok u = true ->
  acceptable uuid_ok nc pre (written nc pre p u bl).2.
Proof.
  intros Hu. unfold written. destruct (nc || (length (concat bl) =? 0)%nat) eqn:E; cbn [snd].
  - unfold acceptable. cbn [m_location m_size m_rows]. split; [done|].
    destruct nc; [by right|]. left. cbn [orb] in E. apply Nat.eqb_eq in E. unfold count_rows.
    by rewrite E.
  - apply orb_false_iff in E as [-> E]. apply Nat.eqb_neq in E. unfold acceptable.
    cbn [m_location m_size m_rows m_partition]. split; [done|]. split; [apply psize_pos|]. split.
    + unfold count_rows. lia.
    + exists u. split; [done|]. unfold part_name, part_start. by rewrite <- !(assoc_L app).
Qed.

Lemma repeat_blank (blank : Row) (l : list Row) :
  (forall r, r ∈ l -> r = blank) -> repeat blank (length l) = l.
Proof.
  induction l as [|x l IH]; intros H; [done|]. cbn [length repeat]. f_equal.
  - symmetry. apply H. left.
  - apply IH. intros r Hr. apply H. by right.
Qed.

Lemma read_written (blank : Row) nc pre p u bl store :
  (nc = true -> forall r, r ∈ concat bl -> r = blank) ->
  (forall loc rows, (written nc pre p u bl).1 = Some (loc, rows) -> store !! loc = Some rows) ->
  read_part psize blank nc store (entry (written nc pre p u bl).2) = Some (concat bl).
Proof.
  intros Hb Hs. unfold read_part. destruct nc.
  - unfold written. cbn [orb snd]. unfold entry. cbn [m_rows p_rows]. unfold count_rows.
    rewrite Nnat.Nat2N.id. by rewrite repeat_blank by (by apply Hb).
  - revert Hs. unfold written. cbn [orb]. destruct (length (concat bl) =? 0)%nat eqn:E; cbn [fst snd].
    + intros _. unfold entry. cbn [m_location p_file]. apply Nat.eqb_eq in E.
      by destruct (concat bl).
    + intros Hs. unfold entry. cbn [m_location m_size p_file].
      rewrite (Hs _ _ eq_refl). by rewrite N.eqb_refl.
Qed.

Lemma round_trip nc pre (l : attempts Row) (blank : Row) store ms :
  l <> [] -> sound_attempts uuid_ok l -> blank_rows nc blank l ->
  (forall i a loc rows m, l !! i = Some a ->
     write_partition psize nc pre (N.of_nat i) a.1 (map Some a.2) = Some (Some (loc, rows), m) ->
     store !! loc = Some rows) ->
  ms ≡ₚ metadata psize nc pre l ->
  exists parts, collect uuid_ok nc pre ms = Some parts /\ length parts = length l /\
    map (read_part psize blank nc store) parts = map (fun a => Some (concat a.2)) l.
Proof.
  intros Hne Hs Hb Hst Hms.
  set (w := fun i (a : text * list (list Row)) => written nc pre (N.of_nat i) a.1 a.2).
  assert (Hw : forall i a, l !! i = Some a ->
    write_partition psize nc pre (N.of_nat i) a.1 (map Some a.2) = Some (w i a)).
  { intros i a Ha. apply write_ok. unfold sound_attempts in Hs. rewrite list.Forall_forall in Hs.
    apply Hs. by eapply elem_of_list_lookup_2. }
  assert (Hmd : metadata psize nc pre l = map Some (imap (fun i a => (w i a).2) l)).
  { apply list_eq. intros i. unfold metadata.
    change (map Some (imap (fun i a => (w i a).2) l)) with (Some <$> imap (fun i a => (w i a).2) l).
    rewrite list_lookup_fmap, !list_lookup_imap.
    destruct (l !! i) as [a|] eqn:Ha; [|done]. cbn [fmap option_fmap option_map].
    rewrite (Hw i a Ha). done. }
  set (mm := imap (fun i a => (w i a).2) l) in *.
  assert (Hlen : length mm = length l) by (unfold mm; apply imap_length).
  exists (map entry mm). split; [|split].
  - apply collect_iff. exists mm. split; [by rewrite Hms, Hmd|]. split.
    { intros E. rewrite E in Hlen. by destruct l. }
    split.
    { apply Forall_lookup. intros i m Hm. unfold mm in Hm. rewrite list_lookup_imap in Hm.
      destruct (l !! i) as [a|] eqn:Ha; [|done]. cbn [fmap option_fmap option_map] in Hm.
      apply (inj Some) in Hm as <-. apply written_acceptable.
      unfold sound_attempts in Hs. rewrite list.Forall_forall in Hs.
      apply Hs. by eapply elem_of_list_lookup_2. }
    split; [|done]. apply list_eq. intros i.
    change (map m_partition mm) with (m_partition <$> mm). unfold numbers.
    change (map N.of_nat (seq 0 (length mm))) with (N.of_nat <$> seq 0 (length mm)).
    rewrite !list_lookup_fmap. unfold mm at 1. rewrite list_lookup_imap.
    destruct (l !! i) as [a|] eqn:Ha.
    + rewrite lookup_seq_lt by (rewrite Hlen; by apply lookup_lt_is_Some; eauto).
      cbn [fmap option_fmap option_map]. f_equal. unfold w, written.
      by destruct (nc || _).
    + apply lookup_ge_None in Ha. rewrite lookup_seq_ge by lia. done.
  - by rewrite map_length.
  - apply list_eq. intros i. rewrite map_map.
    change (map (fun x => read_part psize blank nc store (entry x)) mm)
      with ((fun x => read_part psize blank nc store (entry x)) <$> mm).
    change (map (fun a : text * list (list Row) => Some (concat a.2)) l)
      with ((fun a : text * list (list Row) => Some (concat a.2)) <$> l).
    rewrite !list_lookup_fmap. unfold mm. rewrite list_lookup_imap.
    destruct (l !! i) as [a|] eqn:Ha; [|done]. cbn [fmap option_fmap option_map]. f_equal.
    apply read_written.
    + intros Hnc r Hr. eapply Hb; [done| |exact Hr]. by eapply elem_of_list_lookup_2.
    + intros loc rows Hf. apply (Hst i a loc rows (w i a).2 Ha). rewrite (Hw i a Ha).
      rewrite (surjective_pairing (w i a)). f_equal. f_equal. exact Hf.
Qed.

End write.
