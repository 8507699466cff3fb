(** Proofs about writers of a path-based Iceberg table. *)
From Coq Require Import NArith ZifyN Lia.
From stdpp Require Import prelude list gmap sorting.
From Verif.Lib Require Import ListFacts.
From Verif.Iceberg Require Import SnapshotModel SnapshotSpec SnapshotProofs CommitModel CommitSpec.

(** ** The metadata directory *)
Lemma files_of_app v a b : files_of v (a ++ b) = files_of v a ++ files_of v b.
Proof. apply filter_app. Qed.
Lemma elem_files_of x v fs : x ∈ files_of v fs <-> x.1.1 = v /\ x ∈ fs.
Proof. unfold files_of. by rewrite elem_of_list_filter. Qed.
Lemma read_of v g m fs : files_of v fs = [(v, g, m)] -> read_file (v, g) fs = Some m.
Proof.
  unfold read_file, files_of. induction fs as [|[[v' g'] m'] fs IH]; [done|]. rewrite filter_cons. cbn [fst find].
  destruct (decide (v' = v)) as [->|Hv].
  - intros [= -> -> H]. by rewrite bool_decide_true.
  - intros H. rewrite bool_decide_false by congruence. by apply IH.
Qed.
Lemma latest_of v k m fs : files_of v fs = [(k, m)] -> find_latest (Some v) fs = Some k.
Proof. intros H. unfold find_latest. by rewrite H. Qed.
Lemma has_file_none k fs : files_of k.1 fs = [] -> has_file k fs = false.
Proof.
  intros H. apply bool_decide_eq_false. intros (x & -> & Hx)%elem_of_map_iff.
  assert (x ∈ files_of x.1.1 fs) as H' by (by apply elem_files_of). rewrite H in H'. by apply elem_of_nil in H'.
Qed.
Lemma has_file_one k m fs : files_of k.1 fs = [(k, m)] -> has_file k fs = true.
Proof.
  intros H. apply bool_decide_eq_true. apply elem_of_map_iff. exists (k, m). split; [done|].
  apply (proj1 (elem_files_of _ k.1 _)). rewrite H. left.
Qed.
Lemma delete_absent k fs : has_file k fs = false -> delete_file k fs = fs.
Proof.
  intros H. apply bool_decide_eq_false in H. unfold delete_file. induction fs as [|x fs IH]; [done|]. rewrite filter_cons.
  cbn [map] in H. rewrite not_elem_of_cons in H. destruct H as [H1 H2]. rewrite decide_True by congruence. by rewrite IH.
Qed.

Lemma none_above v b (fs : list (nat * bool * meta)) : Forall (fun x => (x.1.1 <= b)%nat) fs -> (b < v)%nat -> files_of v fs = [].
Proof.
  intros H Hv. induction H as [|x l Hx Hl IH]; [done|]. unfold files_of. rewrite filter_cons, decide_False by lia. apply IH.
Qed.

(** ** Commits one after the other *)
Fixpoint tail_files (b : nat) (g : bool) (m : meta) (log : list entry) : list (nat * bool * meta) :=
  match log with
  | [] => []
  | x :: log => (S b, g, apply_commit m (e_sid x) (e_commit x)) :: tail_files (S b) g (apply_commit m (e_sid x) (e_commit x)) log
  end.
Lemma tail_snoc b g m log x : tail_files b g m (log ++ [x]) = tail_files b g m log ++ [(S (b + length log), g, committed m (log ++ [x]))].
Proof.
  revert b m. induction log as [|y log IH]; intros b m; cbn [app tail_files length].
  - by rewrite Nat.add_0_r.
  - rewrite IH. by rewrite Nat.add_succ_r.
Qed.
Lemma tail_none v b g m log : (v <= b \/ b + length log < v)%nat -> files_of v (tail_files b g m log) = [].
Proof.
  revert b m. induction log as [|y log IH]; intros b m H; cbn [tail_files length] in *; [done|]. unfold files_of. rewrite filter_cons. cbn [fst].
  rewrite decide_False by lia. apply IH. lia.
Qed.
Lemma tail_one k b g m log : (k < length log)%nat -> files_of (S (b + k)) (tail_files b g m log) = [(S (b + k), g, committed m (take (S k) log))].
Proof.
  revert b m k. induction log as [|y log IH]; intros b m k H; cbn [tail_files length] in *; [lia|]. unfold files_of. rewrite filter_cons. cbn [fst].
  destruct k as [|k].
  - rewrite Nat.add_0_r, decide_True by done. f_equal. apply tail_none. lia.
  - rewrite decide_False by lia. rewrite Nat.add_succ_r. rewrite <- Nat.add_succ_l. fold (files_of (S (S b + k)) (tail_files (S b) g (apply_commit m (e_sid y) (e_commit y)) log)). rewrite IH by lia. done.
Qed.
Lemma committed_snoc m log x : committed m (log ++ [x]) = apply_commit (committed m log) (e_sid x) (e_commit x).
Proof. unfold committed. by rewrite fold_left_app. Qed.
Lemma committed_gz m log : m_gz (committed m log) = m_gz m.
Proof. revert m. induction log as [|x log IH]; intros m; [done|]. cbn. change (fold_left _ log ?y) with (committed y log). by rewrite IH. Qed.
Lemma phase_set w i j ph i' : phase_of (set_phase i j ph w) i' = if decide (i' = i) then Some ph else phase_of w i'.
Proof. unfold phase_of. cbn [set_phase w_writers]. destruct (decide _) as [->|]; [by rewrite lookup_insert|by rewrite lookup_insert_ne]. Qed.

(** ** The invariant *)
Section serial.
Context (m0 : meta) (b : nat) (fs0 : list (nat * bool * meta)).
Context (base_last : files_of b fs0 = [(b, m_gz m0, m0)]).
Context (base_max : Forall (fun x : nat * bool * meta => (x.1.1 <= b)%nat) fs0).

Definition at_version (L : list entry) (k : nat) : meta := committed m0 (take k L).
(** What a writer knows; [n] commits are visible, [L] are written. *)
Definition phase_ok (L : list entry) (n sid : nat) (i : nat) (j : job) (ph : phase) : Prop :=
  exists c rs gz, j = JCommit c rs gz /\ requirements_hold None rs = false /\
  match ph with
  | PHint _ => i ∉ map e_writer L
  | PList _ h => i ∉ map e_writer L /\ exists k, (k <= n)%nat /\ h = Some (b + k)%nat
  | PLoad _ v g => i ∉ map e_writer L /\ exists k, (k <= n)%nat /\ v = (b + k)%nat /\ g = m_gz m0
  | PNext _ v m => i ∉ map e_writer L /\ exists k, (k <= n)%nat /\ v = (b + k)%nat /\ m = at_version L k /\ requirements_hold (Some m) rs = true
  | PPut _ v m s => i ∉ map e_writer L /\ exists k, (k <= n)%nat /\ v = S (b + k) /\ m = apply_commit (at_version L k) s c /\
      requirements_hold (Some (at_version L k)) rs = true /\ s ∉ map s_id (m_snaps (at_version L k)) /\ (s < sid)%nat
  | PVerify _ v g s => v = S (b + n) /\ g = m_gz m0 /\ exists x, L !! n = Some x /\ e_writer x = i
  | PHintWrite v => v = S (b + n) /\ exists x, L !! n = Some x /\ e_writer x = i
  | PBroken => exists x, L !! n = Some x /\ e_writer x = i
  | PBoot _ _ _ => False
  | PDone => i ∈ map e_writer (take n L)
  | PFailed => i ∉ map e_writer L
  end.
Record inv (w : world) (L : list entry) (n : nat) : Prop := {
  inv_files : w_files w = fs0 ++ tail_files b (m_gz m0) m0 L;
  inv_hint : w_hint w = Some (b + n)%nat;
  inv_len : (n <= length L <= S n)%nat;
  inv_once : NoDup (map e_writer L);
  inv_ids : forall k, Forall (fun s => (s_id s < w_sid w)%nat) (m_snaps (at_version L k));
  inv_snap : forall k, current_snapshot (at_version L k) <> None;
  inv_phase : forall i j ph, w_writers w !! i = Some (j, ph) -> phase_ok L n (w_sid w) i j ph;
  inv_log : forall pre x post, L = pre ++ x :: post -> exists rs gz ph, w_writers w !! e_writer x = Some (JCommit (e_commit x) rs gz, ph) /\
    requirements_hold (Some (committed m0 pre)) rs = true;
  inv_vis : forall i, i ∈ map e_writer (take n L) -> phase_of w i = Some PDone }.

Lemma version_file L k : (k <= length L)%nat ->
  files_of (b + k) (fs0 ++ tail_files b (m_gz m0) m0 L) = [((b + k)%nat, m_gz m0, at_version L k)].
Proof.
  intros Hk. rewrite files_of_app. destruct k as [|k].
  - rewrite Nat.add_0_r, base_last, tail_none by lia. done.
  - rewrite Nat.add_succ_r, tail_one by lia. enough (files_of (S (b + k)) fs0 = []) as -> by done.
    by apply none_above with b; [|lia].
Qed.
Lemma no_version L v : (b + length L < v)%nat -> files_of v (fs0 ++ tail_files b (m_gz m0) m0 L) = [].
Proof.
  intros Hv. rewrite files_of_app, tail_none by lia. rewrite app_nil_r.
  by apply none_above with b; [|lia].
Qed.
Lemma at_version_app L x k : (k <= length L)%nat -> at_version (L ++ [x]) k = at_version L k.
Proof. intros H. unfold at_version. by rewrite take_app_le. Qed.

(** Changing the phase of one writer only. *)
Lemma inv_set w L n i j ph ph' : inv w L n -> w_writers w !! i = Some (j, ph) -> ph <> PDone -> phase_ok L n (w_sid w) i j ph' -> inv (set_phase i j ph' w) L n.
Proof.
  intros Hw Hi Hne Hok. destruct Hw as [H1 H2 H3 H4 H5 H6 H7 H8 H9]. constructor; try done.
  - intros i' j' p. cbn [set_phase w_writers]. destruct (decide (i' = i)) as [->|Hn].
    + rewrite lookup_insert. intros [= <- <-]. done.
    + rewrite lookup_insert_ne by done. apply H7.
  - intros pre x post E. destruct (H8 pre x post E) as (rs & gz & p & Hx & Hr). cbn [set_phase w_writers].
    destruct (decide (e_writer x = i)) as [Ei|Hn].
    + rewrite Ei in *. rewrite lookup_insert. exists rs, gz, ph'. split; [|done]. rewrite Hi in Hx. by injection Hx as -> ->.
    + rewrite lookup_insert_ne by done. eauto.
  - intros i' Hi'. rewrite phase_set. destruct (decide _) as [->|]; [|by apply H9].
    exfalso. apply Hne. apply H9 in Hi'. unfold phase_of in Hi'. rewrite Hi in Hi'. by injection Hi'.
Qed.
Lemma inv_fail w L n i j ph : inv w L n -> w_writers w !! i = Some (j, ph) -> ph <> PDone -> i ∉ map e_writer L -> inv (fail i j w) L n.
Proof.
  intros Hw Hi Hne Hl. destruct (inv_phase _ _ _ Hw i j ph Hi) as (c & rs & gz & -> & Hrs & _).
  assert (inv (set_phase i (JCommit c rs gz) PFailed w) L n) as [] by (eapply inv_set; eauto; exists c, rs, gz; done).
  constructor; done.
Qed.
Lemma inv_clean w L n s : inv w L n -> inv (clean_snapshot s w) L n.
Proof. intros []. by constructor. Qed.
Lemma inv_retry w L n i j a ph : inv w L n -> w_writers w !! i = Some (j, ph) -> ph <> PDone -> i ∉ map e_writer L -> inv (retry i j a w) L n.
Proof.
  intros Hw Hi Hne Hl. unfold retry. destruct (_ <=? _)%nat; [by eapply inv_fail|]. destruct (inv_phase _ _ _ Hw i j ph Hi) as (c & rs & gz & -> & Hrs & _).
  eapply inv_set; eauto. exists c, rs, gz. done.
Qed.
Lemma phase_ok_sid L n s i j ph : phase_ok L n s i j ph -> phase_ok L n (S s) i j ph.
Proof.
  intros (c & rs & gz & -> & Hrs & H). exists c, rs, gz. split; [done|]. split; [done|]. destruct ph; try done.
  destruct H as (Hi & k & H1 & H2 & H3 & H4 & H5 & H6). split; [done|]. exists k. repeat split; auto; lia.
Qed.
Lemma inv_take w L n : inv w L n -> inv (take_sid w) L n.
Proof.
  intros []. constructor; try done.
  - intros k. eapply Forall_impl; [apply inv_ids0|]. cbn. intros. lia.
  - intros i j ph Hi. apply phase_ok_sid. by apply inv_phase0.
Qed.
Lemma hint_mono L n s i j ph : phase_ok L n s i j ph -> match ph with PVerify _ _ _ _ | PHintWrite _ | PBroken => False | _ => True end ->
  phase_ok L (S n) s i j ph.
Proof.
  intros (c & rs & gz & -> & Hrs & H) Hp. exists c, rs, gz. split; [done|]. split; [done|]. destruct ph; try done.
  - destruct H as (Hi & k & H1 & H2). split; [done|]. exists k. split; [lia|done].
  - destruct H as (Hi & k & H1 & H2). split; [done|]. exists k. split; [lia|done].
  - destruct H as (Hi & k & H1 & H2). split; [done|]. exists k. split; [lia|done].
  - destruct H as (Hi & k & H1 & H2). split; [done|]. exists k. split; [lia|done].
  - apply elem_of_map_iff in H as (x & -> & Hx). apply elem_of_map_iff. exists x. split; [done|]. eapply elem_of_list_lookup in Hx as [q Hq].
    apply elem_of_list_lookup. exists q. rewrite lookup_take_Some in *. destruct Hq. split; [done|lia].
Qed.
Lemma log_mono L x n s i j ph : phase_ok L n s i j ph -> (n <= length L)%nat -> i <> e_writer x -> phase_ok (L ++ [x]) n s i j ph.
Proof.
  intros (c & rs & gz & -> & Hrs & H) Hlen Hne. exists c, rs, gz. split; [done|]. split; [done|].
  assert (i ∉ map e_writer L -> i ∉ map e_writer (L ++ [x])) as Hout.
  { rewrite map_app, not_elem_of_app. intros. split; [done|]. cbn. by rewrite elem_of_list_singleton. }
  assert (forall k y, L !! k = Some y -> (L ++ [x]) !! k = Some y) as Hlook by (intros k y Hy; by apply lookup_app_l_Some).
  destruct ph; try done.
  - by apply Hout.
  - destruct H as [H1 H2]. by split; [apply Hout|].
  - destruct H as [H1 H2]. by split; [apply Hout|].
  - destruct H as (H1 & k & H2 & H3 & H4 & H5). split; [by apply Hout|]. exists k. repeat split; auto. rewrite at_version_app by lia. done.
  - destruct H as (H1 & k & H2 & H3 & H4 & H5). split; [by apply Hout|]. exists k. rewrite at_version_app by lia. done.
  - destruct H as (H1 & H2 & y & H3 & H4). repeat split; auto. exists y. auto.
  - destruct H as (H1 & y & H3 & H4). split; [done|]. exists y. auto.
  - by rewrite take_app_le by lia.
  - by apply Hout.
  - destruct H as (y & H3 & H4). exists y. auto.
Qed.

(** One step. *)
Lemma inv_step w L n i e : inv w L n -> match w_writers w !! i with Some (_, ph) => hints_work ph e = true | None => True end ->
  exists L' n', inv (step w (i, e)) L' n' /\ take n L `prefix_of` take n' L'.
Proof.
  intros Hw He. unfold step. cbn [fst snd]. destruct (w_writers w !! i) as [[j ph]|] eqn:Hi; [|by exists L, n].
  pose proof (inv_phase _ _ _ Hw i j ph Hi) as (c & rs & gz & -> & Hrs & Hph). pose proof (inv_files _ _ _ Hw) as Hf. pose proof (inv_len _ _ _ Hw) as Hlen.
  assert (forall w', inv w' L n -> exists L' n', inv w' L' n' /\ take n L `prefix_of` take n' L') as Hsame by (intros w' Hw'; by exists L, n).
  destruct ph as [a|a h|a v g|a v m|a v m s|a v g s|v m s|v| | |]; cbn [step_phase].
  - apply Hsame. eapply inv_set; [eassumption|eassumption|done|]. exists c, rs, gz. split; [done|]. split; [done|]. split; [done|]. exists n. split; [lia|]. destruct e; [|discriminate He| |]; by apply (inv_hint _ _ _ Hw).
  - destruct Hph as (Hout & k & Hk & ->). destruct (decide (e = ErrO)) as [->|Hne].
    + apply Hsame. destruct (a =? 1)%nat; [|by eapply inv_fail]. unfold new_table. rewrite Hrs. by eapply inv_fail.
    + assert (find_latest (Some (b + k)%nat) (w_files w) = Some ((b + k)%nat, m_gz m0)) as Hl. { rewrite Hf. eapply latest_of. apply version_file. lia. }
      assert ((match e with ErrO => None | _ => find_latest (Some (b + k)%nat) (w_files w) end) = Some ((b + k)%nat, m_gz m0)) as -> by (by destruct e).
      apply Hsame. eapply inv_set; [eassumption|eassumption|done|]. exists c, rs, gz. split; [done|]. split; [done|]. split; [done|]. by exists k.
  - destruct Hph as (Hout & k & Hk & -> & ->). assert (read_file ((b + k)%nat, m_gz m0) (w_files w) = Some (at_version L k)) as Hr.
    { rewrite Hf. apply read_of, version_file. lia. }
    rewrite Hr. apply Hsame. destruct (decide (e = ErrO)) as [->|Hne]; [by eapply inv_fail|].
    destruct (requirements_hold (Some (at_version L k)) rs) eqn:Er; [|destruct e; by eapply inv_fail].
    destruct (current_snapshot (at_version L k)) as [p|] eqn:Ep; [|exfalso; by eapply (inv_snap _ _ _ Hw k)].
    assert (inv (set_phase i (JCommit c rs gz) (PNext a (b + k) (at_version L k)) w) L n) as H.
    { eapply inv_set; [eassumption|eassumption|done|]. exists c, rs, gz. split; [done|]. split; [done|]. split; [done|]. exists k. done. }
    by destruct e.
  - destruct Hph as (Hout & k & Hk & -> & -> & Hr). apply Hsame. destruct (decide (e = ErrO)) as [->|Hne]; [by eapply inv_fail|].
    assert (inv (match files_of (S (b + k)) (w_files w) with
       | [] => set_phase i (JCommit c rs gz) (PPut a (S (b + k)) (apply_commit (at_version L k) (w_sid w) c) (w_sid w)) (take_sid w)
       | _ :: _ => retry i (JCommit c rs gz) a w end) L n) as H; [|by destruct e].
    destruct (files_of (S (b + k)) (w_files w)) as [|y ys]; [|by eapply inv_retry]. eapply (inv_set (take_sid w)); [by apply inv_take|exact Hi|done|]. exists c, rs, gz. split; [done|]. split; [done|]. split; [done|].
    exists k. split; [done|]. split; [done|]. split; [done|]. split; [done|]. split; [|cbn; lia].
    intros (s & Hs & Hin)%elem_of_map_iff. pose proof (inv_ids _ _ _ Hw k) as Hids. rewrite Forall_forall in Hids. specialize (Hids s Hin). lia.
  - destruct Hph as (Hout & k & Hk & -> & -> & Hr & Hfresh & Hs).
    assert (m_gz (apply_commit (at_version L k) s c) = m_gz m0) as Hg by (change (m_gz (at_version L k) = m_gz m0); apply committed_gz).
    rewrite Hg. destruct e; [|apply Hsame; eapply inv_fail; [by apply inv_clean|exact Hi|done|done]|discriminate He|discriminate He].
    destruct (has_file (S (b + k), m_gz m0) (w_files w)) eqn:Eh; [apply Hsame; eapply inv_retry; [by apply inv_clean|exact Hi|done|done]|].
    assert (k = length L) as ->.
    { destruct (decide (k = length L)); [done|]. exfalso. rewrite Hf in Eh. pose proof (version_file L (S k)) as Hv. rewrite Nat.add_succ_r in Hv.
      rewrite (has_file_one (S (b + k), m_gz m0) (at_version L (S k))) in Eh; [done|]. apply Hv. lia. }
    assert (n = length L) as -> by lia.
    set (x := Entry i s c). assert (committed m0 (L ++ [x]) = apply_commit (at_version L (length L)) s c) as Hc.
    { rewrite committed_snoc. unfold at_version. by rewrite firstn_all. }
    exists (L ++ [x]), (length L). split; [|by rewrite take_app_le by lia]. constructor; cbn [set_phase set_files w_files w_hint w_sid w_writers].
    + unfold put_file. rewrite Hg, delete_absent by done. rewrite Hf, tail_snoc, <- app_assoc, Hc. done.
    + apply (inv_hint _ _ _ Hw).
    + rewrite app_length. cbn. lia.
    + rewrite map_app. apply NoDup_app. split; [apply (inv_once _ _ _ Hw)|]. cbn [map]. split; [|apply NoDup_singleton].
      intros y Hy ->%elem_of_list_singleton. done.
    + intros k. destruct (decide (k <= length L)%nat) as [Hle|Hgt]; [rewrite at_version_app by done; apply (inv_ids _ _ _ Hw)|].
      unfold at_version. rewrite take_ge by (rewrite app_length; cbn; lia). rewrite Hc, apply_snaps. apply Forall_app. split; [apply (inv_ids _ _ _ Hw)|].
      constructor; [|constructor]. unfold new_snapshot. destruct (build_fields (current_snapshot (at_version L (length L)))
        (row_start (with_format (at_version L (length L)) (c_format c) (c_schema c))) (m_seq (at_version L (length L))) s c) as (-> & _). done.
    + intros k. destruct (decide (k <= length L)%nat) as [Hle|Hgt]; [rewrite at_version_app by done; apply (inv_snap _ _ _ Hw)|].
      unfold at_version. rewrite take_ge by (rewrite app_length; cbn; lia). rewrite Hc, apply_current by done. done.
    + intros i' j' ph'. destruct (decide (i' = i)) as [->|Hne].
      * rewrite lookup_insert. intros [= <- <-]. exists c, rs, gz. split; [done|]. split; [done|]. split; [done|]. split; [done|]. exists x. split; [|done].
        by apply list_lookup_middle.
      * rewrite lookup_insert_ne by done. intros Hi'. apply log_mono; [by apply (inv_phase _ _ _ Hw)|lia|done].
    + intros pre y post E. destruct (decide (e_writer y = i)) as [Ey|Hne].
      * assert (post = [] /\ y = x /\ pre = L) as (-> & -> & ->).
        { destruct post as [|z post _] using rev_ind; [apply app_inj_tail in E as [-> ->]; done|]. exfalso.
          rewrite app_comm_cons, app_assoc in E. apply app_inj_tail in E as [E _]. apply Hout. rewrite E, map_app. apply elem_of_app. right. cbn [map]. rewrite Ey. left. }
        exists rs, gz. eexists. cbn [e_writer x e_commit]. rewrite lookup_insert. split; [done|]. unfold at_version in Hr. by rewrite firstn_all in Hr.
      * rewrite lookup_insert_ne by done. destruct post as [|z post _] using rev_ind; [apply app_inj_tail in E as [-> <-]; done|].
        rewrite app_comm_cons, app_assoc in E. apply app_inj_tail in E as [E _]. by eapply (inv_log _ _ _ Hw).
    + intros i' Hi'. rewrite take_app_le in Hi' by lia. apply (inv_vis _ _ _ Hw) in Hi'. unfold phase_of. cbn [set_phase set_files set_hint w_writers].
      destruct (decide (i' = i)) as [->|Hne]; [|by rewrite lookup_insert_ne]. unfold phase_of in Hi'. rewrite Hi in Hi'. done.
  - destruct Hph as (-> & -> & x & Hx & Hxi). apply Hsame. assert (length L = S n) as HL by (apply lookup_lt_Some in Hx; lia).
    destruct (decide (e = ErrO)) as [->|Hne]; [eapply inv_set; [eassumption|eassumption|done|]; exists c, rs, gz; eauto 10|].
    assert (forallb (fun x : nat * bool * meta => bool_decide (x.1 = (S (b + n), m_gz m0))) (files_of (S (b + n)) (w_files w)) = true) as Hv.
    { rewrite Hf. pose proof (version_file L (S n)) as Hv. rewrite Nat.add_succ_r in Hv. rewrite Hv by lia. cbn [forallb fst]. by rewrite bool_decide_true. }
    rewrite Hv. assert (inv (set_phase i (JCommit c rs gz) (PHintWrite (S (b + n))) w) L n) as H; [|by destruct e].
    eapply inv_set; [eassumption|eassumption|done|]. exists c, rs, gz. split; [done|]. split; [done|]. split; [done|]. eauto.
  - done.
  - destruct Hph as (-> & x & Hx & Hxi). assert (length L = S n) as HL by (apply lookup_lt_Some in Hx; lia).
    assert ((match e with ErrO => w | _ => set_hint (S (b + n)) w end) = set_hint (S (b + n)) w) as -> by (by destruct e).
    assert (take (S n) L = take n L ++ [x]) as Htake by (by apply take_S_r).
    exists L, (S n). split; [|rewrite Htake; by exists [x]].
    destruct Hw as [H1 H2 H3 H4 H5 H6 H7 H8 H9]. constructor; cbn [set_phase set_hint w_files w_hint w_sid w_writers]; try done.
    + by rewrite Nat.add_succ_r.
    + lia.
    + intros i' j' ph'. destruct (decide (i' = i)) as [->|Hne].
      * rewrite lookup_insert. intros [= <- <-]. exists c, rs, gz. split; [done|]. split; [done|]. rewrite Htake, map_app. apply elem_of_app. right. rewrite <- Hxi. left.
      * rewrite lookup_insert_ne by done. intros Hi'. pose proof (H7 i' j' ph' Hi') as Hok. apply hint_mono; [done|].
        assert (~ exists y, L !! n = Some y /\ e_writer y = i') as Hno by (intros (y & Hy & Hyi); congruence).
        destruct Hok as (c' & rs' & gz' & _ & _ & Hok). destruct ph'; try done; apply Hno; naive_solver.
    + intros pre y post E. destruct (H8 pre y post E) as (rs' & gz' & p & Hy & Hr). destruct (decide (e_writer y = i)) as [Ey|Hne].
      * rewrite Ey, lookup_insert. exists rs', gz', PDone. split; [|done]. rewrite Ey, Hi in Hy. by injection Hy as -> -> -> _.
      * rewrite lookup_insert_ne by done. eauto.
    + intros i' Hi'. unfold phase_of. cbn [set_phase set_files set_hint w_writers]. destruct (decide (i' = i)) as [->|Hne]; [by rewrite lookup_insert|]. rewrite lookup_insert_ne by done.
      rewrite Htake, map_app in Hi'. apply elem_of_app in Hi' as [Hi'|Hi'%elem_of_list_singleton]; [by apply H9|congruence].
  - by apply Hsame.
  - by apply Hsame.
  - by apply Hsame.
Qed.
Lemma inv_run w L n l : inv w L n -> steps_ok hints_work w l = true -> exists L' n', inv (run w l) L' n' /\ take n L `prefix_of` take n' L'.
Proof.
  revert w L n. induction l as [|[i e] l IH]; intros w L n Hw Hl; [by exists L, n|]. cbn [steps_ok fst snd] in Hl. apply andb_prop in Hl as [H1 H2].
  destruct (inv_step w L n i e Hw) as (L1 & n1 & Hw1 & Hp1); [destruct (w_writers w !! i) as [[? ?]|]; done|].
  destruct (IH _ _ _ Hw1 H2) as (L2 & n2 & Hw2 & Hp2). exists L2, n2. split; [done|]. by etrans.
Qed.
Lemma inv_serial w L n : inv w L n -> serial m0 w (take n L).
Proof.
  intros Hw. pose proof (inv_len _ _ _ Hw) as Hlen. constructor.
  - unfold visible. rewrite (inv_hint _ _ _ Hw), (inv_files _ _ _ Hw).
    rewrite (latest_of _ _ _ _ (version_file L n ltac:(lia))). cbn [mbind option_bind]. apply read_of, version_file. lia.
  - intros i. split; [apply (inv_vis _ _ _ Hw)|]. unfold phase_of. destruct (w_writers w !! i) as [[j ph]|] eqn:Hi; [|done]. cbn. intros [= ->].
    destruct (inv_phase _ _ _ Hw i j PDone Hi) as (c & rs & gz & _ & _ & H). done.
  - pose proof (inv_once _ _ _ Hw) as Hn. rewrite <- (take_drop n L), map_app in Hn. by apply NoDup_app in Hn as [Hn _].
  - intros before x after E. apply (inv_log _ _ _ Hw before x (after ++ drop n L)). rewrite <- (take_drop n L) at 1. rewrite E. by rewrite <- app_assoc.
Qed.
End serial.
Lemma healthy_inv m b w : healthy m b w -> inv m b (w_files w) w [] 0.
Proof.
  intros [H1 H2 H3 H4 H5 H6]. constructor; try done.
  - by rewrite app_nil_r.
  - by rewrite Nat.add_0_r.
  - cbn. lia.
  - constructor.
  - intros k. unfold at_version. by rewrite take_nil.
  - intros k. unfold at_version. by rewrite take_nil.
  - intros i j ph Hi. destruct (H6 i j ph Hi) as [(c & rs & gz & -> & Hr) ->]. exists c, rs, gz. split; [done|]. split; [done|]. cbn. by apply not_elem_of_nil.
  - intros pre x post E. by destruct pre.
  - intros i Hi. by apply elem_of_nil in Hi.
Qed.
Lemma healthy_serial m b w l1 l2 : healthy m b w -> steps_ok hints_work w (l1 ++ l2) = true -> exists log1 log2,
  serial m (run w l1) log1 /\ serial m (run w (l1 ++ l2)) (log1 ++ log2).
Proof.
  intros Hw Hl. assert (forall w, steps_ok hints_work w (l1 ++ l2) = true -> steps_ok hints_work w l1 = true /\ steps_ok hints_work (run w l1) l2 = true) as Hsplit.
  { clear. induction l1 as [|x l IH]; intros w H; [done|]. cbn [app steps_ok] in H. apply andb_prop in H as [H1 H2]. apply IH in H2 as [H2 H3]. split; [|done].
    cbn [steps_ok]. by rewrite H1, H2. }
  apply Hsplit in Hl as [Hl1 Hl2]. pose proof (healthy_inv _ _ _ Hw) as Hi.
  destruct (inv_run _ _ _ (healthy_last _ _ _ Hw) (healthy_max _ _ _ Hw) _ _ _ _ Hi Hl1) as (L1 & n1 & Hw1 & _).
  destruct (inv_run _ _ _ (healthy_last _ _ _ Hw) (healthy_max _ _ _ Hw) _ _ _ _ Hw1 Hl2) as (L2 & n2 & Hw2 & [log2 Hp]).
  exists (take n1 L1), log2. split; [eapply inv_serial; [apply Hw|apply Hw|done]|]. rewrite <- Hp. unfold run. rewrite fold_left_app.
  eapply inv_serial; [apply Hw|apply Hw|done].
Qed.


(** ** References *)
Definition unapplied (ph : phase) : bool :=
  match ph with PHint _ | PList _ _ | PLoad _ _ _ | PNext _ _ _ | PPut _ _ _ _ | PBoot _ _ _ => true | _ => false end.
Definition own_sid (ph : phase) : option nat := match ph with PPut _ _ _ s => Some s | PBoot _ _ s => s | _ => None end.
Definition held (ph : phase) : option meta := match ph with PNext _ _ m | PPut _ _ m _ | PBoot _ m _ => Some m | _ => None end.
Definition job_gz (j : job) : bool := match j with JCommit _ _ gz | JCreate _ _ _ gz => gz end.
Definition safe_sid (w : world) (s : nat) : Prop :=
  (s < w_sid w)%nat /\ s ∉ w_gone w /\ forall i j ph, w_writers w !! i = Some (j, ph) -> own_sid ph <> Some s.
Definition safe_path (w : world) (p : nat) : Prop :=
  p ∉ w_gone_paths w /\ forall i j ph, w_writers w !! i = Some (j, ph) -> unapplied ph = true -> p ∉ job_paths j.
Record tidy (g : bool) (w : world) : Prop := {
  tidy_files : forall k m, (k, m) ∈ w_files w -> k.2 = g /\ m_gz m = g /\
    (forall s, s ∈ snapshot_ids m -> safe_sid w s) /\ (forall p, p ∈ meta_paths m -> safe_path w p);
  tidy_jobs : forall i j ph, w_writers w !! i = Some (j, ph) -> job_gz j = g;
  tidy_own : forall i j ph s, w_writers w !! i = Some (j, ph) -> own_sid ph = Some s -> (s < w_sid w)%nat /\ s ∉ w_gone w;
  tidy_distinct : forall i i' j j' ph ph' s, w_writers w !! i = Some (j, ph) -> w_writers w !! i' = Some (j', ph') ->
    own_sid ph = Some s -> own_sid ph' = Some s -> i = i';
  tidy_held : forall i j ph m, w_writers w !! i = Some (j, ph) -> held ph = Some m -> m_gz m = g /\
    (forall s, s ∈ snapshot_ids m -> safe_sid w s \/ own_sid ph = Some s) /\ (forall p, p ∈ meta_paths m -> safe_path w p \/ p ∈ job_paths j);
  tidy_paths : forall i i' j j' ph ph' p, w_writers w !! i = Some (j, ph) -> w_writers w !! i' = Some (j', ph') ->
    p ∈ job_paths j -> p ∈ job_paths j' -> i = i';
  tidy_gone : forall p, p ∈ w_gone_paths w -> exists i j, w_writers w !! i = Some (j, PFailed) /\ p ∈ job_paths j;
  tidy_gone_sid : forall s, s ∈ w_gone w -> (s < w_sid w)%nat;
  tidy_verify : forall i j a v g' s, w_writers w !! i = Some (j, PVerify a v g' s) -> g' = g }.

Lemma tidy_change g w i j ph ph' fs hint sid gone gp :
  tidy g w -> w_writers w !! i = Some (j, ph) -> ph <> PFailed -> (w_sid w <= sid)%nat ->
  (forall s, s ∈ gone -> s ∈ w_gone w \/ own_sid ph = Some s) ->
  (forall p, p ∈ gp -> p ∈ w_gone_paths w \/ p ∈ job_paths j /\ unapplied ph = true /\ ph' = PFailed) ->
  (unapplied ph' = true -> unapplied ph = true) ->
  (own_sid ph' = None \/ own_sid ph' = Some (w_sid w) /\ sid = S (w_sid w)) ->
  (forall k m, (k, m) ∈ fs -> (k, m) ∈ w_files w \/
     k.2 = g /\ held ph = Some m /\ unapplied ph' = false /\ ph' <> PFailed /\ own_sid ph' = None /\ gone = w_gone w /\ gp = w_gone_paths w) ->
  (forall m, held ph' = Some m -> m_gz m = g /\ (forall s, s ∈ snapshot_ids m -> safe_sid w s \/ own_sid ph' = Some s) /\
     (forall p, p ∈ meta_paths m -> safe_path w p \/ p ∈ job_paths j)) ->
  (forall a v g' s, ph' = PVerify a v g' s -> g' = g) ->
  tidy g (World fs hint sid gone gp (<[i := (j, ph')]> (w_writers w))).
Proof.
  intros Hw Hi Hnf Hsid Hgone Hgp Hun Hown Hfs Hheld Hver. set (w' := World _ _ _ _ _ _).
  assert (forall i' j' q, w_writers w' !! i' = Some (j', q) -> i' = i /\ j' = j /\ q = ph' \/ i' <> i /\ w_writers w !! i' = Some (j', q)) as Hcase.
  { intros i' j' q. subst w'. cbn [w_writers]. destruct (decide (i' = i)) as [->|Hne].
    - rewrite lookup_insert. intros [= <- <-]. by left.
    - rewrite lookup_insert_ne by done. by right. }
  assert (forall s, safe_sid w s -> safe_sid w' s) as Hss.
  { intros s (H1 & H2 & H3). split; [cbn; lia|]. split.
    - intros [Hs|Hs]%Hgone; [done|]. by apply (H3 i j ph).
    - intros i' j' q [(-> & -> & ->)|(Hne & Hq)]%Hcase; [|by eapply H3]. intros E. destruct Hown as [Ho|[Ho _]]; [congruence|]. rewrite Ho in E. injection E as <-. lia. }
  assert (forall p, safe_path w p -> safe_path w' p) as Hsp.
  { intros p (H1 & H2). split.
    - intros [Hp|(Hp & Hu & _)]%Hgp; [done|]. by eapply H2.
    - intros i' j' q [(-> & -> & ->)|(Hne & Hq)]%Hcase Hu; [|by eapply H2]. eapply H2; eauto. }
  constructor.
  - intros k m [Hin|(Hk & Hh & Hu & Hn & Ho & -> & ->)]%Hfs.
    + destruct (tidy_files _ _ Hw k m Hin) as (H1 & H2 & H3 & H4). split; [done|]. split; [done|]. split; auto.
    + destruct (tidy_held _ _ Hw i j ph m Hi Hh) as (H1 & H2 & H3). split; [done|]. split; [done|]. split.
      * intros s [Hs|Hs]%H2; [by apply Hss|]. destruct (tidy_own _ _ Hw i j ph s Hi Hs) as [Hl Hg]. split; [cbn; lia|]. split; [done|].
        intros i' j' q [(-> & -> & ->)|(Hne & Hq)]%Hcase; [congruence|]. intros E. apply Hne. by eapply (tidy_distinct _ _ Hw i' i).
      * intros p [Hp|Hp]%H3; [by apply Hsp|]. split.
        -- intros Hg%(tidy_gone _ _ Hw). destruct Hg as (i0 & j0 & Hi0 & Hp0). assert (i0 = i) as -> by (by eapply (tidy_paths _ _ Hw)). congruence.
        -- intros i' j' q [(-> & -> & ->)|(Hne & Hq)]%Hcase Hu'; [congruence|]. intros Hp'. apply Hne. by eapply (tidy_paths _ _ Hw).
  - intros i' j' q [(-> & -> & ->)|(Hne & Hq)]%Hcase; by eapply (tidy_jobs _ _ Hw).
  - intros i' j' q s [(-> & -> & ->)|(Hne & Hq)]%Hcase Hs.
    + destruct Hown as [Ho|[Ho ->]]; [congruence|]. rewrite Ho in Hs. injection Hs as <-. split; [cbn; lia|]. intros [Hg|Hg]%Hgone.
      * apply (tidy_gone_sid _ _ Hw) in Hg. lia.
      * apply (tidy_own _ _ Hw i j ph) in Hg; [lia|done].
    + destruct (tidy_own _ _ Hw i' j' q s Hq Hs) as [Hl Hg]. split; [cbn; lia|]. intros [Hg'|Hg']%Hgone; [done|]. apply Hne. by eapply (tidy_distinct _ _ Hw i' i).
  - assert (forall i' j' q s, w_writers w !! i' = Some (j', q) -> own_sid q = Some s -> own_sid ph' = Some s -> False) as Hnew.
    { intros i' j' q s Hq Hs Hs'. destruct Hown as [Ho|[Ho _]]; [congruence|]. rewrite Ho in Hs'. injection Hs' as <-. apply (tidy_own _ _ Hw i' j' q) in Hs; [lia|done]. }
    intros i1 i2 j1 j2 q1 q2 s [(-> & -> & ->)|(Hne & Hq)]%Hcase [(-> & -> & ->)|(Hne' & Hq')]%Hcase H1 H2; [done| | |].
    + by destruct (Hnew i2 j2 q2 s).
    + by destruct (Hnew i1 j1 q1 s).
    + by eapply (tidy_distinct _ _ Hw i1 i2).
  - intros i' j' q m [(-> & -> & ->)|(Hne & Hq)]%Hcase Hh.
    + destruct (Hheld m Hh) as (H1 & H2 & H3). split; [done|]. split; [intros s [|]%H2; auto|intros p [|]%H3; auto].
    + destruct (tidy_held _ _ Hw i' j' q m Hq Hh) as (H1 & H2 & H3). split; [done|]. split; [intros s [|]%H2; auto|intros p [|]%H3; auto].
  - intros i1 i2 j1 j2 q1 q2 p [(-> & -> & ->)|(Hne & Hq)]%Hcase [(-> & -> & ->)|(Hne' & Hq')]%Hcase H1 H2; [done| | |]; by eapply (tidy_paths _ _ Hw).
  - intros p [Hp|(Hp & _ & ->)]%Hgp.
    + destruct (tidy_gone _ _ Hw p Hp) as (i0 & j0 & Hi0 & Hp0). exists i0, j0. split; [|done]. cbn [w' w_writers]. rewrite lookup_insert_ne; [done|]. intros <-. congruence.
    + exists i, j. split; [|done]. cbn [w' w_writers]. apply lookup_insert.
  - intros s [Hs|Hs]%Hgone; cbn [w' w_sid].
    + apply (tidy_gone_sid _ _ Hw) in Hs. lia.
    + apply (tidy_own _ _ Hw i j ph) in Hs; [lia|done].
  - intros i' j' a v g' s [(-> & -> & E)|(Hne & Hq)]%Hcase; [by eapply Hver|by eapply (tidy_verify _ _ Hw)].
Qed.
(** What a commit refers to. *)
Lemma commit_ids m sid c s : s ∈ snapshot_ids (apply_commit m sid c) -> s ∈ snapshot_ids m \/ s = sid.
Proof.
  unfold snapshot_ids. rewrite apply_snaps, map_app. intros [H|H%elem_of_list_singleton]%elem_of_app; [by left|right]. rewrite H. unfold new_snapshot. apply build_fields.
Qed.
Lemma commit_paths m sid c rs gz p : p ∈ meta_paths (apply_commit m sid c) -> p ∈ meta_paths m \/ p ∈ job_paths (JCommit c rs gz).
Proof.
  unfold meta_paths. rewrite apply_snaps, flat_map_app. intros [H|H]%elem_of_app; [by left|]. cbn [flat_map] in H. rewrite app_nil_r in H.
  apply elem_of_map_iff in H as (f & -> & Hf). unfold new_snapshot in Hf.
  destruct (build_live (current_snapshot m) (row_start (with_format m (c_format c) (c_schema c))) (m_seq m) sid c) as [Hd He].
  assert (forall d, f ∈ files_after d (current_snapshot m) c -> f_path f ∈ flat_map (fun s => map f_path (live_files false s ++ live_files true s)) (m_snaps m)) as Hold.
  { intros d Hin. unfold files_after in Hin. destruct (current_snapshot m) as [q|] eqn:Eq; [|by apply elem_of_nil in Hin]. destruct (carries _); [|by apply elem_of_nil in Hin].
    apply elem_of_flat_map. exists q. split; [by apply current_in|]. apply elem_of_map_iff. exists f. split; [done|]. apply elem_of_app. destruct d; auto. }
  cbn [job_paths]. apply elem_of_app in Hf as [Hf|Hf].
  - rewrite Hd in Hf. apply elem_of_app in Hf as [Hf|Hf]; [left; by eapply Hold|right]. apply elem_of_map_iff. exists f. split; [done|]. apply elem_of_app. by left.
  - rewrite He in Hf. apply elem_of_app in Hf as [Hf|Hf]; [left; by eapply Hold|right]. apply elem_of_map_iff. exists f. split; [done|]. apply elem_of_app. by right.
Qed.
Lemma read_in k fs m : read_file k fs = Some m -> (k, m) ∈ fs.
Proof.
  unfold read_file. destruct (find _ fs) as [[k' m']|] eqn:E; [|done]. cbn. intros [= ->]. apply find_some in E as [E1 E2].
  apply bool_decide_eq_true in E2. cbn in E2. subst k'. by apply elem_of_list_In.
Qed.
Lemma delete_in k fs x : x ∈ delete_file k fs -> x ∈ fs.
Proof. unfold delete_file. rewrite elem_of_list_filter. tauto. Qed.
Lemma put_in v m fs k m' : (k, m') ∈ put_file v m fs -> (k, m') ∈ fs \/ k = (v, m_gz m) /\ m' = m.
Proof. unfold put_file. intros [H%delete_in|H%elem_of_list_singleton]%elem_of_app; [by left|right]. by injection H as -> ->. Qed.

Section tidy_step.
Context (g : bool) (w : world) (i : nat) (j : job) (ph : phase) (Hw : tidy g w) (Hi : w_writers w !! i = Some (j, ph)).
Local Ltac change_tac := apply (tidy_change g w i j ph); [exact Hw|exact Hi|..].
Lemma tidy_set ph' : ph <> PFailed -> (unapplied ph' = true -> unapplied ph = true) -> own_sid ph' = None ->
  (forall m, held ph' = Some m -> m_gz m = g /\ (forall s, s ∈ snapshot_ids m -> safe_sid w s) /\ (forall p, p ∈ meta_paths m -> safe_path w p \/ p ∈ job_paths j)) ->
  (forall a v g' s, ph' = PVerify a v g' s -> g' = g) ->
  tidy g (set_phase i j ph' w).
Proof.
  intros H1 H2 H3 H4 H5. change_tac; [done|done|auto|auto|done|by left|auto| |done].
  intros m Hm. destruct (H4 m Hm) as (A & B & C). split; [done|]. split; [|done]. intros s Hs. left. by apply B.
Qed.
Lemma tidy_fail : unapplied ph = true -> own_sid ph = None -> tidy g (fail i j w).
Proof.
  intros H1 H2. unfold fail, set_phase. cbn [w_files w_hint w_sid w_gone w_gone_paths w_writers].
  change_tac; [by intros ->|done|auto| |done|by left|auto|done|done].
  intros p [Hp|Hp]%elem_of_app; [by right|by left].
Qed.
Lemma tidy_fail_clean s : unapplied ph = true -> own_sid ph = Some s -> tidy g (fail i j (clean_snapshot s w)).
Proof.
  intros H1 H2. unfold fail, set_phase, clean_snapshot. cbn [w_files w_hint w_sid w_gone w_gone_paths w_writers].
  change_tac; [by intros ->|done| | |done|by left|auto|done|done].
  - intros s' [->|Hs]%elem_of_cons; [by right|by left].
  - intros p [Hp|Hp]%elem_of_app; [by right|by left].
Qed.
Lemma tidy_retry_clean s a : unapplied ph = true -> own_sid ph = Some s -> tidy g (retry i j a (clean_snapshot s w)).
Proof.
  intros H1 H2. unfold retry. destruct (_ <=? _)%nat; [by apply tidy_fail_clean|]. unfold set_phase, clean_snapshot. cbn [w_files w_hint w_sid w_gone w_gone_paths w_writers].
  change_tac; [by intros ->|done| |auto|done|by left|auto|done|done].
  intros s' [->|Hs]%elem_of_cons; [by right|by left].
Qed.
Lemma tidy_retry a : unapplied ph = true -> own_sid ph = None -> tidy g (retry i j a w).
Proof.
  intros H1 H2. unfold retry. destruct (_ <=? _)%nat; [by apply tidy_fail|]. apply tidy_set; [by intros ->|done|done|done|done].
Qed.
(** A new snapshot on top of metadata that refer to nothing unsafe. *)
Lemma tidy_new ph' m c rs gz : j = JCommit c rs gz -> unapplied ph = true -> unapplied ph' = true -> own_sid ph' = Some (w_sid w) ->
  held ph' = Some (apply_commit m (w_sid w) c) -> m_gz m = g -> (forall s, s ∈ snapshot_ids m -> safe_sid w s) ->
  (forall p, p ∈ meta_paths m -> safe_path w p \/ p ∈ job_paths j) ->
  tidy g (set_phase i j ph' (take_sid w)).
Proof.
  intros Hj H1 H2 H4 H5 H6 H7 H8. unfold set_phase, take_sid. cbn [w_files w_hint w_sid w_gone w_gone_paths w_writers].
  change_tac; [by intros ->|lia|auto|auto|done|by right|auto| |by intros ? ? ? ? ->].
  intros m' Hm'. rewrite H5 in Hm'. injection Hm' as <-. split; [done|]. split.
  - intros s [Hs| ->]%commit_ids; [left; by apply H7|by right].
  - intros p Hp. apply (commit_paths _ _ _ rs gz) in Hp as [Hp|Hp]; [by apply H8|right]. by rewrite Hj.
Qed.
(** Metadata are written. *)
Lemma tidy_put v m ph' : held ph = Some m -> unapplied ph' = false -> ph' <> PFailed -> own_sid ph' = None -> held ph' = None ->
  (forall a v g' s, ph' = PVerify a v g' s -> g' = g) -> tidy g (set_phase i j ph' (set_files (put_file v m (w_files w)) w)).
Proof.
  intros H1 H2 H3 H4 H5 H6. unfold set_phase, set_files. cbn [w_files w_hint w_sid w_gone w_gone_paths w_writers].
  change_tac; [by intros ->|done|auto|auto|congruence|by left| |congruence|done].
  intros k m' [Hk|[-> ->]]%put_in; [by left|right]. destruct (tidy_held _ _ Hw i j ph m Hi H1) as (Hg & _). by repeat split.
Qed.
End tidy_step.
Lemma tidy_step g w i e : tidy g w -> match w_writers w !! i with Some (_, ph) => writes_reported ph e = true | None => True end -> tidy g (step w (i, e)).
Proof.
  intros Hw He. unfold step. cbn [fst snd]. destruct (w_writers w !! i) as [[j ph]|] eqn:Hi; [|done].
  pose proof (tidy_jobs _ _ Hw i j ph Hi) as Hg.
  assert (unapplied ph = true -> own_sid ph = None -> tidy g (fail i j w)) as Hfail by (intros H1 H2; by eapply tidy_fail).
  assert (forall c rs gz, j = JCommit c rs gz -> unapplied ph = true -> own_sid ph = None -> tidy g (new_table i j c rs gz w)) as Hnew.
  { intros c rs gz -> H1 H2. unfold new_table. destruct (requirements_hold None rs); [|by apply Hfail].
    eapply tidy_new; eauto; try done; by intros ? ?%elem_of_nil. }
  destruct ph as [a|a h|a v g0|a v m|a v m s|a v g0 s|v m s|v| | |]; cbn [step_phase].
  - by eapply tidy_set.
  - destruct j as [c rs gz|replace format schema gz].
    + destruct (match e with ErrO => None | _ => find_latest h (w_files w) end) as [[v g0]|]; [by eapply tidy_set|].
      destruct (a =? 1)%nat; [by eapply Hnew|by apply Hfail].
    + assert (tidy g (match find_latest h (w_files w) with Some (v, g0) => if replace then set_phase i (JCreate replace format schema gz) (PLoad a v g0) w else fail i (JCreate replace format schema gz) w
        | None => set_phase i (JCreate replace format schema gz) (PBoot 1 (empty_meta format schema gz) None) w end)) as H; [|destruct e; try done; by apply Hfail].
      destruct (find_latest h (w_files w)) as [[v g0]|].
      * destruct replace; [by eapply tidy_set|by apply Hfail].
      * eapply tidy_set; eauto; try done. intros m [= <-]. cbn in Hg. split; [done|]. split; by intros ? ?%elem_of_nil.
  - destruct (read_file (v, g0) (w_files w)) as [m|] eqn:Er; [|destruct e; by apply Hfail]. apply read_in in Er. destruct (tidy_files _ _ Hw _ _ Er) as (H1 & H2 & H3 & H4).
    destruct (decide (e = ErrO)) as [->|Hne]; [by apply Hfail|].
    assert (tidy g (match j with
          | JCommit c rs _ => if requirements_hold (Some m) rs then match current_snapshot m with
                | Some _ => set_phase i j (PNext a v m) w
                | None => set_phase i j (PBoot (S v) (apply_commit m (w_sid w) c) (Some (w_sid w))) (take_sid w) end else fail i j w
          | JCreate _ format schema gz => set_phase i j (PBoot (S v) (replace_meta m format schema gz) None) w end)) as H; [|by destruct e].
    destruct j as [c rs gz|replace format schema gz].
    + destruct (requirements_hold (Some m) rs); [|by apply Hfail]. destruct (current_snapshot m).
      * eapply tidy_set; eauto; try done. intros m' [= <-]. split; [done|]. split; [done|]. intros p Hp. left. by apply H4.
      * eapply tidy_new; eauto; try done.
    + eapply tidy_set; eauto; try done. intros m' [= <-]. cbn in Hg. split; [done|]. split; [done|]. intros p Hp. left. by apply H4.
  - destruct (decide (e = ErrO)) as [->|Hne]; [by apply Hfail|]. destruct (tidy_held _ _ Hw i j _ m Hi eq_refl) as (H1 & H2 & H3).
    assert (tidy g (match j with JCreate _ _ _ _ => fail i j w | JCommit c _ _ => match files_of (S v) (w_files w) with
          | [] => set_phase i j (PPut a (S v) (apply_commit m (w_sid w) c) (w_sid w)) (take_sid w)
          | _ :: _ => retry i j a w end end)) as H; [|by destruct e].
    destruct j as [c rs gz|replace format schema gz]; [|by apply Hfail]. destruct (files_of (S v) (w_files w)) as [|y ys]; [|by eapply tidy_retry].
    eapply tidy_new; eauto; try done. intros s [Hs|Hs]%H2; done.
  - destruct (tidy_held _ _ Hw i j _ m Hi eq_refl) as (H1 & _). destruct e; [| |discriminate He|discriminate He].
    + destruct (has_file _ _); [by eapply tidy_retry_clean|]. eapply tidy_put; eauto; try done. intros ? ? ? ? [= _ _ <- _]. done.
    + by eapply tidy_fail_clean.
  - destruct (decide (e = ErrO)) as [->|Hne]; [by eapply tidy_set|]. assert (g0 = g) as -> by (by eapply (tidy_verify _ _ Hw)).
    assert (forallb (fun x : nat * bool * meta => bool_decide (x.1 = (v, g))) (files_of v (w_files w)) = true) as ->.
    { apply forallb_forall. intros x Hx%elem_of_list_In. apply elem_files_of in Hx as [Hv Hx]. destruct x as [[v' g'] m']. cbn in Hv. subst v'.
      destruct (tidy_files _ _ Hw _ _ Hx) as (Hg' & _). cbn in Hg'. subst g'. by apply bool_decide_eq_true. }
    assert (tidy g (set_phase i j (PHintWrite v) w)) as H by (by eapply tidy_set). by destruct e.
  - destruct e; [| |discriminate He|discriminate He].
    + by eapply tidy_put.
    + destruct s as [s|]; [by eapply tidy_fail_clean|by apply Hfail].
  - assert (tidy g (set_phase i j PDone w)) as H by (by eapply tidy_set). destruct e; try done; (destruct H; by constructor).
  - done.
  - done.
  - done.
Qed.
Lemma codec_tidy g w : one_codec g w -> tidy g w.
Proof.
  intros [H1 H3 [H4 H4'] H5 H6 H7]. constructor.
  - intros k m Hk. destruct (H1 k m Hk) as [A B]. split; [done|]. split; [done|]. split.
    + intros s Hs. split; [by eapply H3|]. rewrite H4. split; [apply not_elem_of_nil|]. intros i j ph Hi. by destruct (H5 i j ph Hi) as [-> _].
    + intros p Hp. split; [rewrite H4'; apply not_elem_of_nil|]. intros i j ph Hi _ Hj. by eapply H6.
  - intros i j ph Hi. destruct (H5 i j ph Hi) as [_ H]. by destruct j.
  - intros i j ph s Hi. by destruct (H5 i j ph Hi) as [-> _].
  - intros i i' j j' ph ph' s Hi. by destruct (H5 i j ph Hi) as [-> _].
  - intros i j ph m Hi. by destruct (H5 i j ph Hi) as [-> _].
  - intros. by eapply H7.
  - rewrite H4'. by intros p ?%elem_of_nil.
  - rewrite H4. by intros p ?%elem_of_nil.
  - intros i j a v g' s Hi. by destruct (H5 _ _ _ Hi).
Qed.
Lemma tidy_run g w l : tidy g w -> steps_ok writes_reported w l = true -> tidy g (run w l).
Proof.
  revert w. induction l as [|[i e] l IH]; intros w Hw Hl; [done|]. cbn [steps_ok fst snd] in Hl. apply andb_prop in Hl as [H1 H2].
  apply (IH (step w (i, e))); [|done]. apply tidy_step; [done|]. by destruct (w_writers w !! i) as [[? ?]|].
Qed.
Lemma references_intact g w l : one_codec g w -> steps_ok writes_reported w l = true ->
  forall k m, (k, m) ∈ w_files (run w l) -> intact (run w l) m.
Proof.
  intros Hw Hl k m Hk. pose proof (tidy_run g w l (codec_tidy g w Hw) Hl) as Ht. destruct (tidy_files _ _ Ht k m Hk) as (_ & _ & H1 & H2).
  split; [intros s Hs; by apply H1|intros p Hp; by apply H2].
Qed.

(** ** A hint that is behind *)
Definition waiting (m : meta) (b : nat) (j : job) (ph : phase) : Prop := (exists c rs gz, j = JCommit c rs gz /\ requirements_hold None rs = false) /\
  match ph with
  | PHint _ | PFailed => True
  | PList _ h => h = Some b
  | PLoad _ v g => v = b /\ g = m_gz m
  | PNext _ v m' => v = b /\ m' = m
  | _ => False
  end.
Record stuck (m : meta) (b : nat) (dead : nat) (w : world) : Prop := {
  stuck_hint : w_hint w = Some b;
  stuck_last : files_of b (w_files w) = [(b, m_gz m, m)];
  stuck_next : files_of (S b) (w_files w) <> [];
  stuck_snapshot : current_snapshot m <> None;
  stuck_writers : forall i j ph, w_writers w !! i = Some (j, ph) -> i <> dead -> waiting m b j ph }.
Lemma stuck_set m b dead w i j ph gone gp : stuck m b dead w -> waiting m b j ph ->
  stuck m b dead (World (w_files w) (w_hint w) (w_sid w) gone gp (<[i := (j, ph)]> (w_writers w))).
Proof.
  intros [H1 H2 H3 H4 H5] Hph. constructor; try done. intros i' j' ph'. cbn [w_writers]. destruct (decide (i' = i)) as [->|Hne].
  - rewrite lookup_insert. by intros [= <- <-].
  - rewrite lookup_insert_ne by done. apply H5.
Qed.
Lemma stuck_step m b dead w i e : stuck m b dead w -> i <> dead -> match w_writers w !! i with Some (_, ph) => hints_work ph e = true | None => True end ->
  stuck m b dead (step w (i, e)).
Proof.
  intros Hw Hd He. unfold step. cbn [fst snd]. destruct (w_writers w !! i) as [[j ph]|] eqn:Hi; [|done].
  destruct (stuck_writers _ _ _ _ Hw i j ph Hi Hd) as ((c & rs & gz & -> & Hrs) & Hph).
  assert (forall ph', waiting m b (JCommit c rs gz) ph' -> stuck m b dead (set_phase i (JCommit c rs gz) ph' w)) as Hset by (intros ph' H; by apply stuck_set).
  assert (stuck m b dead (fail i (JCommit c rs gz) w)) as Hfail by (apply (stuck_set m b dead w i _ PFailed); [exact Hw|split; eauto]).
  assert (forall ph', match ph' with PHint _ | PFailed => True | PList _ h => h = Some b | PLoad _ v g => v = b /\ g = m_gz m | PNext _ v m' => v = b /\ m' = m | _ => False end ->
    stuck m b dead (set_phase i (JCommit c rs gz) ph' w)) as Hgo by (intros ph' H; apply Hset; split; [eauto|done]).
  destruct ph as [a|a h|a v g|a v m'|a v m' s|a v g s|v m' s|v| | |]; cbn [step_phase]; try done.
  - apply Hgo. destruct e; [|discriminate He| |]; apply (stuck_hint _ _ _ _ Hw).
  - subst h. destruct (decide (e = ErrO)) as [->|Hne].
    + destruct (a =? 1)%nat; [|done]. unfold new_table. by rewrite Hrs.
    + rewrite (latest_of _ _ _ _ (stuck_last _ _ _ _ Hw)). destruct e; try done; by apply Hgo.
  - destruct Hph as [-> ->]. rewrite (read_of _ _ _ _ (stuck_last _ _ _ _ Hw)). destruct (decide (e = ErrO)) as [->|Hne]; [done|].
    destruct (current_snapshot m) eqn:Ec; [|exfalso; by eapply (stuck_snapshot _ _ _ _ Hw)].
    destruct (requirements_hold (Some m) rs); destruct e; try done; by apply Hgo.
  - destruct Hph as [-> ->]. pose proof (stuck_next _ _ _ _ Hw) as Hn. destruct (files_of (S b) (w_files w)) as [|y ys]; [done|].
    assert (stuck m b dead (retry i (JCommit c rs gz) a w)) as H; [|by destruct e].
    unfold retry. destruct (_ <=? _)%nat; [done|]. by apply Hgo.
Qed.
Lemma behind_forever m b dead w l : behind m b dead w -> Forall (fun x => x.1 <> dead) l -> steps_ok hints_work w l = true ->
  visible (run w l) = Some m /\ forall i, i <> dead -> phase_of (run w l) i <> Some PDone.
Proof.
  intros [H1 H2 H3 H4 H5]. assert (stuck m b dead w) as Hw.
  { constructor; try done. intros i j ph Hi Hd. destruct (H5 i j ph Hi Hd) as [H ->]. by split. }
  clear -Hw. revert w Hw. induction l as [|[i e] l IH]; intros w Hw Hd Hl.
  - split.
    + change (run w []) with w. unfold visible. rewrite (stuck_hint _ _ _ _ Hw), (latest_of _ _ _ _ (stuck_last _ _ _ _ Hw)). cbn. apply read_of, Hw.
    + intros i Hi. unfold phase_of. cbn. destruct (w_writers w !! i) as [[j ph]|] eqn:E; [|done]. destruct (stuck_writers _ _ _ _ Hw i j ph E Hi) as [_ H]. cbn. by intros [= ->].
  - cbn [steps_ok fst snd] in Hl. apply andb_prop in Hl as [Hl1 Hl2]. apply Forall_cons in Hd as [Hd1 Hd2]. apply (IH (step w (i, e))); try done.
    apply stuck_step; [done|done|]. by destruct (w_writers w !! i) as [[? ?]|].
Qed.
Lemma committed_snaps m log : StronglySorted N.lt (map s_seq (m_snaps m)) -> Forall (fun s => s_seq s <= m_seq m)%N (m_snaps m) ->
  m_snaps m `prefix_of` m_snaps (committed m log) /\ StronglySorted N.lt (map s_seq (m_snaps (committed m log))).
Proof.
  revert m. induction log as [|x log IH]; intros m H1 H2; [by split|]. cbn [committed fold_left]. change (fold_left _ log ?y) with (committed y log).
  destruct (IH (apply_commit m (e_sid x) (e_commit x))) as [A B].
  - rewrite apply_snaps, map_app. cbn [map]. assert (s_seq (new_snapshot m (e_sid x) (e_commit x)) = m_seq m + 1)%N as -> by apply build_fields.
    clear -H1 H2. induction (m_snaps m) as [|t l IH]; [repeat constructor|]. cbn [map app] in *.
    apply StronglySorted_inv in H1 as [H1 H1']. apply Forall_cons in H2 as [H2 H2']. constructor; [by apply IH|]. apply Forall_app. split; [done|].
    constructor; [lia|constructor].
  - rewrite apply_snaps. assert (s_seq (new_snapshot m (e_sid x) (e_commit x)) = m_seq m + 1)%N as Hq by apply build_fields.
    change (m_seq (apply_commit m (e_sid x) (e_commit x))) with (N.max (m_seq m) (s_seq (new_snapshot m (e_sid x) (e_commit x)))). rewrite Hq. apply Forall_app. split.
    + eapply Forall_impl; [exact H2|]. cbn. intros. lia.
    + constructor; [lia|constructor].
  - split; [|done]. etrans; [|exact A]. rewrite apply_snaps. by eexists.
Qed.
Lemma healthy_sequence m b w l : healthy m b w -> steps_ok hints_work w l = true ->
  StronglySorted N.lt (map s_seq (m_snaps m)) -> Forall (fun s => s_seq s <= m_seq m)%N (m_snaps m) ->
  exists m', visible (run w l) = Some m' /\ m_snaps m `prefix_of` m_snaps m' /\ StronglySorted N.lt (map s_seq (m_snaps m')).
Proof.
  intros Hw Hl H1 H2. destruct (healthy_serial m b w l [] Hw) as (log & _ & Hs & _); [by rewrite app_nil_r|].
  exists (committed m log). split; [apply Hs|]. by apply committed_snaps.
Qed.

(** *** Requirements, the latest file, commits taken back *)
Lemma requirements_spec m rs : requirements_hold m rs = true <-> Forall (meets m) rs.
Proof.
  unfold requirements_hold. rewrite forallb_forall, Forall_forall. split.
  - intros H r Hr. apply elem_of_list_In, H in Hr. destruct r, m; cbn in *; try done.
    + apply bool_decide_eq_true in Hr. eauto.
    + apply bool_decide_eq_true in Hr. eauto.
  - intros H r Hr. apply elem_of_list_In, H in Hr. destruct r, m; cbn in *; try done.
    + destruct Hr as (m' & [= <-] & Hr). by apply bool_decide_eq_true.
    + by destruct Hr as (m' & ? & _).
    + destruct Hr as (m' & [= <-] & Hr). by apply bool_decide_eq_true.
    + by destruct Hr as (m' & ? & _).
Qed.
Lemma last_filter_split {A} (P : A -> Prop) `{forall x, Decision (P x)} (l : list A) x :
  last (filter P l) = Some x -> P x /\ exists before after, l = before ++ x :: after /\ Forall (fun y => ~ P y) after.
Proof.
  induction l as [|y l IH]; [done|]. rewrite filter_cons. destruct (decide (P y)) as [Hy|Hy].
  - destruct (last (filter P l)) as [z|] eqn:E.
    + intros Hl. assert (z = x) as ->.
      { destruct (filter P l) as [|u l']; [done|]. change (last (u :: l') = Some x) in Hl. congruence. }
      destruct (IH eq_refl) as (Hx & b & a & -> & Ha). split; [done|]. by exists (y :: b), a.
    + apply last_None in E. rewrite E. intros [= <-]. split; [done|]. exists [], l. split; [done|].
      apply Forall_forall. intros z Hz Pz. assert (z ∈ filter P l) as Hzl by (by apply elem_of_list_filter).
      rewrite E in Hzl. by apply elem_of_nil in Hzl.
  - intros Hl. destruct (IH Hl) as (Hx & b & a & -> & Ha). split; [done|]. by exists (y :: b), a.
Qed.
Lemma max_list_attained l : l <> [] -> max_list l ∈ l.
Proof.
  induction l as [|x l IH]; [done|]. intros _.
  destruct l as [|y l]; [cbn; rewrite Nat.max_0_r; left|]. specialize (IH ltac:(done)).
  change (max_list (x :: y :: l)) with (Nat.max x (max_list (y :: l))).
  destruct (Nat.max_spec x (max_list (y :: l))) as [[_ ->]|[_ ->]]; [by right|left].
Qed.
Lemma pick_spec v fs : (v ∈ map (fun x : nat * bool * meta => x.1.1) fs) -> exists x, last (files_of v fs) = Some x.
Proof.
  intros Hv. destruct (last (files_of v fs)) as [x|] eqn:E; [by exists x|]. exfalso. apply last_None in E.
  apply elem_of_list_In, in_map_iff in Hv as (x & Hx & Hin). 
  assert (x ∈ files_of v fs) as H by (apply elem_of_list_filter; split; [done|by apply elem_of_list_In]).
  rewrite E in H. by apply elem_of_nil in H.
Qed.
Lemma find_latest_counts hint fs : fs <> [] -> exists x, find_latest hint fs = Some x.1 /\ counts hint fs x.
Proof.
  intros Hne. unfold find_latest.
  set (vs := map (fun x : nat * bool * meta => x.1.1) fs).
  assert (exists x, last (files_of (max_list vs) fs) = Some x) as [n Hn].
  { apply pick_spec, max_list_attained. intros H. apply Hne. by destruct fs. }
  destruct (last_filter_split _ fs n Hn) as (Hnv & b & a & Hfs & Ha).
  assert (Forall (fun y : nat * bool * meta => (y.1.1 <= n.1.1)%nat) fs) as Hmax.
  { apply Forall_forall. intros y Hy. rewrite Hnv. apply max_list_elem_of_le.
    apply elem_of_list_In, in_map_iff. exists y. split; [done|by apply elem_of_list_In]. }
  rewrite Hn. cbn [fmap option_fmap option_map].
  assert (Forall (fun y : nat * bool * meta => y.1.1 <> n.1.1) a) as Ha'.
  { eapply Forall_impl; [exact Ha|]. intros y Hy. by rewrite Hnv. }
  destruct hint as [h|].
  - destruct (last (files_of h fs)) as [x|] eqn:E; cbn [fmap option_fmap option_map].
    + destruct (last_filter_split _ fs x E) as (Hx & b' & a' & Hfs' & Hab). exists x. split; [done|].
      exists b', a'. split; [done|]. split; [|left; by rewrite Hx].
      eapply Forall_impl; [exact Hab|]. intros y Hy. by rewrite Hx.
    + exists n. split; [done|]. exists b, a. split; [done|]. split; [done|]. right. split; [|done].
      intros h' [= <-]. apply Forall_forall. intros y Hy He. apply last_None in E.
      assert (y ∈ files_of h fs) as H by (by apply elem_of_list_filter). rewrite E in H. by apply elem_of_nil in H.
  - exists n. split; [done|]. exists b, a. split; [done|]. split; [done|]. by right.
Qed.
Lemma taken_back w i j a v g sid :
  w_writers w !! i = Some (j, PVerify a v g sid) ->
  let w' := step w (i, OkO) in
  (phase_of w' i = Some (PHintWrite v) /\ w_files w' = w_files w /\
     forall x, x ∈ w_files w' -> x.1.1 = v -> x.1.2 = g) \/
  (phase_of w' i <> Some (PHintWrite v) /\ (forall x, x ∈ w_files w' <-> x ∈ w_files w /\ x.1 <> (v, g)) /\
     sid ∈ w_gone w' /\ exists x, x ∈ w_files w /\ x.1.1 = v /\ x.1.2 <> g).
Proof.
  intros Hi. cbn zeta. unfold step. cbn [fst snd]. rewrite Hi. cbn [step_phase].
  destruct (forallb _ _) eqn:E.
  - left. unfold phase_of, set_phase. cbn [w_writers w_files]. rewrite lookup_insert. split; [done|]. split; [done|].
    intros x Hx Hv. rewrite forallb_forall in E. specialize (E x).
    assert (x.1 = (v, g)) as ->; [|done]. eapply bool_decide_eq_true, E, elem_of_list_In, elem_of_list_filter. done.
  - right. assert (exists x, x ∈ w_files w /\ x.1.1 = v /\ x.1.2 <> g) as Hx.
    { apply not_true_iff_false in E. destruct (decide (Exists (fun x : nat * bool * meta => x.1.1 = v /\ x.1.2 <> g) (w_files w))) as [Hex|Hex].
      - apply Exists_exists in Hex as (x & Hx & ?). by exists x.
      - exfalso. apply E. apply forallb_forall. intros x Hx. apply elem_of_list_In, elem_of_list_filter in Hx as [Hv Hx].
        apply bool_decide_eq_true. destruct (decide (x.1.2 = g)) as [Hg|Hg].
        + destruct x as [[v' g'] m']. cbn in *. by subst.
        + exfalso. apply Hex, Exists_exists. by exists x. }
    unfold retry. destruct (max_retries <=? a).
    + unfold fail, phase_of, set_phase. cbn [w_writers w_files w_gone clean_snapshot set_files]. rewrite lookup_insert.
      split; [done|]. split; [|split; [left|done]]. intros x. unfold delete_file. rewrite elem_of_list_filter. tauto.
    + unfold phase_of, set_phase. cbn [w_writers w_files w_gone clean_snapshot set_files]. rewrite lookup_insert.
      split; [done|]. split; [|split; [left|done]]. intros x. unfold delete_file. rewrite elem_of_list_filter. tauto.
Qed.
