(** Proofs about snapshots. *)
From Coq Require Import NArith ZifyN Lia.
From stdpp Require Import prelude list sorting.
From Verif.Lib Require Import ListFacts.
From Verif.Iceberg Require Import SnapshotModel SnapshotSpec.
Local Open Scope N_scope.

(** ** Lists of files *)
Lemma rows_app a b : rows_of (a ++ b) = rows_of a + rows_of b.
Proof. induction a as [|f a IH]; cbn [app rows_of foldr]; [done|]. change (foldr _ 0 (a ++ b)) with (rows_of (a ++ b)). rewrite IH. change (foldr _ 0 a) with (rows_of a). lia. Qed.
Lemma rows_cons f a : rows_of (f :: a) = f_rows f + rows_of a.
Proof. done. Qed.
Lemma rows_perm a b : a ≡ₚ b -> rows_of a = rows_of b.
Proof. induction 1; rewrite ?rows_cons; [done|lia|lia|congruence]. Qed.
Lemma elem_insert_spec n k l : n ∈ insert_spec k l <-> n = k \/ n ∈ l.
Proof.
  induction l as [|x l IH]; cbn [insert_spec]; [rewrite elem_of_list_singleton, elem_of_nil; tauto|].
  destruct (Nat.ltb_spec k x); [by rewrite elem_of_cons|].
  destruct (Nat.eqb_spec k x) as [->|]; [rewrite elem_of_cons; tauto|]. rewrite !elem_of_cons, IH. tauto.
Qed.
Lemma sorted_insert_spec k l : StronglySorted Nat.lt l -> StronglySorted Nat.lt (insert_spec k l).
Proof.
  induction l as [|x l IH]; cbn [insert_spec]; intros H; [repeat constructor|]. apply StronglySorted_inv in H as [H1 H2].
  destruct (Nat.ltb_spec k x) as [Hk|Hk].
  - constructor; [by constructor|]. constructor; [done|]. eapply Forall_impl; [exact H2|]. cbn. intros. lia.
  - destruct (Nat.eqb_spec k x) as [->|]; [by constructor|]. constructor; [by apply IH|].
    rewrite Forall_forall in *. intros y [->|Hy]%elem_insert_spec; [lia|by apply H2].
Qed.
Lemma specs_of_nodup fs : NoDup (specs_of fs).
Proof.
  assert (StronglySorted Nat.lt (specs_of fs)) as H by (induction fs as [|f fs IH]; [constructor|by apply sorted_insert_spec]).
  induction H as [|x l Hl IH Hx]; constructor; [|done]. intros Hin. rewrite Forall_forall in Hx. specialize (Hx x Hin). lia.
Qed.
Lemma elem_specs_of n fs : n ∈ specs_of fs <-> exists f, f ∈ fs /\ f_spec f = n.
Proof.
  induction fs as [|f fs IH]; cbn [specs_of foldr]; [rewrite elem_of_nil; split; [done|intros (f & Hf & _); by apply elem_of_nil in Hf]|].
  change (foldr _ [] fs) with (specs_of fs). rewrite elem_insert_spec, IH. split.
  - intros [->|(g & Hg & <-)]; [exists f|exists g]; (split; [|done]); [by left|by right].
  - intros (g & [->|Hg]%elem_of_cons & <-); [by left|right; by exists g].
Qed.
(** Grouping loses nothing. *)
Lemma group_perm ns (fs : list file) : NoDup ns -> (forall f, f ∈ fs -> f_spec f ∈ ns) ->
  flat_map (fun n => filter (fun f => f_spec f = n) fs) ns ≡ₚ fs.
Proof.
  revert fs. induction ns as [|n ns IH]; intros fs Hn Hf.
  - destruct fs as [|f fs]; [done|]. exfalso. specialize (Hf f (elem_of_list_here _ _)). by apply elem_of_nil in Hf.
  - apply NoDup_cons in Hn as [Hn Hns]. cbn [flat_map].
    assert (flat_map (fun k => filter (fun f => f_spec f = k) fs) ns =
            flat_map (fun k => filter (fun f => f_spec f = k) (filter (fun f => f_spec f <> n) fs)) ns) as ->.
    { clear IH Hf Hns. induction ns as [|k ns IH]; [done|]. cbn [flat_map]. rewrite IH by (intros H; apply Hn; by right). f_equal.
      rewrite list_filter_filter. apply list_filter_iff. intros f. split; [|tauto]. intros E. split; [done|].
      intros E'. apply Hn. rewrite <- E', E. left. }
    rewrite IH; [|done|].
    + clear. induction fs as [|f fs IH]; [done|]. rewrite !filter_cons. destruct (decide (f_spec f = n)), (decide (f_spec f <> n)); try done; try tauto.
      * cbn. by constructor.
      * rewrite <- Permutation_middle. by constructor.
    + intros f [H1 H2]%elem_of_list_filter. apply Hf, elem_of_cons in H2 as [|]; [done|done].
Qed.
Lemma manifest_inputs_perm fs : flat_map snd (manifest_inputs fs) ≡ₚ fs.
Proof.
  unfold manifest_inputs. rewrite <- (group_perm (specs_of fs) fs (specs_of_nodup fs)) at 2.
  - generalize (specs_of fs) at 1 2. intros ns. induction ns as [|n ns IH]; [done|]. cbn [map flat_map]. by rewrite IH.
  - intros f Hf. apply elem_specs_of. by exists f.
Qed.

(** ** Counts *)
Definition live_of (deletes : bool) (ms : list manifest_file) : list file :=
  flat_map (fun m => if decide (mf_deletes m = deletes) then live_entries (mf_entries m) else []) ms.
Lemma live_files_of deletes s : live_files deletes s = live_of deletes (s_manifests s).
Proof. done. Qed.
Lemma live_of_app deletes a b : live_of deletes (a ++ b) = live_of deletes a ++ live_of deletes b.
Proof. apply flat_map_app. Qed.
Lemma live_split es : live_entries es ≡ₚ with_status Added es ++ with_status Existing es.
Proof.
  unfold live_entries, with_status. induction es as [|[s f] es IH]; [done|]. rewrite !filter_cons. cbn [fst].
  destruct s.
  - rewrite !decide_True, decide_False by done. cbn [map snd app]. by rewrite IH.
  - rewrite !decide_True, decide_False by done. cbn [map snd app]. rewrite IH. apply Permutation_middle.
  - rewrite !decide_False; [done|done|done|]. intros H. by apply H.
Qed.
Definition count_of {A} (s : status) (c : counts A) : A :=
  match s with Added => n_added c | Existing => n_existing c | Deleted => n_deleted c end.
Definition counts_known (m : manifest_file) : Prop := forall s,
  count_of s (mf_file_counts m) = Some (N.of_nat (length (with_status s (mf_entries m)))) /\
  count_of s (mf_row_counts m) = Some (rows_of (with_status s (mf_entries m))).
Lemma known_right m : counts_known m -> counts_right m.
Proof. intros H s. destruct (H s) as [H1 H2]. split; right; destruct s; assumption. Qed.
Lemma or_else_right o n : count_right o n -> or_else o n = Some n.
Proof. by intros [-> | ->]. Qed.
Lemma populate_known m : counts_right m -> counts_known (populate m).
Proof.
  intros H s. destruct (H s) as [H1 H2]. destruct s; cbn [populate mf_file_counts mf_row_counts mf_entries count_of n_added n_existing n_deleted] in *;
    by rewrite (or_else_right _ _ H1), (or_else_right _ _ H2).
Qed.
Lemma with_status_added s (fs : list file) :
  with_status s (map (pair Added) fs) = match s with Added => fs | _ => [] end.
Proof.
  unfold with_status. induction fs as [|f fs IH]; [by destruct s|]. cbn [map]. rewrite filter_cons. cbn [fst].
  destruct s; destruct (decide _); try done; cbn [map snd]; by rewrite IH.
Qed.
Lemma live_added (fs : list file) : live_entries (map (pair Added) fs) = fs.
Proof. unfold live_entries. induction fs as [|f fs IH]; [done|]. cbn [map]. rewrite filter_cons. destruct (decide _) as [|n]; [|by destruct n]. cbn [map snd]. by rewrite IH. Qed.
Lemma fresh_known deletes seq first i : counts_known (fresh_manifest deletes seq first i).
Proof.
  intros s. unfold fresh_manifest. cbn [mf_file_counts mf_row_counts mf_entries]. rewrite with_status_added.
  by destruct s.
Qed.
Lemma known_active m : counts_known m ->
  active (mf_file_counts m) = Some (N.of_nat (length (live_entries (mf_entries m)))) /\
  active (mf_row_counts m) = Some (rows_of (live_entries (mf_entries m))).
Proof.
  intros H. destruct (H Added) as [A1 A2], (H Existing) as [B1 B2]. cbn [count_of] in *. unfold active.
  rewrite A1, A2, B1, B2. cbn [mbind option_bind]. pose proof (live_split (mf_entries m)) as Hp. split.
  - rewrite (Permutation_length Hp), app_length. f_equal. lia.
  - by rewrite (rows_perm _ _ Hp), rows_app.
Qed.
Lemma total_fold (deletes : bool) (counts_of : manifest_file -> counts (option N)) (size : list file -> N) ms n :
  (forall a b, size (a ++ b) = size a + size b) -> size [] = 0 ->
  (forall m, m ∈ ms -> active (counts_of m) = Some (size (live_entries (mf_entries m)))) ->
  fold_left (fun t m => if Bool.eqb (mf_deletes m) deletes then add_active t (counts_of m) else t) ms (Some n) =
    Some (n + size (live_of deletes ms)).
Proof.
  intros Happ Hnil. revert n. induction ms as [|m ms IH]; intros n H; [cbn; f_equal; rewrite Hnil; lia|].
  cbn [fold_left]. unfold live_of. cbn [flat_map]. fold (live_of deletes ms). rewrite Happ.
  assert (forall m, m ∈ ms -> active (counts_of m) = Some (size (live_entries (mf_entries m)))) as H' by (intros m' Hm'; apply H; by right).
  destruct (decide (mf_deletes m = deletes)) as [->|Hd].
  - rewrite Bool.eqb_reflx. unfold add_active. rewrite (H m) by left. cbn [mbind option_bind]. rewrite IH by done. f_equal. lia.
  - assert (Bool.eqb (mf_deletes m) deletes = false) as -> by (by apply Bool.eqb_false_iff). rewrite IH by done. rewrite Hnil. f_equal.
Qed.
Lemma totals_known bp be ms ap ae : Forall counts_known ms ->
  manifest_totals bp be ms ap ae =
    Totals (Some (N.of_nat (length (live_of false ms)))) (Some (N.of_nat (length (live_of true ms))))
      (Some (rows_of (live_of false ms))) ((fun p => p + ap) <$> bp) ((fun p => p + ae) <$> be).
Proof.
  intros H. rewrite Forall_forall in H. unfold manifest_totals.
  rewrite !(total_fold _ mf_file_counts (fun l => N.of_nat (length l))), (total_fold _ mf_row_counts rows_of); [done| | | | | | | | |];
    try done; try (intros a b; rewrite ?app_length; lia); try (exact rows_app); intros m Hm; by apply known_active, H.
Qed.

(** ** Assignment of row ids *)
Lemma assign_spec next ms ms' next' : assign_rows next ms = (ms', next') ->
  Forall2 (fun m m' => mf_deletes m' = mf_deletes m /\ mf_entries m' = mf_entries m /\ mf_file_counts m' = mf_file_counts m /\
    mf_row_counts m' = mf_row_counts m /\ mf_seq m' = mf_seq m /\ mf_spec m' = mf_spec m /\
    (mf_first m' = mf_first m \/ mf_first m = None)) ms ms'.
Proof.
  revert next ms' next'. induction ms as [|m ms IH]; intros next ms' next'; cbn [assign_rows]; [intros [= <- <-]; constructor|].
  destruct next as [n|].
  - destruct (mf_deletes m) eqn:Ed; [destruct (assign_rows (Some n) ms) as [l nx] eqn:E; intros [= <- <-]; constructor; [repeat split; auto|by eapply IH]|].
    destruct (mf_first m) eqn:Ef; [destruct (assign_rows (Some n) ms) as [l nx] eqn:E; intros [= <- <-]; constructor; [repeat split; auto|by eapply IH]|].
    destruct (assign_rows _ ms) as [l nx] eqn:E. intros [= <- <-]. constructor; [cbn; repeat split; auto|by eapply IH].
  - intros [= <- <-]. apply Forall2_cons. split; [repeat split; auto|]. clear. induction ms; constructor; [repeat split; auto|done].
Qed.
Lemma assign_live next ms deletes : live_of deletes (assign_rows next ms).1 = live_of deletes ms.
Proof.
  destruct (assign_rows next ms) as [ms' n'] eqn:E. cbn [fst]. apply assign_spec in E.
  induction E as [|m m' ms ms' (H1 & H2 & _) _ IH]; [done|]. unfold live_of. cbn [flat_map]. fold (live_of deletes ms) (live_of deletes ms').
  by rewrite IH, H1, H2.
Qed.
Lemma assign_known next ms : Forall counts_known ms -> Forall counts_known (assign_rows next ms).1.
Proof.
  destruct (assign_rows next ms) as [ms' n'] eqn:E. cbn [fst]. apply assign_spec in E.
  induction E as [|m m' ms ms' (_ & H2 & H3 & H4 & _) _ IH]; [done|]. rewrite !Forall_cons. intros [Hm Hms]. split; [|by apply IH].
  intros s. rewrite H2, H3, H4. apply Hm.
Qed.
Lemma populate_live deletes ms : live_of deletes (map populate ms) = live_of deletes ms.
Proof. induction ms as [|m ms IH]; [done|]. unfold live_of in *. cbn [map flat_map]. by rewrite IH. Qed.
Lemma data_manifests_live seq next inputs : live_of false (data_manifests seq next inputs) = flat_map snd inputs /\
  live_of true (data_manifests seq next inputs) = [].
Proof.
  revert next. induction inputs as [|i inputs IH]; intros next; [done|]. unfold live_of. cbn [data_manifests flat_map].
  fold (live_of false (data_manifests seq ((fun n => n + rows_of i.2) <$> next) inputs)).
  fold (live_of true (data_manifests seq ((fun n => n + rows_of i.2) <$> next) inputs)).
  destruct (IH ((fun n => n + rows_of i.2) <$> next)) as [-> ->]. cbn [fresh_manifest mf_deletes mf_entries].
  repeat destruct (decide _); try done. by rewrite live_added.
Qed.
Lemma data_manifests_known seq next inputs : Forall counts_known (data_manifests seq next inputs).
Proof. revert next. induction inputs as [|i inputs IH]; intros next; constructor; [apply fresh_known|apply IH]. Qed.
Lemma delete_manifests_live seq inputs : live_of true (map (fresh_manifest true seq None) inputs) = flat_map snd inputs /\
  live_of false (map (fresh_manifest true seq None) inputs) = [].
Proof.
  induction inputs as [|i inputs [IH1 IH2]]; [done|]. unfold live_of in *. cbn [map flat_map]. rewrite IH1, IH2.
  cbn [fresh_manifest mf_deletes mf_entries]. repeat destruct (decide _); try done. by rewrite live_added.
Qed.

(** ** A new snapshot *)
Definition carried_of (parent : option snapshot) (c : commit) : list manifest_file :=
  match parent with Some p => if carries (c_kind c) then map populate (s_manifests p) else [] | None => [] end.
Definition fresh_of (seq : N) (next : option N) (c : commit) : list manifest_file :=
  data_manifests seq next (manifest_inputs (c_data c)) ++ map (fresh_manifest true seq None) (manifest_inputs (c_deletes c)).
Lemma build_manifests parent start last id c :
  s_manifests (build_snapshot parent start last id c) =
    (assign_rows start (carried_of parent c)).1 ++ fresh_of (last + 1) (assign_rows start (carried_of parent c)).2 c.
Proof. unfold build_snapshot, carried_of. by destruct (assign_rows _ _) as [l n]. Qed.
Lemma carried_live deletes parent c : live_of deletes (carried_of parent c) = files_after deletes parent c.
Proof. unfold carried_of, files_after. destruct parent as [p|]; [|done]. destruct (carries _); [apply populate_live|done]. Qed.
(** Every file of the parent is kept, unless it is overwritten, and those of the commit
    are added. *)
Lemma build_live parent start last id c :
  live_files false (build_snapshot parent start last id c) ≡ₚ files_after false parent c ++ c_data c /\
  live_files true (build_snapshot parent start last id c) ≡ₚ files_after true parent c ++ c_deletes c.
Proof.
  rewrite !live_files_of, build_manifests. unfold fresh_of. rewrite !live_of_app, !assign_live, !carried_live.
  destruct (data_manifests_live (last + 1) (assign_rows start (carried_of parent c)).2 (manifest_inputs (c_data c))) as [-> ->].
  destruct (delete_manifests_live (last + 1) (manifest_inputs (c_deletes c))) as [-> ->].
  rewrite !manifest_inputs_perm, app_nil_r. done.
Qed.
Lemma build_known parent start last id c : (forall p, parent = Some p -> Forall counts_right (s_manifests p)) ->
  Forall counts_known (s_manifests (build_snapshot parent start last id c)).
Proof.
  intros H. rewrite build_manifests. apply Forall_app. split.
  - apply assign_known. unfold carried_of. destruct parent as [p|]; [|done]. destruct (carries _); [|done].
    apply Forall_map. eapply Forall_impl; [by apply H|]. apply populate_known.
  - apply Forall_app. split; [apply data_manifests_known|]. apply Forall_map, Forall_forall. intros i _. apply fresh_known.
Qed.
Lemma content_app c a b : content_rows c (a ++ b) = content_rows c a + content_rows c b.
Proof. unfold content_rows. by rewrite filter_app, rows_app. Qed.
Lemma content_perm c a b : a ≡ₚ b -> content_rows c a = content_rows c b.
Proof. intros H. apply rows_perm. by rewrite H. Qed.
Lemma build_totals parent start last id c : (forall p, parent = Some p -> Forall counts_right (s_manifests p) /\ totals_right p) ->
  totals_right (build_snapshot parent start last id c).
Proof.
  intros H. assert (forall p, parent = Some p -> Forall counts_right (s_manifests p)) as H1 by (intros p Hp; by apply H).
  pose proof (build_known parent start last id c H1) as Hk. destruct (build_live parent start last id c) as [_ Hd].
  unfold totals_right. rewrite !live_files_of in *. unfold of_content.
  change (rows_of (filter (fun f => f_content f = CPosition) (live_of true (s_manifests (build_snapshot parent start last id c)))))
    with (content_rows CPosition (live_of true (s_manifests (build_snapshot parent start last id c)))).
  change (rows_of (filter (fun f => f_content f = CEquality) (live_of true (s_manifests (build_snapshot parent start last id c)))))
    with (content_rows CEquality (live_of true (s_manifests (build_snapshot parent start last id c)))).
  rewrite !(content_perm _ _ _ Hd), !content_app.
  assert (forall t cc, (forall p, parent = Some p -> t (s_totals p) = Some (content_rows cc (live_files true p))) ->
    match parent with Some p => if carries (c_kind c) then t (s_totals p) else Some 0 | None => Some 0 end =
      Some (content_rows cc (files_after true parent c))) as Hbase.
  { intros t cc Ht. unfold files_after. destruct parent as [p|]; [|done]. destruct (carries _); [by apply Ht|done]. }
  revert Hk. unfold build_snapshot. fold (carried_of parent c). destruct (assign_rows start (carried_of parent c)) as [l n] eqn:E.
  cbn [s_manifests s_totals]. intros Hk. rewrite totals_known by done. cbn [t_data_files t_delete_files t_records t_position t_equality].
  rewrite (Hbase t_position CPosition), (Hbase t_equality CEquality); [done| |]; intros p Hp; by destruct (H p Hp) as (_ & _ & _ & _ & ? & ?).
Qed.

(** ** Row ids *)
Definition ids (n k : N) : list N := map (fun i => n + N.of_nat i) (seq 0 (N.to_nat k)).
Lemma elem_ids x n k : x ∈ ids n k <-> n <= x < n + k.
Proof.
  unfold ids. rewrite elem_of_map_iff. split.
  - intros (i & -> & Hi%elem_of_seq_iff). lia.
  - intros H. exists (N.to_nat (x - n)). rewrite elem_of_seq_iff. lia.
Qed.
Lemma ids_nodup n k : NoDup (ids n k).
Proof. unfold ids. apply NoDup_map_inj; [|apply NoDup_ListNoDup, seq_NoDup]. intros x y _ _ H. lia. Qed.
Lemma ids_app n a b : ids n (a + b) = ids n a ++ ids (n + a) b.
Proof.
  unfold ids. rewrite N2Nat.inj_add, seq_app, map_app. f_equal. cbn [Nat.add]. rewrite <- (Nat.add_0_r (N.to_nat a)) at 1.
  rewrite <- fmap_add_seq. change (fmap (M:=list)) with (@map nat nat). rewrite map_map. apply map_ext. intros i. lia.
Qed.
Lemma ids_zero n : ids n 0 = [].
Proof. done. Qed.
Definition file_ids (x : file * option N) : list N := match x.2 with Some n => ids n (f_rows x.1) | None => [] end.
Definition mids (m : manifest_file) : list N :=
  if mf_deletes m then [] else match mf_first m with Some n => ids n (manifest_rows m) | None => [] end.
Definition plain (m : manifest_file) : Prop := mf_deletes m = false -> Forall (fun e : status * file => f_first e.2 = None) (mf_entries m).
Lemma has_row_ids x id : has_row x id <-> id ∈ file_ids x.
Proof.
  unfold has_row, file_ids. destruct (x.2) as [n|].
  - rewrite elem_ids. split; [by intros (? & [= <-] & ?)|intros ?; by exists n].
  - rewrite elem_of_nil. split; [by intros (? & ? & _)|done].
Qed.
Lemma live_cons s f es : live_entries ((s, f) :: es) = if is_live s then f :: live_entries es else live_entries es.
Proof. unfold live_entries. rewrite filter_cons. cbn [fst]. destruct s; destruct (decide _) as [H|H]; try done; exfalso; by apply H. Qed.
Lemma inherit_ids next es : Forall (fun e : status * file => f_first e.2 = None) es ->
  flat_map file_ids (inherit_rows next es) = match next with Some n => ids n (rows_of (live_entries es)) | None => [] end.
Proof.
  revert next. induction es as [|[s f] es IH]; intros next H; [by destruct next|]. apply Forall_cons in H as [Hf H]. cbn [snd] in Hf.
  cbn [inherit_rows]. rewrite live_cons. destruct (is_live s); [|by apply IH]. rewrite rows_cons. cbn [flat_map]. rewrite IH, Hf by done.
  destruct next as [n|]; cbn [fmap option_fmap option_map file_ids snd fst]; [|done]. unfold file_ids. cbn [fst snd]. by rewrite ids_app.
Qed.
Lemma data_ids s : Forall plain (s_manifests s) -> flat_map file_ids (data_files s) = flat_map mids (s_manifests s).
Proof.
  unfold data_files. induction (s_manifests s) as [|m ms IH]; [done|]. rewrite Forall_cons. intros [Hm Hms]. cbn [flat_map].
  rewrite flat_map_app, IH by done. f_equal. unfold mids. destruct (mf_deletes m) eqn:E; [done|]. by apply inherit_ids, Hm.
Qed.
Lemma flat_nodup_pos {A B} (f : A -> list B) l : NoDup (flat_map f l) ->
  forall i j x y b, l !! i = Some x -> l !! j = Some y -> b ∈ f x -> b ∈ f y -> i = j.
Proof.
  induction l as [|a l IH]; intros H i j x y b Hi Hj Hx Hy; [done|]. cbn [flat_map] in H. apply NoDup_app in H as (H1 & H2 & H3).
  destruct i as [|i], j as [|j]; cbn in Hi, Hj; [done| | |].
  - injection Hi as ->. exfalso. apply (H2 b Hx). apply elem_of_flat_map. exists y. split; [|done]. by apply elem_of_list_lookup_2 in Hj.
  - injection Hj as ->. exfalso. apply (H2 b Hy). apply elem_of_flat_map. exists x. split; [|done]. by apply elem_of_list_lookup_2 in Hi.
  - f_equal. by eapply IH.
Qed.
Definition numbered (m : manifest_file) : Prop := mf_deletes m = false -> mf_first m <> None.
Lemma assign_none ms : assign_rows None ms = (ms, None).
Proof. by destruct ms. Qed.
Lemma assign_ids n ms : Forall counts_known ms -> exists ms' n', assign_rows (Some n) ms = (ms', Some n') /\ n <= n' /\
  flat_map mids ms' ≡ₚ flat_map mids ms ++ ids n (n' - n) /\ Forall numbered ms'.
Proof.
  revert n. induction ms as [|m ms IH]; intros n H; cbn [assign_rows].
  { exists [], n. split; [done|]. split; [lia|]. split; [|constructor]. by rewrite N.sub_diag. }
  apply Forall_cons in H as [Hm Hms]. destruct (mf_deletes m) eqn:Ed.
  - destruct (IH n Hms) as (ms' & n' & -> & Hn & Hp & Hnum). exists (m :: ms'), n'. split; [done|]. split; [done|]. split; [|constructor; [|done]].
    + cbn [flat_map]. unfold mids at 1 3. rewrite Ed. done.
    + intros Hd. by rewrite Ed in Hd.
  - destruct (mf_first m) as [k|] eqn:Ef.
    + destruct (IH n Hms) as (ms' & n' & -> & Hn & Hp & Hnum). exists (m :: ms'), n'. split; [done|]. split; [done|]. split; [|constructor; [|done]].
      * cbn [flat_map]. rewrite Hp. by rewrite app_assoc.
      * intros _. by rewrite Ef.
    + destruct (known_active m Hm) as [_ Ha]. destruct (Hm Added) as [_ H1], (Hm Existing) as [_ H2]. cbn [count_of] in H1, H2.
      unfold active in Ha. rewrite H1, H2 in Ha. cbn [mbind option_bind] in Ha. injection Ha as Ha. rewrite H1, H2. unfold default, from_option, id. rewrite Ha.
      change (rows_of (live_entries (mf_entries m))) with (manifest_rows m).
      destruct (IH (n + manifest_rows m) Hms) as (ms' & n' & -> & Hn & Hp & Hnum).
      eexists (_ :: ms'), n'. split; [done|]. split; [lia|]. split; [|constructor; [|done]].
      * cbn [flat_map]. rewrite Hp. unfold mids at 1 3. cbn [mf_deletes mf_first]. rewrite Ed, Ef. cbn [app].
        replace (n' - n) with (manifest_rows m + (n' - (n + manifest_rows m))) by lia. rewrite ids_app.
        unfold manifest_rows at 1. cbn [mf_entries]. fold (manifest_rows m).
        rewrite !app_assoc. by rewrite (Permutation_app_comm (ids n (manifest_rows m))).
      * intros _. done.
Qed.
Lemma data_manifests_ids seq n inputs : flat_map mids (data_manifests seq (Some n) inputs) = ids n (rows_of (flat_map snd inputs)) /\
  Forall numbered (data_manifests seq (Some n) inputs).
Proof.
  revert n. induction inputs as [|i inputs IH]; intros n; [split; [done|constructor]|]. cbn [data_manifests flat_map fmap option_fmap option_map].
  destruct (IH (n + rows_of i.2)) as [-> H]. rewrite rows_app, ids_app. split; [|constructor; [|done]].
  - f_equal. unfold mids, manifest_rows, fresh_manifest. cbn [mf_deletes mf_first mf_entries]. by rewrite live_added.
  - intros _. done.
Qed.
Lemma data_manifests_none seq inputs : flat_map mids (data_manifests seq None inputs) = [].
Proof. induction inputs as [|i inputs IH]; [done|]. cbn [data_manifests flat_map fmap option_fmap option_map]. by rewrite IH. Qed.
Lemma delete_manifests_ids seq inputs : flat_map mids (map (fresh_manifest true seq None) inputs) = [] /\
  Forall numbered (map (fresh_manifest true seq None) inputs).
Proof. induction inputs as [|i inputs [IH1 IH2]]; [split; [done|constructor]|]. cbn [map flat_map]. rewrite IH1. split; [done|]. by constructor. Qed.
Lemma populate_ids ms : flat_map mids (map populate ms) = flat_map mids ms.
Proof. induction ms as [|m ms IH]; [done|]. cbn [map flat_map]. by rewrite IH. Qed.
Definition parent_ids (parent : option snapshot) (c : commit) : list N := flat_map mids (carried_of parent c).
Lemma carried_known parent c : (forall p, parent = Some p -> Forall counts_right (s_manifests p)) -> Forall counts_known (carried_of parent c).
Proof.
  intros H. unfold carried_of. destruct parent as [p|]; [|done]. destruct (carries _); [|done].
  apply Forall_map. eapply Forall_impl; [by apply H|]. apply populate_known.
Qed.
(** The row ids of a new snapshot: those carried over, and the next free ones. *)
Lemma build_ids parent start last id c : (forall p, parent = Some p -> Forall counts_right (s_manifests p)) ->
  match start, s_added_rows (build_snapshot parent start last id c) with
  | Some n, Some k => flat_map mids (s_manifests (build_snapshot parent start last id c)) ≡ₚ parent_ids parent c ++ ids n k /\
      Forall numbered (s_manifests (build_snapshot parent start last id c))
  | None, None => flat_map mids (s_manifests (build_snapshot parent start last id c)) = parent_ids parent c
  | _, _ => False
  end.
Proof.
  intros H. pose proof (carried_known parent c H) as Hk. rewrite build_manifests. unfold build_snapshot, fresh_of. fold (carried_of parent c).
  unfold parent_ids. destruct start as [n|].
  - destruct (assign_ids n (carried_of parent c) Hk) as (ms' & n' & E & Hn & Hp & Hnum). rewrite E. cbn [fst snd s_added_rows fmap option_fmap option_map].
    destruct (data_manifests_ids (last + 1) n' (manifest_inputs (c_data c))) as [Hd Hd']. destruct (delete_manifests_ids (last + 1) (manifest_inputs (c_deletes c))) as [He He'].
    split; [|by repeat (apply Forall_app; split)]. rewrite !flat_map_app, He, Hd, Hp, app_nil_r, <- app_assoc.
    rewrite (rows_perm _ _ (manifest_inputs_perm (c_data c))). f_equiv. rewrite ids_app. by replace (n + (n' - n)) with n' by lia.
  - rewrite assign_none. cbn [fst snd s_added_rows fmap option_fmap option_map]. rewrite !flat_map_app, data_manifests_none.
    destruct (delete_manifests_ids (last + 1) (manifest_inputs (c_deletes c))) as [-> _]. by rewrite app_nil_r.
Qed.

Lemma inherit_first next es x : Forall (fun e : status * file => f_first e.2 = None) es -> x ∈ inherit_rows next es ->
  match next with Some n => exists k, x.2 = Some k /\ n <= k | None => x.2 = None end.
Proof.
  revert next. induction es as [|[s f] es IH]; intros next H Hx; [by apply elem_of_nil in Hx|]. apply Forall_cons in H as [Hf H]. cbn [snd] in Hf.
  cbn [inherit_rows] in Hx. destruct (is_live s); [|by apply IH]. rewrite Hf in Hx. apply elem_of_cons in Hx as [->|Hx].
  - destruct next as [n|]; [|done]. exists n. split; [done|lia].
  - apply IH in Hx; [|done]. destruct next as [n|]; [|done]. destruct Hx as (k & Hk & Hle). exists k. split; [done|]. lia.
Qed.
Lemma assign_first next ms : Forall2 (fun m m' => mf_deletes m' = mf_deletes m /\ mf_entries m' = mf_entries m /\
    (mf_first m' = mf_first m \/ mf_first m = None /\ mf_deletes m = false /\ exists n k, next = Some n /\ mf_first m' = Some k /\ n <= k)) ms (assign_rows next ms).1.
Proof.
  revert next. induction ms as [|m ms IH]; intros next; cbn [assign_rows]; [constructor|]. destruct next as [n|].
  - destruct (mf_deletes m) eqn:Ed; [pose proof (IH (Some n)) as H; destruct (assign_rows (Some n) ms); constructor; [auto|done]|].
    destruct (mf_first m) eqn:Ef; [pose proof (IH (Some n)) as H; destruct (assign_rows (Some n) ms); constructor; [auto|done]|].
    set (n' := n + _). pose proof (IH (Some n')) as H. destruct (assign_rows (Some n') ms). cbn [fst] in *. constructor.
    + cbn [mf_deletes mf_entries mf_first]. split; [done|]. split; [done|]. right. split; [done|]. split; [done|]. exists n, n. split; [done|]. split; [done|lia].
    + eapply Forall2_impl; [exact H|]. cbn. intros x y (H1 & H2 & [H3|(H3 & H4 & a & k & [= <-] & H6 & H7)]); [auto|].
      split; [done|]. split; [done|]. right. split; [done|]. split; [done|]. exists n, k. split; [done|]. split; [done|]. subst n'. lia.
  - cbn [fst]. constructor; [auto|]. clear. induction ms; constructor; auto.
Qed.
Lemma elem_data_files s x : x ∈ data_files s <-> exists m, m ∈ s_manifests s /\ mf_deletes m = false /\ x ∈ inherit_rows (mf_first m) (mf_entries m).
Proof.
  unfold data_files. rewrite elem_of_flat_map. split.
  - intros (m & Hm & Hx). exists m. destruct (mf_deletes m); [by apply elem_of_nil in Hx|done].
  - intros (m & Hm & Hd & Hx). exists m. by rewrite Hd.
Qed.
(** Files keep their row ids. *)
Lemma build_stable p start last id c x : Forall plain (s_manifests p) -> carries (c_kind c) = true -> x ∈ data_files p -> x.2 <> None ->
  x ∈ data_files (build_snapshot (Some p) start last id c).
Proof.
  intros Hp Hc Hx Hn. apply elem_data_files in Hx as (m & Hm & Hd & Hx). apply elem_data_files. rewrite build_manifests. unfold carried_of. rewrite Hc.
  pose proof (assign_first start (map populate (s_manifests p))) as H. apply elem_of_list_lookup in Hm as [i Hi].
  assert (map populate (s_manifests p) !! i = Some (populate m)) as Hi' by (change (map populate) with (fmap (M:=list) populate); by rewrite list_lookup_fmap, Hi).
  destruct (Forall2_lookup_l _ _ _ _ _ H Hi') as (m' & Hm' & H1 & H2 & H3). exists m'. split; [apply elem_of_app; left; by eapply elem_of_list_lookup_2|].
  cbn [populate mf_deletes mf_entries mf_first] in *. rewrite H1, H2. split; [done|]. destruct H3 as [->|(H3 & _)]; [done|].
  exfalso. apply Hn. rewrite H3 in Hx. rewrite Forall_forall in Hp. by eapply (inherit_first None) in Hx; [|eapply Hp; [by eapply elem_of_list_lookup_2|]].
Qed.
Lemma data_manifests_first seq n inputs m : m ∈ data_manifests seq (Some n) inputs -> exists k, mf_first m = Some k /\ n <= k.
Proof.
  revert n. induction inputs as [|i inputs IH]; intros n H; cbn [data_manifests] in H; [by apply elem_of_nil in H|].
  apply elem_of_cons in H as [->|H]; [exists n; split; [done|lia]|]. apply IH in H as (k & Hk & Hle). exists k. split; [done|]. lia.
Qed.
Lemma data_manifests_plain seq next inputs : Forall (fun f => f_first f = None) (flat_map snd inputs) -> Forall plain (data_manifests seq next inputs).
Proof.
  revert next. induction inputs as [|i inputs IH]; intros next H; cbn [data_manifests]; [constructor|]. cbn [flat_map] in H. apply Forall_app in H as [H1 H2].
  constructor; [|by apply IH]. intros _. cbn [fresh_manifest mf_entries]. by apply Forall_map.
Qed.
Lemma carried_plain parent c : (forall p, parent = Some p -> Forall plain (s_manifests p)) -> Forall plain (carried_of parent c).
Proof.
  intros H. unfold carried_of. destruct parent as [p|]; [|done]. destruct (carries _); [|done].
  apply Forall_map. eapply Forall_impl; [by apply H|]. done.
Qed.
Lemma assign_plain next ms : Forall plain ms -> Forall plain (assign_rows next ms).1.
Proof.
  intros H. pose proof (assign_first next ms) as Ha. induction Ha as [|m m' ms ms' (H1 & H2 & _) _ IH]; [constructor|].
  apply Forall_cons in H as [Hm H]. constructor; [|by apply IH]. intros Hd. rewrite H2. apply Hm. congruence.
Qed.
Lemma build_plain parent start last id c : (forall p, parent = Some p -> Forall plain (s_manifests p)) -> commit_ok c ->
  Forall plain (s_manifests (build_snapshot parent start last id c)).
Proof.
  intros H [Hc _]. rewrite build_manifests. apply Forall_app. split; [by apply assign_plain, carried_plain|]. apply Forall_app. split.
  - apply data_manifests_plain. by rewrite manifest_inputs_perm.
  - apply Forall_map, Forall_forall. intros i _ [=].
Qed.
Lemma assign_next n ms : exists n', (assign_rows (Some n) ms).2 = Some n' /\ n <= n'.
Proof.
  revert n. induction ms as [|m ms IH]; intros n; cbn [assign_rows]; [exists n; split; [done|lia]|].
  destruct (mf_deletes m); [|destruct (mf_first m)].
  - destruct (IH n) as (n' & Hn & Hle). destruct (assign_rows _ ms). exists n'. done.
  - destruct (IH n) as (n' & Hn & Hle). destruct (assign_rows _ ms). exists n'. done.
  - set (k := n + _). destruct (IH k) as (n' & Hn & Hle). destruct (assign_rows _ ms). exists n'. split; [done|]. subst k. lia.
Qed.
(** A row id below the first free one was there before. *)
Lemma build_old parent n last id c x r : (forall p, parent = Some p -> Forall plain (s_manifests p)) -> commit_ok c ->
  x ∈ data_files (build_snapshot parent (Some n) last id c) -> has_row x r -> r < n ->
  exists p, parent = Some p /\ carries (c_kind c) = true /\ x ∈ data_files p.
Proof.
  intros H Hc Hx Hr Hlt. pose proof (build_plain parent (Some n) last id c H Hc) as Hp. rewrite Forall_forall in Hp.
  apply elem_data_files in Hx as (m & Hm & Hd & Hx). specialize (Hp m Hm Hd).
  assert (~ exists k, mf_first m = Some k /\ n <= k) as Hnew.
  { intros (k & Hk & Hle). rewrite Hk in Hx. apply inherit_first in Hx as (j & Hj & Hle'); [|done]. destruct Hr as (j' & Hj' & Hr). assert (j' = j) by congruence. lia. }
  rewrite build_manifests in Hm. apply elem_of_app in Hm as [Hm|Hm].
  - pose proof (assign_first (Some n) (carried_of parent c)) as Ha. apply elem_of_list_lookup in Hm as [i Hi].
    destruct (Forall2_lookup_r _ _ _ _ _ Ha Hi) as (m0 & Hm0 & H1 & H2 & H3). apply elem_of_list_lookup_2 in Hm0.
    destruct H3 as [H3|(_ & _ & n' & k & [= <-] & Hk & Hle)]; [|destruct Hnew; by exists k].
    unfold carried_of in Hm0. destruct parent as [p|]; [|by apply elem_of_nil in Hm0]. destruct (carries (c_kind c)); [|by apply elem_of_nil in Hm0].
    apply elem_of_map_iff in Hm0 as (m1 & -> & Hm1). exists p. split; [done|]. split; [done|]. apply elem_data_files. exists m1. split; [done|].
    cbn [populate mf_deletes mf_first mf_entries] in *. rewrite <- H1, <- H2, <- H3. done.
  - unfold fresh_of in Hm. destruct (assign_next n (carried_of parent c)) as (n' & E & Hn).
    rewrite E in Hm. apply elem_of_app in Hm as [Hm|Hm].
    + apply data_manifests_first in Hm as (k & Hk & Hle). destruct Hnew. exists k. split; [done|lia].
    + apply elem_of_map_iff in Hm as (i & -> & _). discriminate Hd.
Qed.

(** ** Histories *)
Record table_ok (m : meta) : Prop := {
  ok_snaps : forall s, s ∈ m_snaps m ->
    Forall counts_right (s_manifests s) /\ totals_right s /\ Forall plain (s_manifests s) /\ NoDup (flat_map mids (s_manifests s));
  ok_rows : forall s id, s ∈ m_snaps m -> id ∈ flat_map mids (s_manifests s) -> exists n, row_start m = Some n /\ id < n;
  ok_numbered : forall s, current_snapshot m = Some s -> 3 <= m_format m -> Forall numbered (s_manifests s);
  ok_unique : forall s s' x y id, s ∈ m_snaps m -> s' ∈ m_snaps m -> x ∈ data_files s -> y ∈ data_files s' -> has_row x id -> has_row y id -> x = y;
  ok_seq : StronglySorted N.lt (map s_seq (m_snaps m)) /\ Forall (fun s => s_seq s <= m_seq m) (m_snaps m) }.
Lemma empty_ok f s gz : table_ok (empty_meta f s gz).
Proof.
  constructor; cbn [empty_meta m_snaps map].
  - by intros ? ?%elem_of_nil.
  - by intros ? ? ?%elem_of_nil.
  - done.
  - by intros ? ? ? ? ? ?%elem_of_nil.
  - repeat constructor.
Qed.
Lemma row_start_some m : 3 <= m_format m -> exists n, row_start m = Some n.
Proof. intros H. unfold row_start. destruct (N.leb_spec 3 (m_format m)); [eauto|lia]. Qed.
Lemma row_start_v3 m n : row_start m = Some n -> 3 <= m_format m.
Proof. unfold row_start. destruct (N.leb_spec 3 (m_format m)); [done|done]. Qed.
Lemma find_snapshot_in id l s : find_snapshot id l = Some s -> s ∈ l /\ s_id s = id.
Proof.
  unfold find_snapshot. intros H. apply find_some in H as [H1 H2]. split; [by apply elem_of_list_In|]. by apply bool_decide_eq_true in H2.
Qed.
Lemma current_in m s : current_snapshot m = Some s -> s ∈ m_snaps m.
Proof. unfold current_snapshot. destruct (m_current m); [|done]. cbn. by intros [? _]%find_snapshot_in. Qed.
Lemma find_snapshot_app id l s : id ∉ map s_id l -> s_id s = id -> find_snapshot id (l ++ [s]) = Some s.
Proof.
  intros Hn Hid. unfold find_snapshot. induction l as [|t l IH]; cbn [app find].
  - by rewrite bool_decide_true.
  - cbn [map] in Hn. rewrite not_elem_of_cons in Hn. destruct Hn as [H1 H2]. rewrite bool_decide_false by congruence. by apply IH.
Qed.
Definition with_format (m : meta) (f : N) (s : nat) : meta :=
  Meta (N.max (m_format m) f) (m_snaps m) (m_current m) (m_seq m) (m_next_row m) s (m_gz m).
Definition new_snapshot (m : meta) (id : nat) (c : commit) : snapshot :=
  build_snapshot (current_snapshot m) (row_start (with_format m (c_format c) (c_schema c))) (m_seq m) id c.
Lemma build_fields parent start last id c : s_id (build_snapshot parent start last id c) = id /\ s_seq (build_snapshot parent start last id c) = last + 1 /\
  s_first_row (build_snapshot parent start last id c) = start /\ s_parent (build_snapshot parent start last id c) = s_id <$> parent.
Proof. unfold build_snapshot. by destruct (assign_rows _ _). Qed.
Lemma apply_snaps m id c : m_snaps (apply_commit m id c) = m_snaps m ++ [new_snapshot m id c].
Proof. done. Qed.
Lemma apply_current m id c : id ∉ map s_id (m_snaps m) -> current_snapshot (apply_commit m id c) = Some (new_snapshot m id c).
Proof.
  intros H. unfold current_snapshot. cbn [apply_commit m_current m_snaps mbind option_bind]. apply find_snapshot_app; [done|].
  unfold new_snapshot. apply build_fields.
Qed.
Lemma apply_row_start m id c n : row_start (with_format m (c_format c) (c_schema c)) = Some n ->
  exists k, s_added_rows (new_snapshot m id c) = Some k /\ row_start (apply_commit m id c) = Some (n + k).
Proof.
  intros H. pose proof (row_start_v3 _ _ H) as Hv. unfold new_snapshot at 1. destruct (s_added_rows _) as [k|] eqn:E.
  - exists k. split; [done|]. unfold apply_commit. fold (with_format m (c_format c) (c_schema c)). cbv zeta. change (current_snapshot (with_format m (c_format c) (c_schema c))) with (current_snapshot m).
    change (m_seq (with_format m (c_format c) (c_schema c))) with (m_seq m). rewrite H in E. rewrite H, E. unfold row_start. cbn [m_format m_next_row].
    destruct (N.leb_spec 3 (m_format (with_format m (c_format c) (c_schema c)))); [done|lia].
  - exfalso. rewrite H in E. unfold build_snapshot in E. destruct (assign_rows _ _). done.
Qed.
Lemma apply_row_none m id c : row_start (with_format m (c_format c) (c_schema c)) = None -> row_start m = None /\ row_start (apply_commit m id c) = None.
Proof.
  intros H. unfold row_start in *. change (m_format (apply_commit m id c)) with (m_format (with_format m (c_format c) (c_schema c))).
  destruct (N.leb_spec 3 (m_format (with_format m (c_format c) (c_schema c)))) as [|Hf]; [done|]. split; [|done].
  cbn [with_format m_format] in Hf. destruct (N.leb_spec 3 (m_format m)); [lia|done].
Qed.
Lemma with_format_start m f s n : row_start m = Some n -> row_start (with_format m f s) = Some n.
Proof.
  intros H. pose proof (row_start_v3 _ _ H) as Hv. unfold row_start in *. cbn [with_format m_format m_snaps m_next_row].
  destruct (N.leb_spec 3 (m_format m)); [|done]. destruct (N.leb_spec 3 (N.max (m_format m) f)); [done|lia].
Qed.
Lemma ok_parent m s : table_ok m -> current_snapshot m = Some s ->
  Forall counts_right (s_manifests s) /\ totals_right s /\ Forall plain (s_manifests s) /\ NoDup (flat_map mids (s_manifests s)).
Proof. intros H Hs%current_in. by apply H. Qed.
Lemma commit_table_ok m id c : table_ok m -> id ∉ map s_id (m_snaps m) -> commit_ok c -> table_ok (apply_commit m id c).
Proof.
  intros Hm Hid Hc. set (s := new_snapshot m id c).
  assert (forall p, current_snapshot m = Some p -> Forall counts_right (s_manifests p)) as Hcr by (intros p Hp; by apply (ok_parent m)).
  assert (forall p, current_snapshot m = Some p -> Forall plain (s_manifests p)) as Hpl by (intros p Hp; by apply (ok_parent m)).
  assert (forall p, current_snapshot m = Some p -> totals_right p) as Htr by (intros p Hp; by apply (ok_parent m)).
  pose proof (build_ids (current_snapshot m) (row_start (with_format m (c_format c) (c_schema c))) (m_seq m) id c Hcr) as Hids.
  assert (forall r, r ∈ parent_ids (current_snapshot m) c -> exists n, row_start m = Some n /\ r < n) as Hold.
  { intros r Hr. unfold parent_ids, carried_of in Hr. destruct (current_snapshot m) as [p|] eqn:Ep; [|by apply elem_of_nil in Hr].
    destruct (carries _); [|by apply elem_of_nil in Hr]. rewrite populate_ids in Hr. apply (ok_rows m Hm p r); [by apply current_in|done]. }
  assert (NoDup (parent_ids (current_snapshot m) c)) as Hnd.
  { unfold parent_ids, carried_of. destruct (current_snapshot m) as [p|] eqn:Ep; [|constructor]. destruct (carries _); [|constructor].
    rewrite populate_ids. by apply (ok_parent m). }
  assert (NoDup (flat_map mids (s_manifests s)) /\ (forall r, r ∈ flat_map mids (s_manifests s) -> exists n, row_start (apply_commit m id c) = Some n /\ r < n) /\
          (3 <= m_format (apply_commit m id c) -> Forall numbered (s_manifests s))) as (Hs1 & Hs2 & Hs3).
  { subst s. unfold new_snapshot. destruct (row_start (with_format m (c_format c) (c_schema c))) as [n|] eqn:Es.
    - destruct (apply_row_start m id c n Es) as (k & Hk & Hk'). unfold new_snapshot in Hk. rewrite Es in Hk. rewrite Hk in Hids. destruct Hids as [Hp Hnum].
      split; [|split; [|done]].
      + rewrite Hp. apply NoDup_app. split; [done|]. split; [|apply ids_nodup]. intros r Hr Hr'%elem_ids.
        destruct (Hold r Hr) as (n' & Hn' & Hlt). apply (with_format_start m (c_format c) (c_schema c)) in Hn'. assert (n' = n) by congruence. lia.
      + intros r Hr. rewrite Hp in Hr. exists (n + k). split; [done|]. apply elem_of_app in Hr as [Hr|Hr%elem_ids]; [|lia].
        destruct (Hold r Hr) as (n' & Hn' & Hlt). apply (with_format_start m (c_format c) (c_schema c)) in Hn'. assert (n' = n) by congruence. lia.
    - destruct (apply_row_none m id c Es) as [Hn1 Hn2]. destruct (s_added_rows _); [done|]. rewrite Hids. split; [done|]. split.
      + intros r Hr. destruct (Hold r Hr) as (n & Hn & _). congruence.
      + intros Hf. destruct (row_start_some _ Hf). congruence. }
  constructor.
  - intros t Ht. rewrite apply_snaps in Ht. apply elem_of_app in Ht as [Ht|Ht%elem_of_list_singleton]; [by apply Hm|]. subst t.
    assert (Forall counts_known (s_manifests s)) as Hk by (by apply build_known). split; [|split; [|split; [|done]]].
    + eapply Forall_impl; [exact Hk|]. apply known_right.
    + apply build_totals. intros p Hp. split; [by apply Hcr|by apply Htr].
    + by apply build_plain.
  - intros t r Ht Hr. rewrite apply_snaps in Ht. apply elem_of_app in Ht as [Ht|Ht%elem_of_list_singleton]; [|subst t; by apply Hs2].
    destruct (ok_rows m Hm t r Ht Hr) as (n & Hn & Hlt). destruct (apply_row_start m id c n (with_format_start _ _ _ _ Hn)) as (k & _ & Hk).
    exists (n + k). split; [done|lia].
  - intros t Ht Hf. rewrite apply_current in Ht by done. injection Ht as <-. by apply Hs3.
  - assert (forall t x y r, t ∈ m_snaps m -> x ∈ data_files t -> y ∈ data_files s -> has_row x r -> has_row y r -> x = y) as Hnew.
    { intros t x y r Ht Hx Hy Hxr Hyr. destruct (ok_snaps m Hm t Ht) as (_ & _ & Htp & _).
      destruct (ok_rows m Hm t r Ht) as (n & Hn & Hlt). { rewrite <- data_ids by done. apply elem_of_flat_map. exists x. split; [done|by apply has_row_ids]. }
      unfold s, new_snapshot in Hy. rewrite (with_format_start _ _ _ _ Hn) in Hy.
      destruct (build_old _ _ _ _ _ _ _ Hpl Hc Hy Hyr Hlt) as (p & Hp & _ & Hyp). eapply (ok_unique m Hm t p); try done. by apply current_in. }
    intros t t' x y r Ht Ht' Hx Hy Hxr Hyr. rewrite apply_snaps in Ht, Ht'.
    apply elem_of_app in Ht as [Ht|Ht%elem_of_list_singleton]; apply elem_of_app in Ht' as [Ht'|Ht'%elem_of_list_singleton].
    + by eapply (ok_unique m Hm t t').
    + subst t'. by eapply Hnew.
    + subst t. symmetry. by eapply Hnew.
    + subst t t'. fold s in Hx, Hy. rewrite <- data_ids in Hs1 by (by apply build_plain). apply elem_of_list_lookup in Hx as [i Hi], Hy as [j Hj].
      assert (i = j) as -> by (eapply flat_nodup_pos; [exact Hs1|exact Hi|exact Hj|by apply has_row_ids|by apply has_row_ids]). congruence.
  - rewrite apply_snaps. destruct (ok_seq m Hm) as [Q1 Q2]. assert (s_seq (new_snapshot m id c) = m_seq m + 1) as Hq by apply build_fields. split.
    + rewrite map_app. cbn [map]. rewrite Hq. clear -Q1 Q2. induction (m_snaps m) as [|t l IH]; [repeat constructor|]. cbn [map app] in *.
      apply StronglySorted_inv in Q1 as [Q1 Q1']. apply Forall_cons in Q2 as [Q2 Q2']. constructor; [by apply IH|]. apply Forall_app. split; [done|].
      constructor; [lia|constructor].
    + change (m_seq (apply_commit m id c)) with (N.max (m_seq m) (s_seq (new_snapshot m id c))). rewrite Hq. apply Forall_app. split.
      * eapply Forall_impl; [exact Q2|]. cbn. intros. lia.
      * constructor; [lia|constructor].
Qed.
Lemma replace_table_ok m f s gz : table_ok m -> table_ok (replace_meta m f s gz).
Proof.
  intros Hm. constructor.
  - apply Hm.
  - intros t r Ht Hr. destruct (ok_rows m Hm t r Ht Hr) as (n & Hn & Hlt). exists n. split; [|done].
    pose proof (row_start_v3 _ _ Hn) as Hv. unfold row_start in Hn |- *. cbn [replace_meta m_format m_snaps m_next_row].
    destruct (N.leb_spec 3 (N.max (m_format m) f)); [|lia]. unfold row_start. cbn [m_format m_snaps m_next_row].
    destruct (N.leb_spec 3 (N.max (m_format m) f)); [|lia]. destruct (N.leb_spec 3 (m_format m)); [done|lia].
  - done.
  - apply Hm.
  - apply Hm.
Qed.
Lemma change_snaps m x : map s_id (m_snaps (apply_change m x)) = map s_id (m_snaps m) ++ change_ids [x].
Proof.
  destruct x as [id c|f s gz]; cbn [apply_change].
  - rewrite apply_snaps, map_app. cbn. f_equal. f_equal. apply build_fields.
  - cbn. by rewrite app_nil_r.
Qed.
Lemma history_ok m l : table_ok m -> NoDup (map s_id (m_snaps m) ++ change_ids l) -> Forall change_ok l -> table_ok (history m l).
Proof.
  revert m. induction l as [|x l IH]; intros m Hm Hn Hl; [done|]. apply Forall_cons in Hl as [Hx Hl]. cbn [history fold_left]. apply IH; [| |done].
  - destruct x as [id c|f s gz]; cbn [apply_change]; [|by apply replace_table_ok]. apply commit_table_ok; [done| |done].
    intros Hin. apply NoDup_app in Hn as (_ & Hn & _). apply (Hn id Hin). left.
  - rewrite change_snaps, <- app_assoc. by destruct x.
Qed.
Lemma history_next m l : (3 <= m_format m -> m_next_row m <> None) -> 3 <= m_format (history m l) -> m_next_row (history m l) <> None.
Proof.
  revert m. induction l as [|x l IH]; intros m Hm; [done|]. cbn [history fold_left]. apply IH. destruct x as [id c|f s gz]; cbn [apply_change].
  - intros Hf. assert (3 <= m_format (with_format m (c_format c) (c_schema c))) as Hf' by done.
    destruct (row_start_some _ Hf') as [n Hn]. destruct (apply_row_start m id c n Hn) as (k & _ & Hk). intros E.
    unfold apply_commit in E. fold (with_format m (c_format c) (c_schema c)) in E. cbv zeta in E. cbn [m_next_row] in E. rewrite Hn in E.
    unfold build_snapshot in E. destruct (assign_rows _ _) in E. discriminate E.
  - intros Hf. cbn [replace_meta m_next_row m_format] in *. destruct (row_start_some (Meta (N.max (m_format m) f) (m_snaps m) None (m_seq m) (m_next_row m) s gz) Hf) as [n ->]. done.
Qed.
(** ** The properties *)
Definition created (f : N) (sch : nat) (gz : bool) (l : list change) : meta := history (empty_meta f sch gz) l.
Lemma created_ok f sch gz l : NoDup (change_ids l) -> Forall change_ok l -> table_ok (created f sch gz l).
Proof. intros. by apply history_ok; [apply empty_ok| |]. Qed.
Lemma created_start f sch gz l n : row_start (created f sch gz l) = Some n -> m_next_row (created f sch gz l) = Some n.
Proof.
  intros H. pose proof (row_start_v3 _ _ H) as Hv. assert (m_next_row (created f sch gz l) <> None) as Hn.
  { apply history_next; [|done]. cbn [empty_meta m_format m_next_row]. intros Hf. by destruct (N.leb_spec 3 f); [|lia]. }
  unfold row_start in H. destruct (N.leb_spec 3 (m_format (created f sch gz l))); [|done]. destruct (m_next_row _); [|done]. exact H.
Qed.
Lemma created_totals f sch gz l : NoDup (change_ids l) -> Forall change_ok l -> forall s, s ∈ m_snaps (created f sch gz l) -> totals_right s.
Proof. intros H1 H2 s Hs. by apply (ok_snaps _ (created_ok f sch gz l H1 H2)). Qed.
Lemma created_distinct f sch gz l : NoDup (change_ids l) -> Forall change_ok l -> forall s, s ∈ m_snaps (created f sch gz l) ->
  rows_distinct (data_files s) (default 0 (m_next_row (created f sch gz l))).
Proof.
  intros H1 H2 s Hs. pose proof (created_ok f sch gz l H1 H2) as Hok. destruct (ok_snaps _ Hok s Hs) as (_ & _ & Hp & Hn). rewrite <- data_ids in Hn by done. split.
  - intros i j x y id Hi Hj Hx%has_row_ids Hy%has_row_ids. by eapply flat_nodup_pos.
  - intros x id Hx Hid%has_row_ids. destruct (ok_rows _ Hok s id Hs) as (n & Hn' & Hlt).
    { rewrite <- data_ids by done. apply elem_of_flat_map. by exists x. }
    apply created_start in Hn'. by rewrite Hn'.
Qed.
Lemma created_unique f sch gz l : NoDup (change_ids l) -> Forall change_ok l -> forall s s' x y id,
  s ∈ m_snaps (created f sch gz l) -> s' ∈ m_snaps (created f sch gz l) -> x ∈ data_files s -> y ∈ data_files s' -> has_row x id -> has_row y id -> x = y.
Proof. intros H1 H2. apply (ok_unique _ (created_ok f sch gz l H1 H2)). Qed.
Lemma inherit_complete n es x : x ∈ inherit_rows (Some n) es -> x.2 <> None.
Proof.
  revert n. induction es as [|[s f] es IH]; intros n H; cbn [inherit_rows] in H; [by apply elem_of_nil in H|]. destruct (is_live s); [|by eapply IH].
  apply elem_of_cons in H as [->|H]; [by destruct (f_first f)|by eapply IH].
Qed.
Lemma created_complete f sch gz l : NoDup (change_ids l) -> Forall change_ok l -> 3 <= m_format (created f sch gz l) ->
  forall s x, current_snapshot (created f sch gz l) = Some s -> x ∈ data_files s -> x.2 <> None.
Proof.
  intros H1 H2 Hf s x Hs Hx. pose proof (ok_numbered _ (created_ok f sch gz l H1 H2) s Hs Hf) as Hn. rewrite Forall_forall in Hn.
  apply elem_data_files in Hx as (m & Hm & Hd & Hx). specialize (Hn m Hm Hd). destruct (mf_first m) as [n|]; [|done]. by eapply inherit_complete.
Qed.
Lemma created_stable f sch gz l id c p x : NoDup (change_ids l) -> Forall change_ok l -> id ∉ change_ids l ->
  current_snapshot (created f sch gz l) = Some p -> carries (c_kind c) = true -> x ∈ data_files p -> x.2 <> None ->
  exists s, current_snapshot (apply_commit (created f sch gz l) id c) = Some s /\ x ∈ data_files s.
Proof.
  intros H1 H2 Hid Hp Hc Hx Hn. exists (new_snapshot (created f sch gz l) id c). split.
  - apply apply_current. enough (map s_id (m_snaps (created f sch gz l)) = change_ids l) as -> by done.
    clear. unfold created. enough (forall m, map s_id (m_snaps (history m l)) = map s_id (m_snaps m) ++ change_ids l) as -> by done.
    induction l as [|a l IH]; intros m; [by rewrite app_nil_r|]. cbn [history fold_left]. change (fold_left apply_change l ?x) with (history x l). rewrite IH, change_snaps, <- app_assoc. by destruct a.
  - unfold new_snapshot. rewrite Hp. apply build_stable; try done. by apply (ok_parent _ p (created_ok f sch gz l H1 H2)).
Qed.
Lemma created_sequence f sch gz l : NoDup (change_ids l) -> Forall change_ok l -> StronglySorted N.lt (map s_seq (m_snaps (created f sch gz l))) /\
  Forall (fun s => s_seq s <= m_seq (created f sch gz l)) (m_snaps (created f sch gz l)).
Proof. intros H1 H2. apply (ok_seq _ (created_ok f sch gz l H1 H2)). Qed.
Lemma commit_files m id c : id ∉ map s_id (m_snaps m) -> exists s, current_snapshot (apply_commit m id c) = Some s /\
  m_snaps (apply_commit m id c) = m_snaps m ++ [s] /\ s_id s = id /\ s_parent s = s_id <$> current_snapshot m /\ s_seq s = m_seq m + 1 /\
  live_files false s ≡ₚ files_after false (current_snapshot m) c ++ c_data c /\
  live_files true s ≡ₚ files_after true (current_snapshot m) c ++ c_deletes c.
Proof.
  intros H. exists (new_snapshot m id c). split; [by apply apply_current|]. split; [done|].
  destruct (build_fields (current_snapshot m) (row_start (with_format m (c_format c) (c_schema c))) (m_seq m) id c) as (H1 & H2 & _ & H4).
  split; [done|]. split; [done|]. split; [done|]. apply build_live.
Qed.
Lemma inherit_spec next es : Forall (fun e : status * file => f_first e.2 = None) es -> inherit_rows next es = spec_rows next es.
Proof.
  revert next. induction es as [|[s f] es IH]; intros next H; [done|]. apply Forall_cons in H as [Hf H]. cbn [snd] in Hf.
  cbn [inherit_rows spec_rows]. rewrite Hf. destruct s; cbn [is_live]; by rewrite IH.
Qed.
