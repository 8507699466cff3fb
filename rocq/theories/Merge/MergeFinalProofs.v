(** The three executions of MERGE against its meaning. *)
From Coq Require Import NArith ZArith Lia.
From stdpp Require Import prelude list.
From Verif.Lib Require Import Text.
From Verif.Merge Require Import MergeModel MergeSpec MergeProofs MergeResultProofs.

Lemma not_ambiguous m tb ss t :
  ~ ambiguous m (rows_of tb) ss -> t ∈ rows_of tb ->
  several_allowed m \/ length (matches m ss t) <= 1.
Proof.
  intros Hn Ht. destruct (decide (length (matches m ss t) <= 1)) as [H|H]; [by right|].
  left. apply should_check_spec. apply not_true_iff_false. intros Hc. apply Hn. split.
  - rewrite <- should_check_spec. congruence.
  - apply Exists_exists. exists t. split; [done|lia].
Qed.

(** One file at a time. *)
Lemma rows_by_file (F : N -> row -> option row) tb :
  omap (fun t => F (t_path t) (t_cells t)) (scan tb) =
  concat (map (fun f => omap (F (f_path f)) (map snd (f_rows f))) tb).
Proof.
  rewrite scan_eq, (omap_imap_indep _ _ (fun p : N * nat * row => F p.1.1 p.2)) by done.
  rewrite omap_concat_map. f_equal. apply map_ext. intros f. unfold scan_file.
  by rewrite !omap_map'.
Qed.
Lemma result_by_file (F : row -> option row) tb :
  omap F (rows_of tb) = concat (map (fun f => omap F (map snd (f_rows f))) tb).
Proof. unfold rows_of. by rewrite omap_concat_map. Qed.

Lemma in_rows_of tb f k r : f ∈ tb -> (k, r) ∈ f_rows f -> r ∈ rows_of tb.
Proof.
  intros Hf Hk. unfold rows_of. apply elem_concat_map. exists f. split; [done|].
  apply elem_of_list_fmap. by exists (k, r).
Qed.
Lemma in_scan_rows tb t : t ∈ scan tb -> t_cells t ∈ rows_of tb.
Proof. intros H. rewrite <- scan_cells. apply elem_of_list_fmap. eauto. Qed.

(* ---- Insert-only statements ---- *)

Lemma insert_only_fast m : statement_ok m -> insert_only m = true -> can_fast_append m = true.
Proof.
  intros [_ Hr] Hi. unfold can_fast_append. rewrite Hi. cbn [andb].
  apply negb_true_iff, not_true_iff_false. intros He.
  apply existsb_exists in He as (c & Hc & Hrc). rewrite Forall_forall in Hr.
  rewrite Hr in Hrc; [done|by apply elem_of_list_In].
Qed.
Lemma fast_insert_only m : can_fast_append m = true -> insert_only m = true.
Proof. unfold can_fast_append. by intros [? _]%andb_true_iff. Qed.

Lemma fast_result m ss t : can_fast_append m = true -> target_result m ss t = Some t.
Proof.
  intros Hf. destruct (fast_matched_nil m Hf) as [Hm Hs]. apply unaffected_result.
  - left. by left.
  - unfold affected. rewrite Hm, Hs. destruct (matches m ss t) as [|s l].
    + by intros [].
    + intros He. apply Exists_exists in He as (x & _ & Hx). by destruct Hx.
Qed.
Lemma fast_merged m tb ss :
  can_fast_append m = true -> merged m (rows_of tb) ss = rows_of tb ++ inserts m (rows_of tb) ss.
Proof.
  intros Hf. unfold merged. f_equal. apply omap_some. intros t _. by apply fast_result.
Qed.

(* ---- Copy on write ---- *)

Lemma delta_write_rows path ws :
  rows_of [delta_write path ws] = omap (out_by (fun o => negb (metric_only o))) ws.
Proof.
  unfold delta_write. rewrite rows_of_new, map_filter_omap. apply omap_ext'. intros w _.
  unfold out_by. by destruct (metric_only (w_op w)).
Qed.

Lemma written_delta m ss t :
  (several_allowed m \/ length (matches m ss t) <= 1) ->
  (m_matched m = [] -> length (matches m ss t) <= 1) ->
  written (fun o => negb (metric_only o)) m ss t = target_result m ss t.
Proof.
  unfold written, target_result, unmatched_result, matched_result. intros Ha Hs.
  destruct (matches m ss t) as [|s [|s' l]].
  - by destruct (first_action _ _ _) as [[]|].
  - by destruct (first_action _ _ _) as [[]|].
  - destruct (m_matched m); [|done]. specialize (Hs eq_refl). cbn in Hs. lia.
Qed.
Lemma several_deleted m ss t :
  (several_allowed m \/ length (matches m ss t) <= 1) ->
  (m_matched m = [] -> length (matches m ss t) <= 1) ->
  2 <= length (matches m ss t) ->
  Forall (fun s => negb (metric_only (matched_op
     (first_action (m_matched m) (Some t) (Some s)))) = false) (matches m ss t).
Proof.
  intros Ha Hs H2. destruct Ha as [[Ha|Ha]|Ha]; [specialize (Hs Ha); lia| |lia].
  rewrite Ha. by apply Forall_true.
Qed.

Lemma split_files (P : file -> Prop) `{!forall f, Decision (P f)} (G : file -> list row) tb :
  rows_of (filter P tb) ++ concat (map (fun f => if decide (P f) then [] else G f) tb) ≡ₚ
  concat (map (fun f => if decide (P f) then map snd (f_rows f) else G f) tb).
Proof.
  induction tb as [|f tb IH]; [done|]. rewrite filter_cons. cbn [map concat].
  destruct (decide (P f)).
  - change (f :: filter P tb) with ([f] ++ filter P tb). rewrite rows_of_app.
    unfold rows_of at 1. cbn [map concat]. rewrite app_nil_r, app_nil_l, <- app_assoc.
    by rewrite IH.
  - rewrite <- IH. rewrite (Permutation_app_comm (rows_of _)), <- app_assoc.
    by rewrite (Permutation_app_comm _ (rows_of _)).
Qed.

Lemma cow_correct m unique path tb ss tb' :
  statement_ok m -> table_ok m tb -> unique_ok m unique (rows_of tb) ss ->
  (m_matched m = [] -> m_by_source m <> [] ->
     Forall (fun t => length (matches m ss t) <= 1) (rows_of tb)) ->
  run_cow m unique path tb ss = Some tb' ->
  rows_of tb' ≡ₚ merged m (rows_of tb) ss.
Proof.
  intros Hst Htb Hu Hone Hrun. unfold run_cow in Hrun.
  destruct (expand m unique false (scan tb) ss) as [x|] eqn:Ex; [|done].
  cbn [mbind option_bind] in Hrun. injection Hrun as <-.
  assert (Hna : ~ ambiguous m (rows_of tb) ss).
  { rewrite <- (expand_none m unique false tb ss Hu). by rewrite Ex. }
  unfold expand in Ex. destruct (insert_only m) eqn:Ei.
  - rewrite (insert_only_fast m Hst Ei) in Ex. injection Ex as <-.
    rewrite rows_of_app, delta_write_rows, fast_out by done.
    rewrite inserts_eq, fast_merged by (by apply insert_only_fast). done.
  - destruct (can_fast_append m) eqn:Ef; [apply fast_insert_only in Ef; congruence|].
    destruct (_ && _) in Ex; [done|]. injection Ex as <-.
    set (x := default_expansion m false (full_join m (scan tb) ss)).
    rewrite rows_of_app, delta_write_rows, omap_filter.
    assert (Hmn : m_matched m = [] -> m_by_source m <> []).
    { intros Hm Hs. unfold insert_only in Ei. rewrite Hm, Hs in Ei. destruct Hst as [Hc _].
      destruct (m_by_target m); [|done]. naive_solver. }
    assert (Hone' : forall t, t ∈ rows_of tb -> m_matched m = [] ->
                    length (matches m ss t) <= 1).
    { intros t Ht Hm. specialize (Hone Hm (Hmn Hm)). rewrite Forall_forall in Hone. eauto. }
    match goal with |- context [omap ?f (x_rows x)] => set (out := f) end.
    unfold x. rewrite (expansion_out m false (scan tb) ss out) by done. fold x.
    rewrite inserts_eq. unfold merged. rewrite app_assoc. apply Permutation_app_tail.
    assert (Ht : map (fun t => omap out (map (project m) (join_target m ss t))) (scan tb) =
      map (fun t => option_list
        (if decide (t_path t ∈ x_touched x) then target_result m ss (t_cells t) else None))
        (scan tb)).
    { apply map_ext'. intros t Ht.
      pose proof (in_scan_rows tb t Ht) as Hr.
      pose proof (not_ambiguous m tb ss _ Hna Hr) as Hall.
      pose proof (Hone' _ Hr) as Ho.
      rewrite (omap_ext' out (fun w => if decide (t_path t ∈ x_touched x)
        then out_by (fun o => negb (metric_only o)) w else None)).
      2: { intros w Hw. unfold out. rewrite (target_paths _ _ _ _ Hw).
           destruct (decide (t_path t ∈ x_touched x)) as [Hp|Hp].
           - rewrite decide_True; [done|]. by rewrite bool_decide_true.
           - rewrite decide_False; [done|]. by rewrite bool_decide_false. }
      destruct (decide (t_path t ∈ x_touched x)); [|by apply omap_none].
      rewrite target_out; [by rewrite written_delta| |by apply several_deleted].
      by eapply table_row_ok. }
    rewrite Ht, concat_option_list.
    rewrite result_by_file.
    etransitivity; [apply Permutation_app_head, reflexive_eq;
      exact (rows_by_file (fun p r =>
        if decide (p ∈ x_touched x) then target_result m ss r else None) tb)|].
    transitivity (rows_of (filter (fun f => f_path f ∉ x_touched x) tb) ++
      concat (map (fun f => if decide (f_path f ∉ x_touched x) then []
        else omap (target_result m ss) (map snd (f_rows f))) tb)).
    { f_equiv. apply reflexive_eq. f_equal. apply map_ext. intros f.
      destruct (decide (f_path f ∈ x_touched x)) as [Hp|Hp].
      - by rewrite decide_False by (by intros H; apply H).
      - rewrite decide_True by done. by apply omap_none. }
    rewrite split_files. apply reflexive_eq. f_equal. apply map_ext'. intros f Hf.
    destruct (decide (f_path f ∉ x_touched x)) as [Hp|Hp]; [|done].
    symmetry. apply omap_some. intros r Hr. apply elem_of_list_fmap in Hr as ([k r'] & -> & Hk).
    cbn [snd]. apply unaffected_result.
    + apply (not_ambiguous m tb ss r' Hna). by eapply in_rows_of.
    + intros Ha. apply Hp, touched_spec.
      destruct (elem_scan tb f k r' Hf Hk) as (t & Ht' & H1 & H2 & H3).
      exists t. by rewrite H3.
Qed.

Lemma cow_files m unique path tb ss tb' f :
  statement_ok m -> table_ok m tb ->
  run_cow m unique path tb ss = Some tb' ->
  f ∈ tb -> f_path f <> path ->
  (f ∈ tb' <-> Forall (fun ir : nat * row => ~ affected m ss ir.2) (f_rows f)).
Proof.
  intros Hst Htb Hrun Hf Hpath. unfold run_cow in Hrun.
  destruct (expand m unique false (scan tb) ss) as [x|] eqn:Ex; [|done].
  cbn [mbind option_bind] in Hrun. injection Hrun as <-.
  assert (Hnew : forall ws, f ∈ [delta_write path ws] <-> False).
  { intros ws. rewrite elem_of_list_singleton. split; [|done]. intros ->. by apply Hpath. }
  unfold expand in Ex. destruct (insert_only m) eqn:Ei.
  - pose proof (insert_only_fast m Hst Ei) as Hfa.
    rewrite elem_of_app, Hnew. split; [|by left]. intros _. apply Forall_true.
    intros [k r] Ha. cbn [snd] in Ha. destruct (fast_matched_nil m Hfa) as [Hm Hs].
    unfold affected in Ha. rewrite Hm, Hs in Ha. destruct (matches m ss r).
    + by destruct Ha.
    + apply Exists_exists in Ha as (? & _ & [? ?]). done.
  - destruct (can_fast_append m) eqn:Ef; [apply fast_insert_only in Ef; congruence|].
    destruct (_ && _) in Ex; [done|]. injection Ex as <-.
    rewrite elem_of_app, Hnew, elem_of_list_filter, touched_spec, Forall_forall. split.
    + intros [[Hn _]|[]] [k r] Hk Ha. cbn [snd] in Ha. apply Hn.
      destruct (elem_scan tb f k r Hf Hk) as (t & Ht' & H1 & H2 & H3).
      exists t. by rewrite H3.
    + intros Hall. left. split; [|done]. intros (t & Ht & Hp & Ha).
      apply scan_elem in Ht as (g & Hg & Hgp & Hr).
      assert (g = f) as ->.
      { destruct Htb as [Hnd _].
        apply elem_of_list_lookup in Hg as (a & Hg). apply elem_of_list_lookup in Hf as (b & Hf).
        assert (a = b) as ->; [|congruence].
        eapply NoDup_lookup; [exact Hnd|..];
          change (map f_path) with (fmap (M := list) f_path); rewrite list_lookup_fmap.
        - by rewrite Hg.
        - rewrite Hf. cbn. congruence. }
      by apply (Hall _ Hr).
Qed.

(* ---- Delta merge on read ---- *)

Lemma delete_rows_of m tb ss ds :
  table_ok m tb ->
  (forall p, p ∈ ds <-> exists t, t ∈ scan tb /\ (t_path t, t_index t) = p /\ affected m ss (t_cells t)) ->
  rows_of (delete_rows ds tb) = filter (fun r => ~ affected m ss r) (rows_of tb).
Proof.
  intros Htb Hds. unfold rows_of, delete_rows. rewrite map_map. cbn [f_rows].
  transitivity (concat (map (fun f => filter (fun r => ~ affected m ss r) (map snd (f_rows f))) tb)).
  - f_equal. apply map_ext'. intros f Hf.
    assert (Hall : forall k r, (k, r) ∈ f_rows f -> ((f_path f, k) ∈ ds <-> affected m ss r)).
    { intros k r Hk. rewrite Hds. by apply place_affected. }
    clear Hf. induction (f_rows f) as [|[k r] l IH]; [done|].
    cbn [map]. rewrite !filter_cons. cbn [fst snd].
    assert (Hkr : (f_path f, k) ∈ ds <-> affected m ss r) by (apply Hall; left).
    assert (IH' := IH (fun k' r' H' => Hall k' r' (elem_of_list_further _ _ _ H'))).
    destruct (decide (affected m ss r)) as [Ha|Ha].
    + rewrite decide_False by tauto. rewrite decide_False by tauto. done.
    + rewrite decide_True by tauto. rewrite decide_True by tauto. cbn [map]. by rewrite IH'.
  - clear. induction tb as [|f tb IH]; [done|]. cbn [map concat]. by rewrite filter_app, IH.
Qed.

Lemma first_action_in {A} (cs : list (clause A)) t s a :
  first_action cs t s = Some a -> exists c, In c cs /\ c_action c = a.
Proof.
  rewrite first_action_find. destruct (list_find _ _) as [[k c]|] eqn:E; [|done].
  intros [= <-]. apply list_find_Some in E as (Hk & _ & _). exists c. split; [|done].
  apply elem_of_list_In. by eapply elem_of_list_lookup_2.
Qed.

Lemma no_update_matched m t s a :
  has_update m = false -> first_action (m_matched m) t s = Some a -> a = MDelete.
Proof.
  unfold has_update. intros [Hu _]%orb_false_iff (c & Hc & <-)%first_action_in.
  apply not_true_iff_false in Hu. destruct (c_action c) eqn:E; [done|..]; destruct Hu;
    apply existsb_exists; exists c; by rewrite E.
Qed.
Lemma no_update_by_source m t s a :
  has_update m = false -> first_action (m_by_source m) t s = Some a -> a = SDelete.
Proof.
  unfold has_update. intros [_ Hu]%orb_false_iff (c & Hc & <-)%first_action_in.
  apply not_true_iff_false in Hu. destruct (c_action c) eqn:E; [done|..]; destruct Hu;
    apply existsb_exists; exists c; by rewrite E.
Qed.

Lemma affected_deleted m ss t :
  has_update m = false ->
  (several_allowed m \/ length (matches m ss t) <= 1) ->
  affected m ss t -> target_result m ss t = None.
Proof.
  unfold affected, target_result, unmatched_result, matched_result. intros Hu Hal Ha.
  destruct (matches m ss t) as [|s [|s' l]].
  - destruct Ha as [a Ha]. pose proof (no_update_by_source _ _ _ _ Hu Ha) as ->. by rewrite Ha.
  - apply Exists_exists in Ha as (x & Hx & [a Ha]). apply elem_of_list_singleton in Hx as ->.
    pose proof (no_update_matched _ _ _ _ Hu Ha) as ->. by rewrite Ha.
  - apply Exists_exists in Ha as (x & Hx & [a Ha]).
    destruct (m_matched m); [done|]. done.
Qed.

Lemma filter_omap_split {A} (f : A -> option A) (P : A -> Prop) `{!forall x, Decision (P x)}
    (l : list A) :
  (forall x, x ∈ l -> ~ P x -> f x = Some x) ->
  filter (fun x => ~ P x) l ++ omap (fun x => if decide (P x) then f x else None) l ≡ₚ omap f l.
Proof.
  intros Hx. induction l as [|x l IH]; [done|]. rewrite filter_cons, !omap_cons'.
  assert (IH' := IH (fun y Hy => Hx y (elem_of_list_further _ _ _ Hy))). clear IH.
  destruct (decide (P x)) as [Hp|Hp].
  - rewrite decide_False by tauto. destruct (f x); [|done].
    by rewrite <- Permutation_middle, IH'.
  - rewrite decide_True by done. rewrite (Hx x (elem_of_list_here _ _) Hp). cbn. by rewrite IH'.
Qed.

Lemma has_clause m : has_delete m = false -> has_update m = false ->
  m_matched m = [] /\ m_by_source m = [].
Proof.
  unfold has_delete, has_update. intros [H1 H2]%orb_false_iff [H3 H4]%orb_false_iff. split.
  - destruct (m_matched m) as [|c l]; [done|]. cbn in *. by destruct (c_action c).
  - destruct (m_by_source m) as [|c l]; [done|]. cbn in *. by destruct (c_action c).
Qed.

Lemma mor_correct m unique path tb ss tb' :
  statement_ok m -> table_ok m tb -> unique_ok m unique (rows_of tb) ss ->
  run_mor m unique path tb ss = Done tb' ->
  rows_of tb' ≡ₚ merged m (rows_of tb) ss.
Proof.
  intros Hst Htb Hu Hrun. unfold run_mor in Hrun.
  destruct (has_update m) eqn:Hup; [done|].
  destruct (expand m unique (has_delete m) (scan tb) ss) as [x|] eqn:Ex; [|done].
  assert (Hna : ~ ambiguous m (rows_of tb) ss).
  { rewrite <- (expand_none m unique (has_delete m) tb ss Hu). by rewrite Ex. }
  unfold expand in Ex. destruct (insert_only m) eqn:Ei.
  - rewrite (insert_only_fast m Hst Ei) in Ex. injection Ex as <-.
    assert (Hr : tb ++ [delta_write path (x_rows (fast_expansion m (scan tb) ss))] = tb')
      by (by injection Hrun).
    rewrite <- Hr. clear Hr Hrun.
    rewrite rows_of_app, delta_write_rows, fast_out by done.
    rewrite inserts_eq, fast_merged by (by apply insert_only_fast). done.
  - destruct (can_fast_append m) eqn:Ef; [apply fast_insert_only in Ef; congruence|].
    destruct (_ && _) in Ex; [done|].
    destruct (has_delete m) eqn:Hd.
    2: { destruct (has_clause m Hd Hup) as [Hm Hs]. unfold insert_only in Ei.
         rewrite Hm, Hs in Ei. destruct Hst as [Hc _]. destruct (m_by_target m); [|done].
         naive_solver. }
    injection Ex as <-.
    destruct (x_deletes (default_expansion m true (full_join m (scan tb) ss))) as [ds|] eqn:Eds;
      [|done].
    assert (Hr : delete_rows ds tb ++ [delta_write path (filter (fun w => w_path w = None)
        (x_rows (default_expansion m true (full_join m (scan tb) ss))))] = tb')
      by (by injection Hrun).
    rewrite <- Hr. clear Hr Hrun.
    pose proof (fun p => deletes_spec m (scan tb) ss ds p Eds) as Hds.
    rewrite rows_of_app, delta_write_rows, omap_filter, (delete_rows_of m tb ss ds Htb Hds).
    rewrite expansion_out by done. rewrite inserts_eq.
    assert (Hz : concat (map (fun t => omap (fun w => if decide (w_path w = None)
        then out_by (fun o => negb (metric_only o)) w else None)
        (map (project m) (join_target m ss t))) (scan tb)) = []).
    { generalize (scan tb) as l. induction l as [|t l IH]; [done|]. cbn [map concat].
      rewrite IH, app_nil_r. apply omap_none. intros w Hw.
      by rewrite (target_paths _ _ _ _ Hw). }
    rewrite Hz, app_nil_l. unfold merged. apply Permutation_app_tail.
    rewrite <- (filter_omap_split (target_result m ss) (affected m ss)).
    + rewrite (omap_none (fun x => if decide _ then _ else _)); [by rewrite app_nil_r|].
      intros t Ht. destruct (decide (affected m ss t)) as [Ha|]; [|done].
      apply affected_deleted; [done| |done]. by apply (not_ambiguous m tb).
    + intros t Ht Hn. apply unaffected_result; [|done]. by apply (not_ambiguous m tb).
Qed.

(* ---- Iceberg ---- *)

Lemma written_iceberg m ss t :
  (several_allowed m \/ length (matches m ss t) <= 1) ->
  written writes_data m ss t = (if decide (affected m ss t) then target_result m ss t else None).
Proof.
  unfold written, target_result, unmatched_result, matched_result. intros Ha.
  destruct (decide (affected m ss t)) as [Hd|Hd]; unfold affected in Hd; revert Hd;
    destruct (matches m ss t) as [|s [|s' l]]; intros Hd.
  - destruct Hd as [a Hd]. rewrite Hd. by destruct a.
  - apply Exists_exists in Hd as (x & Hx & [a Hs]). apply elem_of_list_singleton in Hx as ->.
    rewrite Hs. by destruct a.
  - apply Exists_exists in Hd as (x & _ & [a Hs]). by destruct (m_matched m).
  - destruct (first_action _ _ _) as [a|]; [|done]. destruct Hd. eauto.
  - destruct (first_action _ _ _) as [a|] eqn:E; [|done]. destruct Hd. constructor.
    rewrite E. eauto.
  - done.
Qed.
Lemma several_not_written m ss t :
  (several_allowed m \/ length (matches m ss t) <= 1) ->
  2 <= length (matches m ss t) ->
  Forall (fun s => writes_data (matched_op
     (first_action (m_matched m) (Some t) (Some s))) = false) (matches m ss t).
Proof.
  intros Ha H2. destruct Ha as [[Ha|Ha]|Ha]; [| |lia]; rewrite Ha; by apply Forall_true.
Qed.

Lemma iceberg_deletes m tb ss p ri :
  table_ok m tb ->
  p ∈ omap (fun w => p ← w_path w; i ← w_index w; Some (p, i))
        (filter (fun w => writes_delete (w_op w) = true)
           (x_rows (default_expansion m ri (full_join m (scan tb) ss)))) <->
  exists t, t ∈ scan tb /\ (t_path t, t_index t) = p /\ affected m ss (t_cells t).
Proof.
  intros Htb. rewrite elem_of_list_omap. setoid_rewrite elem_of_list_filter.
  cbn [x_rows default_expansion]. setoid_rewrite elem_of_app.
  setoid_rewrite elem_of_list_singleton.
  assert (Haff : forall t, t ∈ scan tb ->
    (exists j, j ∈ join_target m ss t /\ writes_delete (w_op (project m j)) = true) <->
    affected m ss (t_cells t)).
  { intros t Ht. pose proof (table_row_ok m tb t Htb Ht) as Hl.
    apply (affected_exists (fun j => writes_delete (w_op (project m j)) = true)).
    - intros s _. rewrite project_matched by done. cbn [w_op].
      destruct (first_action _ _ _) as [[]|]; cbn; split; try done; try (by eauto).
      by intros [].
    - rewrite project_by_source by done. cbn [w_op].
      destruct (first_action _ _ _) as [[]|]; cbn; split; try done; try (by eauto).
      by intros []. }
  split.
  - intros (w & (Hd & [Hw| ->]) & Hp); [|done].
    apply elem_of_list_fmap in Hw as (j & -> & Hj).
    apply elem_of_list_filter in Hj as [_ Hj]. unfold full_join in Hj.
    apply elem_of_app in Hj as [Hj|Hj].
    + apply elem_concat_map in Hj as (t & Ht & Hj). exists t.
      pose proof (join_target_t _ _ _ _ Hj) as Hjt.
      split_and!; [done| |apply (Haff t Ht); eauto].
      cbn in Hp. rewrite Hjt in Hp. cbn in Hp. by injection Hp.
    + apply elem_of_list_fmap in Hj as (s & -> & _). rewrite project_by_target in Hd. done.
  - intros (t & Ht & <- & Ha). apply (Haff t Ht) in Ha as (j & Hj & Hd).
    pose proof (join_target_t _ _ _ _ Hj) as Hjt.
    exists (project m j). split.
    + split; [done|]. left. apply elem_of_list_fmap. exists j. split; [done|].
      apply elem_of_list_filter. split.
      * rewrite Hjt. apply or3_true. by left.
      * unfold full_join. apply elem_of_app. left. apply elem_concat_map. eauto.
    + cbn. by rewrite Hjt.
Qed.

Lemma iceberg_correct m unique path tb ss tb' :
  table_ok m tb -> unique_ok m unique (rows_of tb) ss ->
  run_iceberg m unique path tb ss = Some tb' ->
  rows_of tb' ≡ₚ merged m (rows_of tb) ss.
Proof.
  intros Htb Hu Hrun. unfold run_iceberg in Hrun.
  destruct (expand m unique _ (scan tb) ss) as [x|] eqn:Ex; [|done].
  cbn [mbind option_bind] in Hrun. injection Hrun as <-.
  assert (Hna : ~ ambiguous m (rows_of tb) ss).
  { rewrite <- (expand_none m unique (has_delete m || has_update m) tb ss Hu). by rewrite Ex. }
  unfold expand in Ex. destruct (can_fast_append m) eqn:Ef.
  - injection Ex as <-. rewrite rows_of_app, rows_of_new, map_filter_omap.
    rewrite (fast_out m (scan tb) ss) by done. rewrite inserts_eq, fast_merged by done.
    apply Permutation_app_tail.
    assert (Hz : omap (fun w => p ← w_path w; i ← w_index w; Some (p, i))
        (filter (fun w => writes_delete (w_op w) = true) (x_rows (fast_expansion m (scan tb) ss)))
        = []).
    { apply omap_none. intros w Hw. apply elem_of_list_filter in Hw as [_ Hw].
      cbn [x_rows fast_expansion] in Hw. apply elem_of_app in Hw as [Hw|Hw];
        apply elem_of_list_fmap in Hw as (s & -> & _); done. }
    rewrite Hz. apply reflexive_eq. unfold rows_of, delete_rows. rewrite map_map. f_equal.
    apply map_ext. intros f. cbn [f_rows]. f_equal.
    induction (f_rows f) as [|ir l IH]; [done|]. rewrite filter_cons, decide_True; [by rewrite IH|].
    apply not_elem_of_nil.
  - destruct (_ && _) in Ex; [done|]. injection Ex as <-.
    set (ri := has_delete m || has_update m).
    rewrite rows_of_app, rows_of_new, map_filter_omap.
    rewrite (delete_rows_of m tb ss).
    2: done.
    2: { intros p. by apply iceberg_deletes. }
    rewrite expansion_out by done. rewrite inserts_eq. unfold merged.
    rewrite app_assoc. apply Permutation_app_tail.
    rewrite <- (filter_omap_split (target_result m ss) (affected m ss)).
    2: { intros t Ht Hn. apply unaffected_result; [|done]. by apply (not_ambiguous m tb). }
    f_equiv. apply reflexive_eq.
    transitivity (concat (map (fun t => option_list
      (if decide (affected m ss (t_cells t)) then target_result m ss (t_cells t) else None))
      (scan tb))).
    + f_equal. apply map_ext'. intros t Ht.
      pose proof (not_ambiguous m tb ss _ Hna (in_scan_rows tb t Ht)) as Hall.
      rewrite <- written_iceberg by done.
      rewrite <- target_out; [|by eapply table_row_ok|by apply several_not_written].
      apply omap_ext'. intros w _. unfold out_by. by destruct (writes_data (w_op w)).
    + rewrite concat_option_list. rewrite <- scan_cells. by rewrite omap_map'.
Qed.

(* ---- Errors ---- *)

Lemma cow_error m unique path tb ss :
  unique_ok m unique (rows_of tb) ss ->
  run_cow m unique path tb ss = None <-> ambiguous m (rows_of tb) ss.
Proof.
  intros Hu. rewrite <- (expand_none m unique false tb ss Hu). unfold run_cow.
  by destruct (expand _ _ _ _ _).
Qed.
Lemma iceberg_error m unique path tb ss :
  unique_ok m unique (rows_of tb) ss ->
  run_iceberg m unique path tb ss = None <-> ambiguous m (rows_of tb) ss.
Proof.
  intros Hu. rewrite <- (expand_none m unique (has_delete m || has_update m) tb ss Hu).
  unfold run_iceberg. by destruct (expand _ _ _ _ _).
Qed.
Lemma mor_error m unique path tb ss :
  unique_ok m unique (rows_of tb) ss ->
  run_mor m unique path tb ss = Failed <-> has_update m = false /\ ambiguous m (rows_of tb) ss.
Proof.
  intros Hu. rewrite <- (expand_none m unique (has_delete m) tb ss Hu).
  unfold run_mor. destruct (has_update m); [naive_solver|].
  destruct (expand _ _ _ _ _) as [x|]; [|naive_solver].
  destruct (if insert_only m then _ else _); naive_solver.
Qed.
Lemma mor_unsupported m unique path tb ss :
  run_mor m unique path tb ss = NotSupported <-> has_update m = true.
Proof.
  unfold run_mor. destruct (has_update m); [done|].
  destruct (expand _ _ _ _ _) as [x|]; [|done].
  by destruct (if insert_only m then _ else _).
Qed.
