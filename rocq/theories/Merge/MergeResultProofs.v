(** The rows a MERGE leaves in the table, for each way of writing them. *)
From Coq Require Import NArith ZArith Lia.
From stdpp Require Import prelude list.
From Verif.Lib Require Import Text.
From Verif.Merge Require Import MergeModel MergeSpec MergeProofs.

(* ---- Lists ---- *)

Lemma omap_cons' {A B} (f : A -> option B) x (l : list A) :
  omap f (x :: l) = match f x with Some y => y :: omap f l | None => omap f l end.
Proof. done. Qed.
Lemma omap_filter {A B} (f : A -> option B) (P : A -> Prop) `{!forall x, Decision (P x)} (l : list A) :
  omap f (filter P l) = omap (fun x => if decide (P x) then f x else None) l.
Proof.
  induction l as [|x l IH]; [done|]. rewrite filter_cons, omap_cons'.
  destruct (decide (P x)); [rewrite omap_cons', IH|]; done.
Qed.
Lemma omap_map' {A B C} (f : B -> option C) (g : A -> B) (l : list A) :
  omap f (map g l) = omap (fun x => f (g x)) l.
Proof. induction l as [|x l IH]; [done|]. cbn [map]. by rewrite !omap_cons', IH. Qed.
Lemma omap_ext' {A B} (f g : A -> option B) (l : list A) :
  (forall x, x ∈ l -> f x = g x) -> omap f l = omap g l.
Proof.
  induction l as [|x l IH]; intros H; [done|]. rewrite !omap_cons', (H x) by left.
  by rewrite IH by (intros y Hy; apply H; by right).
Qed.
Lemma map_filter_omap {A B} (f : A -> B) (P : A -> Prop) `{!forall x, Decision (P x)} (l : list A) :
  map f (filter P l) = omap (fun x => if decide (P x) then Some (f x) else None) l.
Proof.
  induction l as [|x l IH]; [done|]. rewrite filter_cons, omap_cons'.
  destruct (decide (P x)); [cbn [map]; by rewrite IH|done].
Qed.
Lemma concat_option_list {A B} (f : A -> option B) (l : list A) :
  concat (map (fun x => option_list (f x)) l) = omap f l.
Proof.
  induction l as [|x l IH]; [done|]. cbn [map concat]. rewrite omap_cons', IH.
  by destruct (f x).
Qed.
Lemma omap_none {A B} (f : A -> option B) (l : list A) : (forall x, x ∈ l -> f x = None) -> omap f l = [].
Proof.
  intros H. rewrite (omap_ext' f (fun _ => None)) by done. clear H.
  induction l as [|x l IH]; [done|]. by rewrite omap_cons', IH.
Qed.
Lemma omap_some {A} (f : A -> option A) (l : list A) : (forall x, x ∈ l -> f x = Some x) -> omap f l = l.
Proof.
  intros H. rewrite (omap_ext' f Some) by done. clear H. induction l as [|x l IH]; [done|].
  by rewrite omap_cons', IH.
Qed.
Lemma map_ext' {A B} (f g : A -> B) l : (forall x, x ∈ l -> f x = g x) -> map f l = map g l.
Proof. intros H. apply map_ext_in. intros x Hx. apply H. by apply elem_of_list_In. Qed.

(* ---- What is written for one target row ---- *)

Definition out_by (h : op -> bool) (w : wrow) : option row :=
  if h (w_op w) then Some (w_cells w) else None.

Definition written (h : op -> bool) (m : merge) (ss : list row) (t : row) : option row :=
  match matches m ss t with
  | [] =>
    if h (by_source_op (first_action (m_by_source m) (Some t) None))
    then Some (default t (unmatched_result m t)) else None
  | [s] =>
    if h (matched_op (first_action (m_matched m) (Some t) (Some s)))
    then Some (default t (matched_result m t s)) else None
  | _ => None
  end.

Lemma target_out h m ss t :
  length (t_cells t) = length (m_target_names m) ->
  (2 <= length (matches m ss (t_cells t)) ->
   Forall (fun s => h (matched_op (first_action (m_matched m) (Some (t_cells t)) (Some s))) = false)
     (matches m ss (t_cells t))) ->
  omap (out_by h) (map (project m) (join_target m ss t)) =
  option_list (written h m ss (t_cells t)).
Proof.
  intros Hl Hd. unfold join_target, written. rewrite matches_eq.
  destruct (matches m ss (t_cells t)) as [|s [|s' l]] eqn:Em.
  - cbn [map]. rewrite project_by_source by done. rewrite omap_cons'. cbn [out_by w_op w_cells].
    unfold out_by. cbn [w_op w_cells]. by destruct (h _).
  - cbn [map]. rewrite project_matched by done. rewrite omap_cons'. unfold out_by.
    cbn [w_op w_cells]. by destruct (h _).
  - cbn [option_list]. rewrite map_map. rewrite omap_map'. apply omap_none. intros x Hx.
    rewrite project_matched by done. unfold out_by. cbn [w_op w_cells].
    assert (H2 : 2 <= length (s :: s' :: l)) by (cbn; lia).
    specialize (Hd H2). rewrite Forall_forall in Hd. by rewrite Hd.
Qed.

(** The path of rows coming from the target. *)
Lemma target_paths m ss t w :
  w ∈ map (project m) (join_target m ss t) -> w_path w = Some (t_path t).
Proof.
  unfold join_target. intros H. apply elem_of_list_fmap in H as (j & -> & Hj).
  destruct (filter _ ss) as [|s l].
  - apply elem_of_list_singleton in Hj as ->. done.
  - apply elem_of_list_fmap in Hj as (x & -> & _). done.
Qed.

(* ---- What is written for the source rows ---- *)

Lemma active_target m t o : or3 (present (j_target (JRow (Some t) o))) (insert_expr m (JRow (Some t) o)) = Some true.
Proof. apply or3_true. by left. Qed.

Lemma filter_active_target m ss t :
  filter (fun j => or3 (present (j_target j)) (insert_expr m j) = Some true) (join_target m ss t) =
  join_target m ss t.
Proof.
  assert (H : Forall (fun j => or3 (present (j_target j)) (insert_expr m j) = Some true)
                (join_target m ss t)).
  { unfold join_target. destruct (filter _ ss) as [|s l].
    - constructor; [|constructor]. apply active_target.
    - apply Forall_map, Forall_true. intros x. apply active_target. }
  induction H as [|j l Hj Hl IH]; [done|]. rewrite filter_cons, decide_True by done. by rewrite IH.
Qed.

Lemma active_source m s :
  or3 (present (j_target (JRow None (Some s)))) (insert_expr m (JRow None (Some s))) = Some true <->
  is_Some (first_action (m_by_target m) None (Some s)).
Proof.
  rewrite or3_true, insert_expr_true. cbn. split; [|tauto]. intros [H|H]; [done|tauto].
Qed.

Lemma source_out m out us :
  (forall c, out (WRow c None None Insert) = Some c) ->
  omap out (map (project m)
    (filter (fun j => or3 (present (j_target j)) (insert_expr m j) = Some true)
       (map (fun s => JRow None (Some s)) us))) =
  omap (insert_result m) us.
Proof.
  intros Ho. induction us as [|s us IH]; [done|]. cbn [map].
  rewrite filter_cons, omap_cons', insert_result_cells.
  destruct (decide _) as [Ha|Ha].
  - apply active_source in Ha as [a Ha]. rewrite Ha. cbn [map].
    rewrite omap_cons', project_by_target, Ho, IH. done.
  - rewrite active_source in Ha.
    destruct (first_action (m_by_target m) None (Some s)) eqn:E; [|by rewrite IH].
    destruct Ha. eauto.
Qed.

(** The rows of the default expansion, as a writer selecting rows by [out] sees them. *)
Lemma expansion_out m ri ts ss out :
  (forall c, out (WRow c None None Insert) = Some c) ->
  out (metric_row m) = None ->
  omap out (x_rows (default_expansion m ri (full_join m ts ss))) =
  concat (map (fun t => omap out (map (project m) (join_target m ss t))) ts) ++
  omap (insert_result m) (unmatched_sources m ts ss).
Proof.
  intros Hi Hm. cbn [x_rows default_expansion]. rewrite omap_app, omap_cons', Hm.
  rewrite app_nil_r. unfold full_join. rewrite filter_app, map_app, omap_app, source_out by done.
  f_equal. generalize ts at 1 2 as l. induction l as [|t l IH]; [done|]. cbn [map concat].
  by rewrite filter_app, map_app, omap_app, filter_active_target, IH.
Qed.

Lemma fast_out m ts ss out :
  (forall c, out (WRow c None None Insert) = Some c) ->
  (forall c, out (WRow c None None Noop) = None) ->
  omap out (x_rows (fast_expansion m ts ss)) =
  omap (insert_result m) (unmatched_sources m ts ss).
Proof.
  intros Hi Hn. cbn [x_rows fast_expansion]. rewrite omap_app, !omap_map'.
  rewrite (omap_none _ (matched_sources m ts ss)) by (intros; apply Hn). rewrite app_nil_r.
  apply omap_ext'. intros s _. rewrite fast_project_eq, insert_result_cells.
  destruct (first_action _ _ _); [apply Hi|apply Hn].
Qed.

Lemma inserts_eq m tb ss :
  omap (insert_result m) (unmatched_sources m (scan tb) ss) = inserts m (rows_of tb) ss.
Proof. unfold inserts. by rewrite unmatched_eq, scan_cells. Qed.

(* ---- Affected rows ---- *)

#[global] Instance affected_dec m ss t : Decision (affected m ss t).
Proof. unfold affected. destruct (matches m ss t); apply _. Defined.

Lemma matches_on m ss t s : s ∈ matches m ss t -> tru (m_on m) t s.
Proof. intros H. by apply elem_of_list_filter in H as [H _]. Qed.

Lemma affected_exists (Q : jrow -> Prop) m ss t :
  (forall s, tru (m_on m) (t_cells t) s ->
     (Q (JRow (Some t) (Some s)) <->
      is_Some (first_action (m_matched m) (Some (t_cells t)) (Some s)))) ->
  (Q (JRow (Some t) None) <->
      is_Some (first_action (m_by_source m) (Some (t_cells t)) None)) ->
  (exists j, j ∈ join_target m ss t /\ Q j) <-> affected m ss (t_cells t).
Proof.
  intros Hm Hs. unfold join_target, affected. rewrite matches_eq.
  pose proof (matches_on m ss (t_cells t)) as Hon.
  destruct (matches m ss (t_cells t)) as [|s l].
  - rewrite <- Hs. split.
    + intros (j & Hj & HQ). by apply elem_of_list_singleton in Hj as ->.
    + intros HQ. eexists. split; [apply elem_of_list_here|done].
  - rewrite Exists_exists. split.
    + intros (j & Hj & HQ). apply elem_of_list_fmap in Hj as (x & -> & Hx).
      exists x. split; [done|]. apply (Hm x (Hon x Hx)). done.
    + intros (x & Hx & HQ). exists (JRow (Some t) (Some x)). split.
      * apply elem_of_list_fmap. eauto.
      * by apply Hm; [apply Hon|].
Qed.

Lemma join_target_t m ss t j : j ∈ join_target m ss t -> j_target j = Some t.
Proof.
  unfold join_target. destruct (filter _ ss).
  - intros ->%elem_of_list_singleton. done.
  - intros (x & -> & _)%elem_of_list_fmap. done.
Qed.

Lemma elem_concat_map {A B} (f : A -> list B) l y : y ∈ concat (map f l) <-> exists x, x ∈ l /\ y ∈ f x.
Proof.
  rewrite elem_of_list_In, in_concat. split.
  - intros (k & Hk & Hy). apply in_map_iff in Hk as (x & <- & Hx).
    exists x. by rewrite !elem_of_list_In.
  - intros (x & Hx & Hy). exists (f x). rewrite !elem_of_list_In in *. split; [|done].
    by apply in_map.
Qed.

(** Selecting target rows of the join by a predicate that holds exactly when a clause acts. *)
Lemma selected_targets {B} (Q : jrow -> Prop) `{!forall j, Decision (Q j)} (f : trow -> B) m ts ss y :
  (forall t s, tru (m_on m) (t_cells t) s ->
     (Q (JRow (Some t) (Some s)) <->
      is_Some (first_action (m_matched m) (Some (t_cells t)) (Some s)))) ->
  (forall t, Q (JRow (Some t) None) <->
      is_Some (first_action (m_by_source m) (Some (t_cells t)) None)) ->
  y ∈ omap (fun j => f <$> j_target j) (filter Q (full_join m ts ss)) <->
  exists t, t ∈ ts /\ f t = y /\ affected m ss (t_cells t).
Proof.
  intros Hm Hs. rewrite elem_of_list_omap. setoid_rewrite elem_of_list_filter.
  unfold full_join. setoid_rewrite elem_of_app. setoid_rewrite elem_concat_map. split.
  - intros (j & (HQ & [(t & Ht & Hj)|Hj]) & Hy).
    + rewrite (join_target_t _ _ _ _ Hj) in Hy. injection Hy as <-.
      exists t. split_and!; [done|done|]. apply (affected_exists Q); eauto.
    + apply elem_of_list_fmap in Hj as (s & -> & _). done.
  - intros (t & Ht & <- & Ha). apply (affected_exists Q) in Ha as (j & Hj & HQ); [|eauto..].
    exists j. split; [split; [done|left; eauto]|]. by rewrite (join_target_t _ _ _ _ Hj).
Qed.

Lemma touched_spec m ri ts ss p :
  p ∈ x_touched (default_expansion m ri (full_join m ts ss)) <->
  exists t, t ∈ ts /\ t_path t = p /\ affected m ss (t_cells t).
Proof.
  cbn [x_touched default_expansion]. apply selected_targets.
  - intros t s Hon. rewrite rewrite_true. unfold jtrue, jeval.
    cbn [jcells j_target j_source fmap option_fmap option_map].
    split; [|tauto]. intros [H|[H _]]; [tauto|done].
  - intros t. rewrite rewrite_true. cbn [jcells j_target j_source fmap option_fmap option_map].
    split; [|by right]. intros [[[H _] _]|H]; [done|tauto].
Qed.
Lemma deletes_spec m ts ss ds p :
  x_deletes (default_expansion m true (full_join m ts ss)) = Some ds ->
  p ∈ ds <->
  exists t, t ∈ ts /\ (t_path t, t_index t) = p /\ affected m ss (t_cells t).
Proof.
  cbn [x_deletes default_expansion]. intros [= <-].
  rewrite (selected_targets (fun j => row_delete_expr m j = Some true)
             (fun t => (t_path t, t_index t))); [done|..].
  - intros t s Hon. rewrite row_delete_true.
    cbn [jcells j_target j_source fmap option_fmap option_map].
    split; [|tauto]. intros [H|[H _]]; [tauto|done].
  - intros t. rewrite row_delete_true. cbn [jcells j_target j_source fmap option_fmap option_map].
    split; [|by right]. intros [[H _]|H]; [done|tauto].
Qed.

Lemma unaffected_result m ss t :
  (several_allowed m \/ length (matches m ss t) <= 1) ->
  ~ affected m ss t -> target_result m ss t = Some t.
Proof.
  unfold affected, target_result, unmatched_result, matched_result. intros Ha Hn.
  destruct (matches m ss t) as [|s [|s' l]].
  - destruct (first_action _ _ _); [|done]. destruct Hn. eauto.
  - destruct (first_action _ _ _) eqn:E; [|done]. destruct Hn. constructor. rewrite E. eauto.
  - destruct Ha as [[->|Ha]|Ha]; [done| |cbn in Ha; lia]. destruct Hn. constructor.
    rewrite Ha. cbn. eauto.
Qed.

(* ---- Tables ---- *)

Lemma rows_of_app a b : rows_of (a ++ b) = rows_of a ++ rows_of b.
Proof. unfold rows_of. by rewrite map_app, concat_app. Qed.
Lemma rows_of_new path rs : rows_of [new_file path rs] = rs.
Proof.
  unfold rows_of, new_file. cbn [map concat f_rows]. rewrite app_nil_r.
  rewrite (map_imap_indep _ snd id) by done. apply map_id.
Qed.

Lemma table_row_ok m tb t :
  table_ok m tb -> t ∈ scan tb -> length (t_cells t) = length (m_target_names m).
Proof.
  intros [_ Hok] Ht. apply scan_elem in Ht as (f & Hf & _ & Hr).
  rewrite Forall_forall in Hok. apply Hok in Hf as [_ Hf]. rewrite Forall_forall in Hf.
  apply (Hf _ Hr).
Qed.

(** A row of a file is affected iff some scanned row at its place is. *)
Lemma place_affected m tb ss f k r :
  table_ok m tb -> f ∈ tb -> (k, r) ∈ f_rows f ->
  (exists t, t ∈ scan tb /\ (t_path t, t_index t) = (f_path f, k) /\ affected m ss (t_cells t)) <->
  affected m ss r.
Proof.
  intros [Hp Hok] Hf Hk. split.
  - intros (t & Ht & Heq & Ha). injection Heq as He1 He2.
    apply scan_elem in Ht as (g & Hg & Hgp & Hr).
    assert (g = f) as ->.
    { apply elem_of_list_lookup in Hg as (a & Hg). apply elem_of_list_lookup in Hf as (b & Hf).
      assert (a = b) as ->; [|congruence].
      eapply NoDup_lookup; [exact Hp|..];
        change (map f_path) with (fmap (M := list) f_path); rewrite list_lookup_fmap.
      - by rewrite Hg.
      - rewrite Hf. cbn. congruence. }
    rewrite Forall_forall in Hok. destruct (Hok f Hf) as [Hnd _].
    rewrite He2 in Hr.
    assert (Hrr : t_cells t = r).
    { apply elem_of_list_lookup in Hr as (a & Hr). apply elem_of_list_lookup in Hk as (b & Hk).
      assert (a = b) as ->; [|congruence].
      eapply NoDup_lookup; [exact Hnd|..];
        change (@map (nat * row) nat fst) with (fmap (M := list) (@fst nat row));
        rewrite list_lookup_fmap.
      - by rewrite Hr.
      - by rewrite Hk. }
    by rewrite <- Hrr.
  - intros Ha. destruct (elem_scan tb f k r Hf Hk) as (t & Ht & H1 & H2 & H3).
    exists t. rewrite H1, H2, H3. done.
Qed.
