(** Proofs: a streaming query returns what the query returns. *)
From Coq Require Import Lia.
From stdpp Require Import prelude list.
From Verif.Streaming Require Import FlowModel FlowSpec.

Section proofs.
Context {R M : Type}.
Notation enc := (enc R M).
Notation event := (event R M).
Notation plan := (plan R M).
Notation stream := (list (option (list enc))).
Implicit Types (s : stream) (rows : list (option R)) (b : list enc) (p q : plan).

(** A list of rows and errors agrees with the rows of a query up to its first error. *)
Inductive compat : list (option enc) -> list (option R) -> Prop :=
| c_nil : compat [] []
| c_marker e m l rows : e_marker e = Some m -> compat l rows -> compat (Some e :: l) rows
| c_data e l rows :
    e_marker e = None -> compat l rows -> compat (Some e :: l) (Some (e_data e) :: rows)
| c_err l rows : compat (None :: l) rows.
Inductive compat_ev : list (option event) -> list (option R) -> Prop :=
| ce_nil : compat_ev [] []
| ce_marker m l rows : compat_ev l rows -> compat_ev (Some (Marker m) :: l) rows
| ce_data d l rows :
    compat_ev l rows -> compat_ev (Some (Data d) :: l) (map (fun x => Some x.2) d ++ rows)
| ce_err l rows : compat_ev (None :: l) rows.

Definition data_of (e : enc) : option R :=
  match e_marker e with None => Some (e_data e) | Some _ => None end.
Definition bdata (b : list enc) : list R := omap data_of b.

Lemma flat_cons item s :
  flat (item :: s) = match item with Some b => map Some b | None => [None] end ++ flat s.
Proof. reflexivity. Qed.

Lemma bdata_cons e b :
  bdata (e :: b) = match e_marker e with None => e_data e :: bdata b | Some _ => bdata b end.
Proof. unfold bdata. cbn. unfold data_of at 1. by destruct (e_marker e). Qed.

Lemma compat_ok b l rows :
  compat (map Some b ++ l) rows <->
  exists rows', rows = map Some (bdata b) ++ rows' /\ compat l rows'.
Proof.
  revert rows. induction b as [|e b IH]; intros rows; cbn [map app].
  - split; [intros H; by exists rows|]. intros (rows' & -> & H). done.
  - rewrite bdata_cons. split.
    + inversion 1 as [|? m ? ? Hm Hc|? ? ? Hm Hc|]; subst; rewrite Hm.
      * by apply IH.
      * apply IH in Hc as (rows' & -> & Hc). by exists rows'.
    + intros (rows' & -> & Hc). destruct (e_marker e) as [m|] eqn:E; cbn [map app].
      * eapply c_marker; [done|]. apply IH. eauto.
      * apply c_data; [done|]. apply IH. eauto.
Qed.

Lemma compat_nil rows : compat [] rows -> rows = [].
Proof. by inversion 1. Qed.

(** Projection. *)
Lemma project_data f b b' :
  project_batch f b = Some b' ->
  map (fun o => r ← o; f r) (map Some (bdata b)) = map Some (bdata b').
Proof.
  unfold project_batch. intros H. apply mapM_Some in H.
  induction H as [|e e' b b' He H IH]; [done|]. rewrite !bdata_cons.
  unfold project_row in He. destruct (f (e_data e)) as [d|] eqn:E; [|done]. injection He as <-.
  cbn [e_marker e_data]. destruct (e_marker e); [done|]. cbn [map]. cbn. rewrite E. f_equal. exact IH.
Qed.
Lemma compat_project f s rows :
  compat (flat s) rows ->
  compat (flat (map_batches (project_batch f) s)) (map (fun o => r ← o; f r) rows).
Proof.
  revert rows. induction s as [|[b|] s IH]; intros rows Hc.
  - apply compat_nil in Hc as ->. constructor.
  - rewrite flat_cons in Hc. apply compat_ok in Hc as (rows' & -> & Hc).
    unfold map_batches. cbn [map]. rewrite flat_cons. cbn [mbind option_bind].
    destruct (project_batch f b) as [b'|] eqn:E; [|constructor].
    rewrite map_app, (project_data f b b' E). apply compat_ok. eexists. split; [done|]. by apply IH.
  - constructor.
Qed.

(** Filter. *)
Lemma filter_data c b b' :
  filter_batch c b = Some b' -> omap (keeps c) (map Some (bdata b)) = map Some (bdata b').
Proof.
  unfold filter_batch. destruct (mapM (filter_row c) b) as [vs|] eqn:E; [|done].
  cbn [mbind option_bind]. intros [= <-]. apply mapM_Some in E.
  induction E as [|e v b vs He H IH]; [done|].
  unfold filter_row in He. destruct (c (e_data e)) as [x|] eqn:Ec; [|done]. injection He as <-.
  cbn [zip zip_with omap list_omap]. rewrite bdata_cons.
  destruct (e_marker e) as [m|] eqn:Em.
  - rewrite decide_True.
    + rewrite bdata_cons, Em. exact IH.
    + rewrite bool_decide_true by eauto. by destruct x as [[]|].
  - rewrite bool_decide_false by (intros [? ?]; done).
    cbn [map omap list_omap keeps]. rewrite Ec.
    destruct x as [[]|]; cbn [or3].
    + rewrite decide_True by done. rewrite bdata_cons, Em. cbn [map]. f_equal. exact IH.
    + rewrite decide_False by done. exact IH.
    + rewrite decide_False by done. exact IH.
Qed.
Lemma compat_filter c s rows :
  compat (flat s) rows ->
  compat (flat (map_batches (filter_batch c) s)) (omap (keeps c) rows).
Proof.
  revert rows. induction s as [|[b|] s IH]; intros rows Hc.
  - apply compat_nil in Hc as ->. constructor.
  - rewrite flat_cons in Hc. apply compat_ok in Hc as (rows' & -> & Hc).
    unfold map_batches. cbn [map]. rewrite flat_cons. cbn [mbind option_bind].
    destruct (filter_batch c b) as [b'|] eqn:E; [|constructor].
    rewrite omap_app, (filter_data c b b' E). apply compat_ok. eexists. split; [done|]. by apply IH.
  - constructor.
Qed.

(** Decoding and encoding. *)
Definition ev_rows (e : event) : list R :=
  match e with Data d => map snd d | Marker _ => [] end.
Lemma ev_rows_flush acc : concat (map ev_rows (flush acc)) = map snd acc.
Proof. destruct acc; cbn; [done|]. by rewrite app_nil_r. Qed.
Lemma decode_from_rows acc b :
  concat (map ev_rows (decode_from acc b)) = map snd acc ++ bdata b.
Proof.
  revert acc. induction b as [|e b IH]; intros acc; cbn [decode_from].
  - by rewrite ev_rows_flush, app_nil_r.
  - rewrite bdata_cons. destruct (e_marker e) as [m|].
    + rewrite map_app, concat_app, ev_rows_flush. cbn [map concat ev_rows app]. by rewrite IH.
    + rewrite IH, map_app, <- app_assoc. done.
Qed.
Lemma decode_rows b : concat (map ev_rows (decode b)) = bdata b.
Proof. apply decode_from_rows. Qed.

Lemma compat_ev_ok (es : list event) l rows :
  compat_ev (map Some es ++ l) rows <->
  exists rows', rows = map Some (concat (map ev_rows es)) ++ rows' /\ compat_ev l rows'.
Proof.
  revert rows. induction es as [|e es IH]; intros rows; cbn [map app concat].
  - split; [intros H; by exists rows|]. intros (rows' & -> & H). done.
  - split.
    + inversion 1 as [|? ? ? Hc|? ? ? Hc|]; subst; cbn [ev_rows app].
      * by apply IH.
      * apply IH in Hc as (rows' & -> & Hc). exists rows'. split; [|done].
        rewrite map_app, map_map, app_assoc. done.
    + intros (rows' & -> & Hc). destruct e as [d|m]; cbn [ev_rows app].
      * rewrite map_app, <- app_assoc, map_map. apply ce_data. apply IH. eauto.
      * apply ce_marker. apply IH. eauto.
Qed.

Lemma compat_decode s rows : compat (flat s) rows -> compat_ev (decode_stream s) rows.
Proof.
  revert rows. induction s as [|[b|] s IH]; intros rows Hc.
  - apply compat_nil in Hc as ->. constructor.
  - rewrite flat_cons in Hc. apply compat_ok in Hc as (rows' & -> & Hc).
    unfold decode_stream. cbn [map concat]. apply compat_ev_ok. exists rows'.
    rewrite decode_rows. split; [done|]. by apply IH.
  - constructor.
Qed.

Lemma bdata_encode ph (e : event) : bdata (encode ph e) = ev_rows e.
Proof.
  destruct e as [d|m]; [|done]. cbn [encode ev_rows]. unfold bdata.
  induction d as [|[ret r] d IH]; [done|]. cbn. f_equal. exact IH.
Qed.
Lemma compat_encode ph items rows :
  compat_ev items rows -> compat (flat (encode_stream ph items)) rows.
Proof.
  induction 1 as [|m l rows H IH|d l rows H IH|l rows]; [constructor| | |constructor];
    unfold encode_stream in *; cbn [map]; rewrite flat_cons; cbn [mbind option_bind];
    apply compat_ok; eexists; (split; [|exact IH]); rewrite bdata_encode; cbn [ev_rows].
  - done.
  - by rewrite map_map.
Qed.

(** Limit. *)
Definition limit_rows (st : limit_state) {A} (l : list A) : list A :=
  match l_fetch st with
  | Some n => take n (drop (l_skip st) l)
  | None => drop (l_skip st) l
  end.

Lemma compat_limit st items rows :
  compat_ev items rows -> compat_ev (run_limit st items) (limit_rows st rows).
Proof.
  intros H. revert st. induction H as [|m l rows H IH|d l rows H IH|l rows]; intros st.
  - cbn [run_limit]. unfold limit_rows. rewrite drop_nil.
    destruct (l_fetch st); rewrite ?take_nil; constructor.
  - cbn [run_limit]. constructor. apply IH.
  - cbn [run_limit]. set (g := fun x : bool * R => Some x.2).
    assert (Hlen : length (map g d) = length d) by apply map_length.
    assert (Hfetch : forall st' d', l_skip st' = 0 ->
      compat_ev match fetch_rows st' d' with
                | (Some rows2, st2) => Some (Data rows2) :: run_limit st2 l
                | (None, _) => []
                end (limit_rows st' (map g d' ++ rows))).
    { intros [sk f] d' Hsk. cbn in Hsk. subst sk. unfold fetch_rows, limit_rows. cbn [l_fetch l_skip].
      assert (Hlen' : length (map g d') = length d') by apply map_length.
      rewrite drop_0. destruct f as [n|].
      - destruct (decide (length d' <= n)) as [Hn|Hn].
        + rewrite take_app_ge by (rewrite Hlen'; lia). rewrite Hlen'. constructor.
          apply (IH (LimitState 0 (Some (n - length d')))).
        + destruct (decide (0 < n)) as [H0|H0].
          * rewrite take_app_le by (rewrite Hlen'; lia).
            change (map g) with (fmap (M := list) g). rewrite <- fmap_take.
            rewrite <- (app_nil_r (g <$> take n d')). constructor.
            specialize (IH (LimitState 0 (Some 0))). unfold limit_rows in IH.
            cbn [l_fetch] in IH. by rewrite take_0 in IH.
          * assert (n = 0) as -> by lia. rewrite take_0. constructor.
      - constructor. apply (IH (LimitState 0 None)). }
    unfold skip_rows. destruct (decide (l_skip st = 0)) as [H0|H0]; [by apply Hfetch|].
    destruct (decide (length d <= l_skip st)) as [Hle|Hgt].
    + specialize (IH (LimitState (l_skip st - length d) (l_fetch st))).
      unfold limit_rows in *. cbn [l_fetch l_skip] in *.
      rewrite drop_app_ge by (rewrite Hlen; lia). rewrite Hlen. exact IH.
    + specialize (Hfetch (LimitState 0 (l_fetch st)) (drop (l_skip st) d) eq_refl).
      unfold limit_rows in *. cbn [l_fetch l_skip] in *. rewrite drop_0 in Hfetch.
      rewrite drop_app_le by (rewrite Hlen; lia).
      change (map g) with (fmap (M := list) g) in *. rewrite fmap_drop in Hfetch. exact Hfetch.
  - cbn [run_limit]. constructor.
Qed.

(** Merging partitions. *)
Lemma compat_merged (ss : list stream) s (rs : list (list (option R))) :
  merged ss s -> Forall2 (fun s r => compat (flat s) r) ss rs ->
  exists rows, rows ≡ₚ concat rs /\ compat (flat s) rows.
Proof.
  intros Hm. revert rs. induction Hm as [ls H|ls1 x l ls2 out Hm IH]; intros rs Hf.
  - exists []. split; [|constructor].
    assert (concat rs = []) as ->; [|done].
    revert rs Hf. induction H as [|l ls -> H IH]; intros rs Hf; inversion Hf; subst; [done|].
    cbn. rewrite IH by done. rewrite app_nil_r. by apply compat_nil.
  - apply Forall2_app_inv_l in Hf as (rs1 & rs' & H1 & H2 & ->).
    inversion H2 as [|? r ? rs2 Hx H3]; subst. destruct x as [b|].
    + rewrite flat_cons in Hx. apply compat_ok in Hx as (r' & -> & Hx).
      destruct (IH (rs1 ++ r' :: rs2)) as (rows & Hp & Hc).
      { apply Forall2_app; [done|]. by constructor. }
      exists (map Some (bdata b) ++ rows). split.
      * rewrite Hp, !concat_app. cbn [concat].
        rewrite (Permutation_app_comm (concat rs1) ((map Some (bdata b) ++ r') ++ concat rs2)).
        rewrite (Permutation_app_comm (concat rs1) (r' ++ concat rs2)).
        by rewrite <- !app_assoc.
      * rewrite flat_cons. apply compat_ok. eauto.
    + eexists. split; [reflexivity|]. constructor.
Qed.

(** Results up to order. *)
Lemma omap_split {A B} (g : A -> option B) (l : list A) (a b : list B) :
  omap g l = a ++ b -> exists l1 l2, l = l1 ++ l2 /\ omap g l1 = a /\ omap g l2 = b.
Proof.
  revert a. induction l as [|x l IH]; intros a H.
  - cbn in H. symmetry in H. apply app_eq_nil in H as [-> ->]. by exists [], [].
  - cbn in H. destruct (g x) as [y|] eqn:E.
    + destruct a as [|y' a].
      * cbn in H. subst b. exists [], (x :: l). split_and!; [done|done|]. cbn. by rewrite E.
      * cbn in H. injection H as -> H. apply IH in H as (l1 & l2 & -> & <- & <-).
        exists (x :: l1), l2. split_and!; [done| |done]. cbn. by rewrite E.
    + apply IH in H as (l1 & l2 & -> & <- & <-). exists (x :: l1), l2. split_and!; [done| |done].
      cbn. by rewrite E.
Qed.
Lemma omap_perm_inv {A B} (g : A -> option B) (l : list A) (l' : list B) :
  l' ≡ₚ omap g l -> exists k, k ≡ₚ l /\ omap g k = l'.
Proof.
  revert l'. induction l as [|x l IH]; intros l' Hp.
  - cbn in Hp. apply Permutation_nil_r in Hp as ->. by exists [].
  - cbn in Hp. destruct (g x) as [y|] eqn:E.
    + pose proof Hp as Hp'. apply Permutation_vs_cons_inv in Hp' as (a & b & ->).
      assert (Hab : a ++ b ≡ₚ omap g l).
      { apply (Permutation_cons_inv (a := y)). rewrite <- Hp. by rewrite Permutation_middle. }
      destruct (IH _ Hab) as (k & Hk & Hok). apply omap_split in Hok as (k1 & k2 & -> & <- & <-).
      exists (k1 ++ x :: k2). split.
      * rewrite <- Hk. symmetry. apply Permutation_middle.
      * rewrite omap_app. cbn. by rewrite E.
    + destruct (IH _ Hp) as (k & Hk & <-). exists (x :: k). split; [by rewrite Hk|].
      cbn. by rewrite E.
Qed.

Lemma result_perm p rows rows' : result p rows -> rows' ≡ₚ rows -> result p rows'.
Proof.
  intros H. revert rows'.
  induction H as [ph parts rows Hn|f p rows H IH|c p rows H IH|p q r1 r2 rows H1 IH1 H2 IH2 Hp
                 |ph skip fetch p rows H IH|p rows H IH]; intros rows' Hp'.
  - apply Permutation_map_inv in Hp' as (r & -> & Hr). constructor. by rewrite Hn, Hr.
  - apply Permutation_map_inv in Hp' as (r & -> & Hr). constructor. apply IH. done.
  - apply omap_perm_inv in Hp' as (r & Hr & <-). constructor. by apply IH.
  - econstructor; [exact H1|exact H2|]. by rewrite Hp'.
  - set (out := match fetch with Some n => take n (drop skip rows) | None => drop skip rows end) in *.
    assert (Hrows : exists rest, drop skip rows = out ++ rest /\
      (fetch = None -> rest = []) /\ (rest <> [] -> fetch = Some (length out))).
    { unfold out. destruct fetch as [n|].
      - exists (drop n (drop skip rows)). rewrite take_drop. split_and!; [done|done|].
        intros Hne. f_equal. rewrite take_length.
        destruct (decide (n <= length (drop skip rows))); [lia|].
        rewrite drop_ge in Hne by lia. done.
      - exists []. rewrite app_nil_r. done. }
    destruct Hrows as (rest & Hr & Hnone & Hlen).
    assert (Hres : result p (take skip rows ++ rows' ++ rest)).
    { apply IH. rewrite Hp', <- Hr. by rewrite take_drop. }
    pose proof (res_limit ph skip fetch p _ Hres) as Hl.
    assert (Hd : drop skip (take skip rows ++ rows' ++ rest) = rows' ++ rest).
    { destruct (decide (skip <= length rows)) as [Hle|Hgt].
      - rewrite drop_app_ge; rewrite take_length; [|lia].
        replace (skip - skip `min` length rows) with 0 by lia. done.
      - rewrite drop_ge in Hr by lia. symmetry in Hr. apply app_eq_nil in Hr as [Ho ->].
        rewrite Ho in Hp'. apply Permutation_nil_r in Hp' as ->.
        rewrite !app_nil_r. rewrite drop_ge; [done|]. rewrite take_length. lia. }
    rewrite Hd in Hl. destruct fetch as [n|].
    + assert (Hlen' : length rows' = length out) by (by rewrite Hp').
      destruct rest as [|x rest].
      * rewrite app_nil_r in Hl. rewrite take_ge in Hl; [done|]. rewrite Hlen'. unfold out.
        rewrite take_length. lia.
      * assert (Hn : Some n = Some (length out)) by (by apply Hlen).
        assert (Hn' : n = length rows') by congruence. clearbody out. subst n.
        rewrite take_app in Hl. done.
    + rewrite (Hnone eq_refl), app_nil_r in Hl. done.
  - constructor. by apply IH.
Qed.

(** Sources. *)
Lemma event_rows_append (d : list (bool * R)) :
  Forall (fun r => r.1 = false) d ->
  event_rows false (Data (M := M) d) = map snd d /\ event_rows true (Data (M := M) d) = [].
Proof.
  cbn [event_rows]. induction 1 as [|[ret r] d Hr H [IH1 IH2]]; [done|]. cbn in Hr. subst ret.
  cbn. split; [f_equal; exact IH1|exact IH2].
Qed.
Lemma compat_source ph (part : list event) :
  compat (flat (map (fun e => Some (encode ph e)) part))
         (map Some (concat (map ev_rows part))).
Proof.
  induction part as [|e part IH]; [constructor|]. cbn [map concat]. rewrite flat_cons, map_app.
  apply compat_ok. rewrite bdata_encode. eauto.
Qed.
Lemma source_rows_append (parts : list (list event)) ph :
  append_only (Source ph parts) ->
  source_rows false parts = concat (map (fun part => concat (map ev_rows part)) parts) /\
  source_rows true parts = [].
Proof.
  cbn [append_only]. unfold source_rows. induction 1 as [|part parts Hp H [IH1 IH2]]; [done|].
  cbn [map concat]. rewrite !map_app, !concat_app, IH1, IH2, app_nil_r. clear IH1 IH2 H.
  assert (Hpart : concat (map (event_rows false) part) = concat (map ev_rows part) /\
    concat (map (event_rows true) part) = []).
  { induction Hp as [|e part He H [IH1 IH2]]; [done|]. cbn [map concat]. rewrite IH1, IH2.
    destruct e as [d|m]; [|done]. destruct (event_rows_append d He) as [-> ->]. done. }
  destruct Hpart as [-> ->]. done.
Qed.

(** The streams of a plan carry a result of the plan. *)
Lemma executes_sound p (ss : list stream) :
  append_only p -> executes p ss ->
  exists rs, Forall2 (fun s r => compat (flat s) r) ss rs /\ result p (concat rs).
Proof.
  intros Ha H. induction H as [ph parts|f p ss H IH|c p ss H IH|p q ss ts H1 IH1 H2 IH2
                               |ph skip fetch p ss s H IH Hm|p ss ts H IH Hf].
  - exists (map (fun part => map Some (concat (map ev_rows part))) parts). split.
    + clear Ha. induction parts as [|part parts IH]; constructor; [apply compat_source|done].
    + destruct (source_rows_append parts ph Ha) as [E1 E2].
      replace (concat (map (fun part => map Some (concat (map ev_rows part))) parts))
        with (map Some (source_rows false parts)).
      * constructor. by rewrite E2.
      * rewrite E1, concat_map, map_map. done.
  - destruct (IH Ha) as (rs & Hf & Hr).
    exists (map (map (fun o => r ← o; f r)) rs). split.
    + clear -Hf. induction Hf; constructor; [by apply compat_project|done].
    + rewrite <- concat_map. by constructor.
  - destruct (IH Ha) as (rs & Hf & Hr).
    exists (map (omap (keeps c)) rs). split.
    + clear -Hf. induction Hf; constructor; [by apply compat_filter|done].
    + replace (concat (map (omap (keeps c)) rs)) with (omap (keeps c) (concat rs)); [by constructor|].
      clear. induction rs as [|r rs IH]; [done|]. cbn [concat map]. by rewrite omap_app, IH.
  - destruct Ha as [Ha1 Ha2].
    destruct (IH1 Ha1) as (rs1 & Hf1 & Hr1). destruct (IH2 Ha2) as (rs2 & Hf2 & Hr2).
    exists (rs1 ++ rs2). split; [by apply Forall2_app|]. rewrite concat_app.
    econstructor; [exact Hr1|exact Hr2|done].
  - destruct (IH Ha) as (rs & Hf & Hr).
    destruct (compat_merged ss s rs Hm Hf) as (rows & Hp & Hc).
    exists [limit_rows (LimitState skip fetch) rows]. split.
    + constructor; [|constructor]. apply compat_encode, compat_limit, compat_decode, Hc.
    + cbn [concat]. rewrite app_nil_r. unfold limit_rows. cbn [l_fetch l_skip].
      apply (res_limit ph). eapply result_perm; [exact Hr|done].
  - destruct (IH Ha) as (rs & Hf' & Hr). exists rs. split; [|by constructor].
    clear -Hf Hf'. revert rs Hf'. induction Hf as [|s t ss ts Hst H IH]; intros rs Hf';
      inversion Hf'; subst; constructor; [by rewrite <- Hst|]. by apply IH.
Qed.

Lemma collect_sound items rows out :
  compat_ev items rows ->
  (ls ← mapM collect_item items; Some (concat ls)) = Some out -> rows = map Some out.
Proof.
  intros H. revert out. induction H as [|m l rows H IH|d l rows H IH|l rows]; intros out Ho.
  - cbn in Ho. by injection Ho as <-.
  - cbn [mapM collect_item] in Ho. destruct (mapM collect_item l) as [ls|] eqn:E; [|done].
    apply IH. done.
  - cbn [mapM collect_item] in Ho. destruct (mapM collect_item l) as [ls|] eqn:E; [|done].
    cbn in Ho. injection Ho as <-. rewrite map_app, (IH (concat ls)) by done.
    rewrite map_map. done.
  - done.
Qed.

Lemma query_sound p out : append_only p -> query p (Some out) -> result p (map Some out).
Proof.
  intros Ha Hq. inversion Hq as [p' ss s He Hm Ep Hc]; subst p'.
  destruct (executes_sound p ss Ha He) as (rs & Hf & Hr).
  destruct (compat_merged ss s rs Hm Hf) as (rows & Hp & Hcomp).
  apply compat_decode in Hcomp.
  rewrite <- (collect_sound _ rows out Hcomp Hc). eapply result_perm; [exact Hr|done].
Qed.

(** Failures. *)
Definition clean (ph : R -> Prop) (rows : R -> Prop) (o : option enc) : Prop :=
  match o with
  | None => False
  | Some e => match e_marker e with Some _ => ph (e_data e) | None => rows (e_data e) end
  end.
Definition in_result p (r : R) : Prop := exists rows, result p rows /\ Some r ∈ rows.

Lemma clean_mono (ph ph' rs rs' : R -> Prop) (l : list (option enc)) :
  (forall r, ph r -> ph' r) -> (forall r, rs r -> rs' r) ->
  Forall (clean ph rs) l -> Forall (clean ph' rs') l.
Proof.
  intros H1 H2 Hl. eapply Forall_impl; [exact Hl|]. intros [e|]; [|done]. cbn.
  destruct (e_marker e); auto.
Qed.

(** Rows of a stream without errors are rows of the result. *)
Lemma compat_clean (ph rs : R -> Prop) (l : list (option enc)) rows (P : R -> Prop) :
  Forall (clean ph rs) l -> compat l rows -> (forall r, Some r ∈ rows -> P r) ->
  Forall (clean ph P) l.
Proof.
  intros Hc H. induction H as [|e m l rows Hm H IH|e l rows Hm H IH|l rows]; intros HP.
  - constructor.
  - inversion Hc as [|? ? He Hl]; subst. constructor; [|by apply IH].
    cbn in *. by rewrite Hm in *.
  - inversion Hc as [|? ? He Hl]; subst. constructor.
    + cbn. rewrite Hm. apply HP. apply elem_of_list_here.
    + apply IH; [done|]. intros r Hr. apply HP. by apply elem_of_list_further.
  - inversion Hc as [|? ? He Hl]; subst. done.
Qed.

Lemma flat_merged (P : option enc -> Prop) (ss : list stream) s :
  merged ss s -> Forall (fun s => Forall P (flat s)) ss -> Forall P (flat s).
Proof.
  induction 1 as [ls H|ls1 x l ls2 out Hm IH]; intros Hf; [constructor|].
  apply Forall_app in Hf as [H1 H2]. inversion H2 as [|? ? Hx H3]; subst.
  rewrite flat_cons in *. apply Forall_app in Hx as [Hx1 Hx2]. apply Forall_app. split; [done|].
  apply IH. apply Forall_app. split; [done|]. by constructor.
Qed.

Lemma clean_project f (ph rs ph' rs' : R -> Prop) s :
  (forall r, ph r -> exists r', f r = Some r' /\ ph' r') ->
  (forall r, rs r -> exists r', f r = Some r' /\ rs' r') ->
  Forall (clean ph rs) (flat s) ->
  Forall (clean ph' rs') (flat (map_batches (project_batch f) s)).
Proof.
  intros H1 H2. induction s as [|[b|] s IH]; intros Hc; [constructor| |].
  - rewrite flat_cons in Hc. apply Forall_app in Hc as [Hb Hs].
    unfold map_batches. cbn [map]. rewrite flat_cons. cbn [mbind option_bind].
    apply Forall_app. split; [|by apply IH].
    assert (exists b', project_batch f b = Some b' /\ Forall (clean ph' rs') (map Some b'))
      as (b' & -> & ?); [|done].
    clear Hs IH. induction b as [|e b IH]; [exists []; split; [done|constructor]|].
    inversion Hb as [|? ? He Hl]; subst. destruct (IH Hl) as (b' & Hb' & Hc').
    unfold project_batch in *. cbn [mapM]. cbn in He.
    destruct (e_marker e) as [m|] eqn:Em.
    + destruct (H1 _ He) as (r' & Hr & Hph).
      assert (Hrow : project_row f e = Some (Enc (e_marker e) (e_retracted e) r'))
        by (unfold project_row; by rewrite Hr).
      rewrite Hrow. cbn [mbind option_bind]. rewrite Hb'. cbn [mbind option_bind].
      eexists. split; [reflexivity|]. cbn [map]. constructor; [|done]. cbn. by rewrite Em.
    + destruct (H2 _ He) as (r' & Hr & Hph).
      assert (Hrow : project_row f e = Some (Enc (e_marker e) (e_retracted e) r'))
        by (unfold project_row; by rewrite Hr).
      rewrite Hrow. cbn [mbind option_bind]. rewrite Hb'. cbn [mbind option_bind].
      eexists. split; [reflexivity|]. cbn [map]. constructor; [|done]. cbn. by rewrite Em.
  - rewrite flat_cons in Hc. inversion Hc as [|? ? He Hl]; subst. done.
Qed.
Lemma clean_filter c (ph rs : R -> Prop) s :
  (forall r, ph r -> is_Some (c r)) -> (forall r, rs r -> is_Some (c r)) ->
  Forall (clean ph rs) (flat s) ->
  Forall (clean ph rs) (flat (map_batches (filter_batch c) s)).
Proof.
  intros H1 H2. induction s as [|[b|] s IH]; intros Hc; [constructor| |].
  - rewrite flat_cons in Hc. apply Forall_app in Hc as [Hb Hs].
    unfold map_batches. cbn [map]. rewrite flat_cons. cbn [mbind option_bind].
    apply Forall_app. split; [|by apply IH].
    assert (exists vs, mapM (filter_row c) b = Some vs) as (vs & Hvs).
    { clear Hs IH. induction b as [|e b IH]; [by exists []|].
      inversion Hb as [|? ? He Hl]; subst. destruct (IH Hl) as (vs & Hvs).
      cbn [mapM]. cbn in He.
      assert (is_Some (c (e_data e))) as [v Hv] by (destruct (e_marker e); auto).
      assert (exists w, filter_row c e = Some w) as [w Hw]
        by (unfold filter_row; rewrite Hv; cbn; eauto).
      rewrite Hw. cbn [mbind option_bind]. rewrite Hvs. cbn. eauto. }
    unfold filter_batch. rewrite Hvs. cbn [mbind option_bind]. clear Hvs Hs IH.
    revert vs. induction b as [|e b IH]; intros [|v vs]; try constructor.
    inversion Hb as [|? ? He Hl]; subst. cbn [zip zip_with omap list_omap].
    destruct (decide (v = Some true)); [|by apply IH]. cbn [map]. constructor; [done|by apply IH].
  - rewrite flat_cons in Hc. inversion Hc as [|? ? He Hl]; subst. done.
Qed.

Definition ok_item (o : option event) : Prop := is_Some o.
Lemma decode_ok s : Forall is_Some (flat s) -> Forall ok_item (decode_stream s).
Proof.
  induction s as [|[b|] s IH]; intros H; [constructor| |].
  - rewrite flat_cons in H. apply Forall_app in H as [_ H]. unfold decode_stream. cbn [map concat].
    apply Forall_app. split; [|by apply IH]. apply Forall_fmap.
    apply list.Forall_forall. intros e _. cbn. unfold ok_item. eauto.
  - rewrite flat_cons in H. inversion H as [|? ? [? ?] ?]; subst. done.
Qed.
Lemma limit_ok st items : Forall ok_item items -> Forall ok_item (run_limit st items).
Proof.
  intros H. revert st. induction H as [|o items Ho H IH]; intros st; [constructor|].
  destruct o as [[d|m]|].
  - cbn [run_limit]. destruct (skip_rows st d) as [[rows1|] st1]; [|apply IH].
    destruct (fetch_rows st1 rows1) as [[rows2|] st2]; [|constructor].
    constructor; [unfold ok_item; eauto|apply IH].
  - cbn [run_limit]. constructor; [unfold ok_item; eauto|apply IH].
  - destruct Ho. done.
Qed.
Lemma encode_clean ph items :
  Forall ok_item items -> Forall (clean (fun r => r = ph) (fun _ => True)) (flat (encode_stream ph items)).
Proof.
  induction 1 as [|o items Ho H IH]; [constructor|]. unfold encode_stream in *. cbn [map].
  rewrite flat_cons. apply Forall_app. split; [|exact IH]. destruct Ho as [e ->].
  cbn [mbind option_bind]. apply Forall_fmap. destruct e as [d|m]; cbn [encode].
  - apply Forall_fmap. apply list.Forall_forall. intros [ret r] _. done.
  - repeat constructor.
Qed.
Lemma clean_is_some (ph rs : R -> Prop) (l : list (option enc)) :
  Forall (clean ph rs) l -> Forall is_Some l.
Proof. intros Hl. eapply Forall_impl; [exact Hl|]. intros [e|] H; [eauto|done]. Qed.

Lemma clean_result p (ss : list stream) :
  append_only p -> executes p ss ->
  Forall (fun s => Forall (clean (placeholders p) (fun _ => True)) (flat s)) ss ->
  Forall (fun s => Forall (clean (placeholders p) (in_result p)) (flat s)) ss.
Proof.
  intros Ha H Hw. destruct (executes_sound p ss Ha H) as (rs & Hf & Hr).
  assert (HP : forall rows r, rows ∈ rs -> Some r ∈ rows -> in_result p r).
  { intros rows r Hin Hr'. exists (concat rs). split; [done|].
    apply elem_of_list_In, in_concat. exists rows. by rewrite <- !elem_of_list_In. }
  clear -Hf Hw HP. induction Hf as [|s r ss rs Hs Hf IH]; [constructor|].
  inversion Hw; subst. constructor.
  - eapply compat_clean; [done|exact Hs|]. intros r' Hr'. eapply HP; [|exact Hr'].
    apply elem_of_list_here.
  - apply IH; [done|]. intros rows r' Hin Hr'. eapply HP; [|exact Hr'].
    by apply elem_of_list_further.
Qed.

Lemma executes_clean p (ss : list stream) :
  append_only p -> data_safe p -> marker_safe p -> executes p ss ->
  Forall (fun s => Forall (clean (placeholders p) (in_result p)) (flat s)) ss.
Proof.
  intros Ha Hd Hm H.
  apply (clean_result p ss Ha H).
  induction H as [ph parts|f p ss H IH|c p ss H IH|p q ss ts H1 IH1 H2 IH2
                               |ph skip fetch p ss s H IH Hmerge|p ss ts H IH Hf].
  - apply Forall_fmap. apply list.Forall_forall. intros part _. cbn.
    assert (He : flat (map (fun e => Some (encode ph e)) part) =
      flat (encode_stream ph (map Some part))).
    { unfold encode_stream. rewrite map_map. done. }
    rewrite He. apply encode_clean. apply Forall_fmap. apply list.Forall_forall.
    intros e _. cbn. unfold ok_item. eauto.
  - destruct Hd as [Hd Hdf], Hm as [Hm Hmf].
    assert (Hs : Forall (fun s => Forall (clean (placeholders p) (in_result p)) (flat s)) ss).
    { apply clean_result; [done|done|]. by apply IH. }
    apply Forall_fmap. eapply Forall_impl; [exact Hs|]. intros s Hc. cbn.
    eapply clean_project; [| |exact Hc].
    + intros r Hr. destruct (Hmf r Hr) as [r' Hr']. exists r'. split; [done|]. cbn. eauto.
    + intros r (rows & Hr & Hin). destruct (Hdf rows r Hr Hin) as [r' Hr']. eauto.
  - destruct Hd as [Hd Hdf], Hm as [Hm Hmf].
    assert (Hs : Forall (fun s => Forall (clean (placeholders p) (in_result p)) (flat s)) ss).
    { apply clean_result; [done|done|]. by apply IH. }
    apply Forall_fmap. eapply Forall_impl; [exact Hs|]. intros s Hc. cbn.
    apply (clean_mono (placeholders p) (placeholders p) (in_result p) (fun _ => True)); [done|done|].
    apply clean_filter; [| |exact Hc].
    + intros r Hr. by apply Hmf.
    + intros r (rows & Hr & Hin). by eapply Hdf.
  - destruct Ha, Hd, Hm. apply Forall_app. split.
    + eapply Forall_impl; [by apply IH1|]. intros s. apply clean_mono; [|done]. intros r Hr. by left.
    + eapply Forall_impl; [by apply IH2|]. intros s. apply clean_mono; [|done]. intros r Hr. by right.
  - constructor; [|constructor]. cbn [placeholders]. apply encode_clean, limit_ok, decode_ok.
    eapply clean_is_some. eapply flat_merged; [exact Hmerge|]. by apply IH.
  - specialize (IH Ha Hd Hm). clear -IH Hf. induction Hf as [|s t ss ts Hst Hf IH']; [constructor|].
    inversion IH; subst. constructor; [by rewrite <- Hst|]. by apply IH'.
Qed.

Lemma query_safe p res :
  append_only p -> data_safe p -> marker_safe p -> query p res ->
  exists out, res = Some out /\ result p (map Some out).
Proof.
  intros Ha Hd Hm Hq. assert (exists out, res = Some out) as [out ->].
  { inversion Hq as [p' ss s He Hmg Ep Hc]; subst p'.
    assert (Hok : Forall ok_item (decode_stream s)).
    { apply decode_ok. eapply clean_is_some. eapply flat_merged; [exact Hmg|].
      by apply executes_clean. }
    unfold collect.
    assert (exists ls, mapM collect_item (decode_stream s) = Some ls) as [ls Hls].
    { apply mapM_is_Some_2. eapply Forall_impl; [exact Hok|]. intros o [e ->]. cbn. destruct e; eauto. }
    rewrite Hls. cbn. eauto. }
  exists out. split; [done|]. by apply query_sound.
Qed.

(** Markers. *)
Definition markers (l : list (option enc)) : list M := omap (fun o => e ← o; e_marker e) l.
Definition all_markers (ss : list stream) : list M := concat (map (fun s => markers (flat s)) ss).

Lemma markers_app (l k : list (option enc)) : markers (l ++ k) = markers l ++ markers k.
Proof. apply omap_app. Qed.
Lemma markers_map_batches op s :
  (forall b b', op b = Some b' -> markers (map Some b') = markers (map Some b)) ->
  Forall is_Some (flat (map_batches op s)) ->
  markers (flat (map_batches op s)) = markers (flat s).
Proof.
  intros Hop. induction s as [|[b|] s IH]; intros Hc; [done| |].
  - unfold map_batches in *. cbn [map] in *. rewrite flat_cons in Hc. rewrite !flat_cons.
    cbn [mbind option_bind] in *. apply Forall_app in Hc as [Hc1 Hc2]. rewrite !markers_app, IH by done. f_equal.
    destruct (op b) as [b'|] eqn:E; [by apply Hop|].
    inversion Hc1 as [|? ? [? ?] ?]; subst. done.
  - unfold map_batches in Hc. cbn [map] in Hc. rewrite flat_cons in Hc.
    inversion Hc as [|? ? [? ?] ?]; subst. done.
Qed.
Lemma markers_project f b b' :
  project_batch f b = Some b' -> markers (map Some b') = markers (map Some b).
Proof.
  unfold project_batch. intros H. apply mapM_Some in H.
  induction H as [|e e' b b' He H IH]; [done|].
  unfold project_row in He. destruct (f (e_data e)); [|done]. injection He as <-.
  unfold markers in *. cbn [map omap list_omap mbind option_bind e_marker].
  destruct (e_marker e); [f_equal|]; exact IH.
Qed.
Lemma markers_filter c b b' :
  filter_batch c b = Some b' -> markers (map Some b') = markers (map Some b).
Proof.
  unfold filter_batch. destruct (mapM (filter_row c) b) as [vs|] eqn:E; [|done].
  cbn [mbind option_bind]. intros [= <-]. apply mapM_Some in E.
  induction E as [|e v b vs He H IH]; [done|].
  unfold filter_row in He. destruct (c (e_data e)) as [x|] eqn:Ec; [|done]. injection He as <-.
  cbn [zip zip_with omap list_omap].
  assert (Hhead : forall l, markers (Some e :: l) =
    match e_marker e with Some m => m :: markers l | None => markers l end) by reflexivity.
  destruct (e_marker e) as [m|] eqn:Em.
  - rewrite decide_True.
    + cbn [map]. rewrite !Hhead. f_equal. exact IH.
    + rewrite bool_decide_true by eauto. by destruct x as [[]|].
  - cbn [map]. rewrite (Hhead (map Some b)). destruct (decide _).
    + cbn [map]. rewrite Hhead. exact IH.
    + exact IH.
Qed.

Lemma all_markers_map op (ss : list stream) :
  (forall b b', op b = Some b' -> markers (map Some b') = markers (map Some b)) ->
  Forall (fun s => Forall is_Some (flat s)) (map (map_batches op) ss) ->
  all_markers (map (map_batches op) ss) = all_markers ss.
Proof.
  intros Hop. unfold all_markers. induction ss as [|s ss IH]; intros H; [done|].
  cbn [map] in H. inversion H; subst. cbn [map concat].
  rewrite IH by done. by rewrite (markers_map_batches op s Hop).
Qed.

Lemma markers_encode ph (part : list event) :
  markers (flat (map (fun e => Some (encode ph e)) part)) =
  omap (fun e => match e with Marker m => Some m | Data _ => None end) part.
Proof.
  induction part as [|e part IH]; [done|]. cbn [map]. rewrite flat_cons, markers_app, IH.
  destruct e as [d|m]; [|done]. cbn [omap list_omap encode].
  assert (markers (map Some (map (fun '(ret, r) => Enc None ret r) d)) = []) as ->; [|done].
  induction d as [|[ret r] d IHd]; [done|]. exact IHd.
Qed.

Lemma executes_markers p (ss : list stream) :
  append_only p -> data_safe p -> marker_safe p -> no_limit p -> executes p ss ->
  all_markers ss ≡ₚ source_markers p.
Proof.
  intros Ha Hd Hm Hn H.
  assert (Hok : forall p' ss', append_only p' -> data_safe p' -> marker_safe p' ->
    executes p' ss' -> Forall (fun s => Forall is_Some (flat s)) ss').
  { intros p' ss' A D S E. eapply Forall_impl; [by apply executes_clean|].
    intros s. apply clean_is_some. }
  induction H as [ph parts|f p ss H IH|c p ss H IH|p q ss ts H1 IH1 H2 IH2
                               |ph skip fetch p ss s H IH Hmerge|p ss ts H IH Hf].
  - cbn [source_markers]. unfold all_markers. rewrite map_map. clear.
    induction parts as [|part parts IH]; [done|]. cbn [map concat]. rewrite omap_app, IH.
    by rewrite markers_encode.
  - pose proof (Hok _ _ Ha Hd Hm (ex_project f p ss H)) as Hc.
    rewrite all_markers_map; [|apply markers_project|done]. destruct Hd, Hm. by apply IH.
  - pose proof (Hok _ _ Ha Hd Hm (ex_filter c p ss H)) as Hc.
    rewrite all_markers_map; [|apply markers_filter|done]. destruct Hd, Hm. by apply IH.
  - destruct Ha, Hd, Hm, Hn. unfold all_markers. rewrite map_app, concat_app.
    cbn [source_markers]. by rewrite IH1, IH2.
  - done.
  - cbn [source_markers]. rewrite <- IH by done. unfold all_markers.
    clear -Hf. induction Hf as [|s t ss ts Hst Hf IH]; [done|]. cbn [map concat]. by rewrite IH, Hst.
Qed.
Lemma merged_markers (ss : list stream) s :
  merged ss s -> markers (flat s) ≡ₚ all_markers ss.
Proof.
  induction 1 as [ls H|ls1 x l ls2 out Hm IH].
  - unfold all_markers. induction H as [|l ls -> H IH]; done.
  - rewrite flat_cons, markers_app, IH. unfold all_markers. rewrite !map_app, !concat_app.
    cbn [map concat]. rewrite flat_cons, markers_app.
    set (A := concat (map (fun s => markers (flat s)) ls1)).
    set (B := concat (map (fun s => markers (flat s)) ls2)).
    rewrite (Permutation_app_comm A ((_ ++ _) ++ B)), (Permutation_app_comm A (_ ++ B)).
    by rewrite <- !app_assoc.
Qed.
End proofs.
