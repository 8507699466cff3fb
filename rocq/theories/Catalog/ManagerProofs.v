From Coq Require Import NArith ZifyN Ascii String Lia.
From stdpp Require Import prelude gmap list strings.
From Verif.Lib Require Import Text.
From Verif.Catalog Require Import MemoryModel MemorySpec MemoryProofs QuoteModel ManagerModel ManagerSpec.

(** ** Temporary views *)
Lemma zip_describes (fs : list (text * dtype * bool)) (cs : list (option text)) :
  length fs = length cs ->
  let l := map (fun p => mkColumn p.1.1.1 p.1.1.2 p.1.2 p.2 None None None false false false) (zip fs cs) in
  map (fun c => (col_name c, col_type c, col_nullable c)) l = fs /\ map col_comment l = cs /\
  Forall (fun c => col_default c = None /\ col_generated c = None /\ col_identity c = None /\
                   col_partition c = false /\ col_bucket c = false /\ col_cluster c = false) l.
Proof.
  revert cs. induction fs as [|[[n t] b] fs IH]; intros [|c cs] Hl; try done; cbn.
  - split_and!; constructor.
  - injection Hl as Hl. destruct (IH cs Hl) as (H1 & H2 & H3). cbn in *. rewrite H1, H2.
    split_and!; [done|done|]. by constructor.
Qed.

Lemma temp_columns_fitting o :
  fitting o -> exists cs, temp_columns o = Some cs /\
    forall x, x = mkTview (tc_input o) cs (tc_comment o) (tc_properties o) (tc_source o) -> describes o x.
Proof.
  intros Hf. unfold temp_columns.
  assert (Hd : forall com, length (plan_fields (tc_input o)) = length com ->
    com = (if bool_decide (tc_columns o = []) then map (fun _ => None) (plan_fields (tc_input o)) else tc_columns o) ->
    exists cs, (fun cs => map (fun p => mkColumn p.1.1.1 p.1.1.2 p.1.2 p.2 None None None false false false)
                           (zip (plan_fields (tc_input o)) cs)) <$> Some com = Some cs /\
      forall x, x = mkTview (tc_input o) cs (tc_comment o) (tc_properties o) (tc_source o) -> describes o x).
  { intros com Hl Hcom. eexists. split; [done|]. intros x ->. unfold describes. cbn.
    destruct (zip_describes _ _ Hl) as (H1 & H2 & H3). by rewrite <- Hcom. }
  destruct (tc_columns o) as [|c cs] eqn:E.
  - apply Hd; [by rewrite map_length|by rewrite bool_decide_true].
  - destruct Hf as [Hf|Hf]; [congruence|]. rewrite E in Hf. rewrite decide_True by done.
    apply Hd; [done|by rewrite bool_decide_false].
Qed.
Lemma temp_columns_unfitting o : ¬ fitting o -> temp_columns o = None.
Proof.
  intros Hf. unfold temp_columns. destruct (tc_columns o) as [|c cs] eqn:E.
  - destruct Hf. by left.
  - rewrite decide_False; [done|]. intros H. apply Hf. right. by rewrite E.
Qed.

Lemma temp_create_spec vs n o :
  created n o (vs !! n) ((temp_create vs n o).1 !! n) (temp_answer (temp_create vs n o).2).
Proof.
  unfold temp_create. destruct (vs !! n) as [v|] eqn:Ev; cbn [created].
  - rewrite bool_decide_true by (by eexists). cbn. split_and!.
    + intros ->. cbn. by rewrite Ev.
    + intros -> ->. cbn. by rewrite Ev.
    + intros -> -> Hf. cbn. destruct (temp_columns_fitting o Hf) as (cs & -> & Hd). cbn. split; [done|].
      rewrite lookup_insert. eauto.
    + intros -> -> Hf. cbn. rewrite temp_columns_unfitting by done. cbn. by rewrite Ev.
  - rewrite bool_decide_false by (by intros [? ?]). cbn. split.
    + intros Hf. destruct (temp_columns_fitting o Hf) as (cs & -> & Hd). cbn. split; [done|].
      rewrite lookup_insert. eauto.
    + intros Hf. rewrite temp_columns_unfitting by done. cbn. by rewrite Ev.
Qed.
Lemma temp_create_other vs n o m : n <> m -> (temp_create vs n o).1 !! m = vs !! m.
Proof.
  intros Hn. unfold temp_create. destruct (_ && _); [done|]. destruct (_ && _); [done|].
  destruct (temp_columns o); [|done]. cbn. by rewrite lookup_insert_ne.
Qed.
Lemma temp_drop_spec vs n b :
  dropped n b (vs !! n) ((temp_drop vs n b).1 !! n) (temp_answer (temp_drop vs n b).2).
Proof.
  unfold temp_drop, dropped. destruct (vs !! n) as [v|] eqn:Ev.
  - rewrite bool_decide_true by (by eexists). cbn. by rewrite lookup_delete.
  - rewrite bool_decide_false by (by intros [? ?]). cbn. destruct b; cbn; [by rewrite lookup_delete|done].
Qed.
Lemma temp_drop_other vs n b m : n <> m -> (temp_drop vs n b).1 !! m = vs !! m.
Proof. intros Hn. unfold temp_drop. destruct (_ && _); [done|]. cbn. by rewrite lookup_delete_ne. Qed.

Lemma on_object_temp ss parts o : ss_temp (on_object ss parts o).1 = ss_temp ss.
Proof.
  unfold on_object, ask. destruct (resolve_object ss parts) as [[[c ns] t]|]; [|done].
  destruct (ss_catalogs ss !! c); [|done]. by destruct (step _ _).
Qed.
Lemma on_object_global ss parts o : ss_global_database (on_object ss parts o).1 = ss_global_database ss.
Proof.
  unfold on_object, ask. destruct (resolve_object ss parts) as [[[c ns] t]|]; [|done].
  destruct (ss_catalogs ss !! c); [|done]. by destruct (step _ _).
Qed.
Lemma ask_temp ss c o : ss_temp (ask ss c o).1 = ss_temp ss.
Proof. unfold ask. destruct (ss_catalogs ss !! c); [|done]. by destruct (step _ _). Qed.
Lemma ask_global ss c o : ss_global_database (ask ss c o).1 = ss_global_database ss.
Proof. unfold ask. destruct (ss_catalogs ss !! c); [|done]. by destruct (step _ _). Qed.

(** Splitting a name into its front and last part. *)
Lemma front_last (parts : list text) : parts <> [] -> parts = removelast parts ++ [default [] (last parts)].
Proof.
  intros H. destruct parts as [|x l _] using rev_ind; [done|].
  by rewrite removelast_last, last_snoc.
Qed.
Lemma removelast_snoc {A} (l : list A) x : removelast (l ++ [x]) = l.
Proof. apply removelast_last. Qed.
Lemma is_global_database_name ss parts :
  is_global_database ss (removelast parts) = true <->
  exists n, parts = (ss_global_database ss).1 :: (ss_global_database ss).2 ++ [n].
Proof.
  unfold is_global_database. rewrite bool_decide_eq_true. split.
  - intros H. destruct parts as [|x l _] using rev_ind; [done|]. rewrite removelast_snoc in H.
    exists x. destruct l as [|y l]; [done|]. cbn in H. injection H as <-. done.
  - intros [n ->]. change (?a :: ?b ++ [n]) with ((a :: b) ++ [n]). rewrite removelast_snoc. cbn.
    by destruct (ss_global_database ss).
Qed.

Section manager.
  Context (matches : text -> option text -> bool).
  Notation handle := (handle matches).
  Notation serve := (serve matches).
  Notation history := (history matches).

  (** One request, seen from the temporary view [n] of the session. *)
  Lemma handle_temp ss g q n :
    let '(ss', g', r) := handle ss g q in
    if about_temp 0 n 0 q then temp_change n q (ss_temp ss !! n) (ss_temp ss' !! n) r
    else ss_temp ss' !! n = ss_temp ss !! n.
  Proof.
    destruct q as [[] m o|[] m b|gl p|c|parts|parts|parts b|d p|parts p|parts o|parts o|parts o|parts b a]; cbn [handle];
      unfold about_temp; rewrite ?(bool_decide_true (0%N = 0%N)) by done; cbn [andb].
    - by destruct (temp_create g m o).
    - pose proof (temp_create_spec (ss_temp ss) m o) as H1. pose proof (temp_create_other (ss_temp ss) m o n) as H2.
      destruct (temp_create (ss_temp ss) m o) as [vs e]. cbn in *.
      case_bool_decide; [by subst|by auto].
    - by destruct (temp_drop g m b).
    - pose proof (temp_drop_spec (ss_temp ss) m b) as H1. pose proof (temp_drop_other (ss_temp ss) m b n) as H2.
      destruct (temp_drop (ss_temp ss) m b) as [vs e]. cbn in *.
      case_bool_decide; [by subst|by auto].
    - done.
    - by destruct (bool_decide _).
    - destruct (to_namespace parts); [|done]. by destruct (ask _ _ _).2.
    - done.
    - destruct (match parts with [k] => ss_temp ss !! k | _ => None end) as [v|] eqn:E.
      + destruct parts as [|k [|]]; try done. cbn. case_bool_decide as Hk.
        * injection Hk as ->. rewrite E, lookup_delete. split; [done|]. done.
        * rewrite lookup_delete_ne; [done|]. congruence.
      + assert (H : forall ss' r, ss_temp ss' = ss_temp ss ->
          if bool_decide (parts = [n]) then temp_change n (DropAnyView parts b) (ss_temp ss !! n) (ss_temp ss' !! n) r
          else ss_temp ss' !! n = ss_temp ss !! n).
        { intros ss' r ->. case_bool_decide as Hk; [|done]. subst. rewrite E. cbn. split; [done|]. by intros []. }
        cbn zeta. destruct (_ && _); [by apply H|].
        pose proof (on_object_temp ss parts (OpDropView b)) as Ht.
        destruct (on_object ss parts (OpDropView b)). by apply H.
    - done.
    - destruct (resolve_optional_database ss parts) as [[]|]; [|done]. by destruct (ask _ _ _).2 as [[]|].
    - destruct (resolve_database ss parts) as [[c ns]|]; [|done].
      pose proof (ask_temp ss c (db_request o ns)) as Ht. destruct (ask _ _ _). cbn in Ht. by rewrite Ht.
    - pose proof (on_object_temp ss parts o) as Ht. destruct (on_object ss parts o). cbn in Ht. by rewrite Ht.
    - pose proof (on_object_temp ss parts (OpCreateTable o)) as Ht.
      destruct (on_object ss parts (OpCreateTable o)). cbn in Ht.
      destruct (get_object ss g parts) as [|e].
      + destruct (ignores_existing _); [done|]. destruct (replaces _); [by rewrite Ht|done].
      + destruct (not_found e); [|done]. destruct (replaces_existing_only _); [done|by rewrite Ht].
    - pose proof (on_object_temp ss parts (OpAlterTable a)) as Ht.
      destruct (on_object ss parts (OpAlterTable a)). cbn in Ht.
      destruct (get_object ss g parts) as [|e]; [by rewrite Ht|]. by destruct (_ && _).
  Qed.

  Lemma handle_global ss g q n :
    let '(ss', g', r) := handle ss g q in
    ss_global_database ss' = ss_global_database ss /\
    if about_global (ss_global_database ss) n q then temp_change n q (g !! n) (g' !! n) r
    else g' !! n = g !! n.
  Proof.
    destruct q as [[] m o|[] m b|gl p|c|parts|parts|parts b|d p|parts p|parts o|parts o|parts o|parts b a]; cbn [handle];
      unfold about_global.
    - pose proof (temp_create_spec g m o) as H1. pose proof (temp_create_other g m o n) as H2.
      destruct (temp_create g m o) as [vs e]. cbn in *. split; [done|].
      case_bool_decide; [by subst|by auto].
    - by destruct (temp_create (ss_temp ss) m o).
    - pose proof (temp_drop_spec g m b) as H1. pose proof (temp_drop_other g m b n) as H2.
      destruct (temp_drop g m b) as [vs e]. cbn in *. split; [done|].
      case_bool_decide; [by subst|by auto].
    - by destruct (temp_drop (ss_temp ss) m b).
    - done.
    - by destruct (bool_decide _).
    - destruct (to_namespace parts); [|done]. by destruct (ask _ _ _).2.
    - done.
    - destruct (match parts with [k] => ss_temp ss !! k | _ => None end) as [v|] eqn:E.
      + split; [done|]. case_bool_decide as Hk; [|done].
        destruct parts as [|k [|]]; try done. destruct (ss_global_database ss).2; discriminate Hk.
      + cbn zeta.
        assert (H : forall ss', ss_global_database ss' = ss_global_database ss ->
          is_global_database ss (removelast parts) && bool_decide (is_Some (g !! default [] (last parts))) = false ->
          forall r, ss_global_database ss' = ss_global_database ss /\
          if bool_decide (parts = (ss_global_database ss).1 :: (ss_global_database ss).2 ++ [n])
          then temp_change n (DropAnyView parts b) (g !! n) (g !! n) r else g !! n = g !! n).
        { intros ss' Hs Hc r. split; [done|].
          match goal with |- if bool_decide ?P then _ else _ => destruct (bool_decide_reflect P) as [Hk|Hk]; [|done] end.
          assert (Hg : is_global_database ss (removelast parts) = true) by (apply is_global_database_name; by exists n).
          rewrite Hg in Hc. cbn in Hc. apply bool_decide_eq_false in Hc.
          assert (Hl : last parts = Some n) by (rewrite Hk; change (?a :: ?b ++ [n]) with ((a :: b) ++ [n]); apply last_snoc).
          rewrite Hl in Hc. cbn in Hc |- *. apply eq_None_not_Some in Hc. rewrite Hc. split; [done|]. by intros []. }
        destruct (_ && _) eqn:Ec.
        * apply andb_prop in Ec as [Hg Hs]. apply bool_decide_eq_true in Hs. split; [done|].
          apply is_global_database_name in Hg as [m Hm].
          assert (Hl : last parts = Some m) by (rewrite Hm; change (?a :: ?b ++ [m]) with ((a :: b) ++ [m]); apply last_snoc).
          rewrite Hl in *. cbn in Hs |- *.
          match goal with |- if bool_decide ?P then _ else _ => destruct (bool_decide_reflect P) as [Hk|Hk] end.
          -- rewrite Hm in Hk. injection Hk as Hk. apply app_inj_tail in Hk as [_ ->].
             rewrite lookup_delete. by split.
          -- rewrite lookup_delete_ne; [done|]. intros ->. by apply Hk.
        * pose proof (on_object_global ss parts (OpDropView b)) as Ht.
          destruct (on_object ss parts (OpDropView b)). by apply H.
    - done.
    - destruct (resolve_optional_database ss parts) as [[]|]; [|done]. by destruct (ask _ _ _).2 as [[]|].
    - destruct (resolve_database ss parts) as [[c ns]|]; [|done].
      pose proof (ask_global ss c (db_request o ns)) as Ht. destruct (ask _ _ _). cbn in Ht. by rewrite Ht.
    - pose proof (on_object_global ss parts o) as Ht. destruct (on_object ss parts o). cbn in Ht. by rewrite Ht.
    - pose proof (on_object_global ss parts (OpCreateTable o)) as Ht.
      destruct (on_object ss parts (OpCreateTable o)). cbn in Ht.
      destruct (get_object ss g parts) as [|e].
      + destruct (ignores_existing _); [done|]. by destruct (replaces _).
      + destruct (not_found e); [|done]. by destruct (replaces_existing_only _).
    - pose proof (on_object_global ss parts (OpAlterTable a)) as Ht.
      destruct (on_object ss parts (OpAlterTable a)). cbn in Ht.
      destruct (get_object ss g parts) as [|e]; [by rewrite Ht|]. by destruct (_ && _).
  Qed.

  Lemma serve_temp sv j q i n :
    let sv' := (serve sv j q).1 in
    if about_temp i n j q
    then forall r, (serve sv j q).2 = Some r -> temp_change n q (temp_of sv i n) (temp_of sv' i n) r
    else temp_of sv' i n = temp_of sv i n.
  Proof.
    cbn zeta. unfold serve, temp_of. destruct (decide (i = j)) as [<-|Hij].
    - destruct (sv_sessions sv !! i) as [ss|] eqn:Es.
      + pose proof (handle_temp ss (sv_global sv) q n) as H.
        destruct (handle ss (sv_global sv) q) as [[ss' g'] r]. cbn. rewrite lookup_insert, ?Es.
        unfold about_temp in *. rewrite (bool_decide_true (i = i)) by done.
        rewrite (bool_decide_true (0%N = 0%N)) in H by done.
        destruct (true && _); [|done]. by intros r' [= <-].
      + cbn. rewrite Es. by destruct (about_temp i n i q).
    - unfold about_temp. rewrite bool_decide_false by done. cbn [andb].
      destruct (sv_sessions sv !! j) as [ss|] eqn:Es; [|done].
      destruct (handle ss (sv_global sv) q) as [[ss' g'] r]. cbn. by rewrite lookup_insert_ne.
  Qed.

  Lemma serve_global sv j q n ss r :
    sv_sessions sv !! j = Some ss -> (serve sv j q).2 = Some r ->
    if about_global (ss_global_database ss) n q
    then temp_change n q (sv_global sv !! n) (sv_global (serve sv j q).1 !! n) r
    else sv_global (serve sv j q).1 !! n = sv_global sv !! n.
  Proof.
    intros Hs. unfold serve. rewrite Hs. pose proof (handle_global ss (sv_global sv) q n) as H.
    destruct (handle ss (sv_global sv) q) as [[ss' g'] r']. cbn. intros [= <-]. by destruct H.
  Qed.

  (** Requests about other things in between do not matter. *)
  Lemma history_temp h sv i n :
    Forall (fun p => about_temp i n p.1 p.2 = false) h -> temp_of (history sv h) i n = temp_of sv i n.
  Proof.
    revert sv. induction h as [|[j q] h IH]; intros sv Hf; [done|].
    apply Forall_cons in Hf as [Hq Hf]. unfold ManagerModel.history. cbn [fold_left].
    change (fold_left _ h ?x) with (history x h). cbn [fst snd] in *. rewrite IH by done.
    pose proof (serve_temp sv j q i n) as H. by rewrite Hq in H.
  Qed.

  Lemma session_stays sv j q i : is_Some (sv_sessions sv !! i) -> is_Some (sv_sessions (serve sv j q).1 !! i).
  Proof.
    intros Hi. unfold serve. destruct (sv_sessions sv !! j) as [ss|] eqn:E; [|done].
    destruct (handle ss _ q) as [[ss' g'] r]. cbn. destruct (decide (i = j)) as [->|?].
    - rewrite lookup_insert. by eexists.
    - by rewrite lookup_insert_ne.
  Qed.
  Lemma session_stays_history h sv i : is_Some (sv_sessions sv !! i) -> is_Some (sv_sessions (history sv h) !! i).
  Proof.
    revert sv. induction h as [|[j q] h IH]; intros sv Hi; [done|].
    unfold ManagerModel.history. cbn [fold_left]. change (fold_left _ h ?x) with (history x h).
    apply IH. by apply session_stays.
  Qed.

  (** A single name: the temporary view comes first. *)
  Lemma lookup_temp sv i n :
    is_Some (sv_sessions sv !! i) ->
    forall v, temp_of sv i n = Some v <-> (serve sv i (Lookup [n])).2 = Some (MObject (OTemp n v)).
  Proof.
    intros [ss Hs] v. unfold temp_of, serve. rewrite Hs. cbn. unfold get_object. destruct (ss_temp ss !! n) as [v'|] eqn:E.
    - split; intros; by simplify_eq/=.
    - split; [done|]. unfold resolve_object. cbn.
      destruct (ask ss _ (GetTable _ n)).2 as [[]|e]; try done.
      destruct (not_found e); [|done]. destruct (ask ss _ (GetView _ n)).2 as [[]|e']; done.
  Qed.

  Lemma list_temp sv i p :
    is_Some (sv_sessions sv !! i) ->
    exists os, (serve sv i (ListTemp false p)).2 = Some (MObjects os) /\
      NoDup os /\ forall o, o ∈ os <-> exists n v, o = OTemp n v /\ temp_of sv i n = Some v /\ matches n p = true.
  Proof.
    intros [ss Hs]. unfold serve, temp_of. rewrite Hs. cbn. eexists. split; [done|].
    unfold temp_list. split.
    - change (map ?f) with (fmap (M:=list) f). apply NoDup_fmap_2_strong.
      + intros [n v] [n' v'] _ _. cbn. by intros [= -> ->].
      + apply NoDup_ListNoDup, List.NoDup_filter, NoDup_ListNoDup, NoDup_map_to_list.
    - intros o. rewrite elem_of_list_fmap. split.
      + intros ([n v] & -> & H). apply elem_of_list_In, List.filter_In in H as [H1 H2].
        apply elem_of_list_In, elem_of_map_to_list in H1. cbn in *. eauto.
      + intros (n & v & -> & H1 & H2). exists (n, v). split; [done|].
        apply elem_of_list_In, List.filter_In. split; [|done]. by apply elem_of_list_In, elem_of_map_to_list.
  Qed.
End manager.

(** ** Names *)
Lemma rev_cons_snoc {A} (l : list A) x r : rev l = x :: r -> l = rev r ++ [x].
Proof. intros H. rewrite <- (rev_involutive l), H. done. Qed.

Lemma resolve_names ss parts c ns t :
  resolve_object ss parts = Some (c, ns, t) <-> names ss parts c ns t.
Proof.
  split.
  - unfold resolve_object. destruct (rev parts) as [|x [|y front]] eqn:E; [done| |].
    + intros [= <- <- <-]. apply rev_cons_snoc in E as ->. constructor.
    + apply rev_cons_snoc in E as ->.
      assert (Hne : rev (y :: front) <> []) by (cbn; by destruct (rev front)).
      revert Hne. generalize (rev (y :: front)). intros l Hne. destruct l as [|h l]; [done|]. cbn [resolve_database].
      destruct (bool_decide_reflect (is_Some (ss_catalogs ss !! h))) as [Hc|Hc].
      * destruct l as [|h' l]; [done|]. cbn. intros [= <- <- <-]. by apply (names_catalog ss h h' l x).
      * cbn. intros [= <- <- <-]. apply (names_database ss h l x). by apply eq_None_not_Some.
  - intros [t'|h db t' Hc|c' h db t' Hc].
    + done.
    + unfold resolve_object. change (h :: db ++ [t']) with ((h :: db) ++ [t']). rewrite rev_app_distr. cbn [rev app].
      destruct (rev db ++ [h]) as [|y f] eqn:E; [by destruct (rev db)|]. rewrite <- E.
      rewrite rev_app_distr, rev_involutive. cbn. rewrite bool_decide_false; [done|]. rewrite Hc. by intros [].
    + unfold resolve_object. change (c' :: h :: db ++ [t']) with ((c' :: h :: db) ++ [t']). rewrite rev_app_distr. cbn [rev app].
      destruct ((rev db ++ [h]) ++ [c']) as [|y f] eqn:E; [by destruct (rev db ++ [h])|]. rewrite <- E.
      rewrite !rev_app_distr, rev_involutive. cbn. by rewrite bool_decide_true.
Qed.

Lemma ask_table ss c cat ns t :
  ss_catalogs ss !! c = Some cat ->
  (ask ss c (GetTable ns t)).2 =
    match w_table (holds cat) ns t with Some x => inl (Table x) | None => inr (Provider (NoTable t)) end.
Proof.
  intros Hc. unfold ask. rewrite Hc. cbn. destruct (cat_dbs cat !! ns) as [d|]; [|done]. cbn.
  by destruct (db_tables d !! t).
Qed.
Lemma ask_view ss c cat ns t :
  ss_catalogs ss !! c = Some cat ->
  (ask ss c (GetView ns t)).2 =
    match w_view (holds cat) ns t with Some x => inl (View x) | None => inr (Provider (NoView t)) end.
Proof.
  intros Hc. unfold ask. rewrite Hc. cbn. destruct (cat_dbs cat !! ns) as [d|]; [|done]. cbn.
  by destruct (db_views d !! t).
Qed.

(** A lookup of something that is neither a temporary nor a global temporary view. *)
Definition stored (ss : session) (parts : list text) : object + merror :=
  match resolve_object ss parts with
  | None => inr EmptyReference
  | Some (c, ns, t) =>
      match ss_catalogs ss !! c with
      | None => inr TableOrViewNotFound
      | Some cat =>
          match w_table (holds cat) ns t with
          | Some x => inl (OTable x)
          | None => match w_view (holds cat) ns t with Some x => inl (OView x) | None => inr TableOrViewNotFound end
          end
      end
  end.
Lemma get_object_stored ss g parts :
  ¬ is_temp_name ss parts -> ¬ is_global_name ss parts -> get_object ss g parts = stored ss parts.
Proof.
  intros Ht Hg. unfold get_object.
  replace (match parts with [n] => ss_temp ss !! n | _ => None end) with (None : option tview).
  2:{ destruct parts as [|n [|]]; try done. destruct (ss_temp ss !! n) eqn:E; [|done]. destruct Ht. exists n. split; [done|]. rewrite E. by eexists. }
  cbn zeta. destruct (is_global_database ss (removelast parts)) eqn:E; [by apply is_global_database_name in E|].
  unfold stored. destruct (resolve_object ss parts) as [[[c ns] t]|]; [|done].
  destruct (ss_catalogs ss !! c) as [cat|] eqn:Ec.
  - rewrite (ask_table _ _ _ _ _ Ec), (ask_view _ _ _ _ _ Ec).
    destruct (w_table (holds cat) ns t); [done|]. cbn [not_found]. by destruct (w_view (holds cat) ns t).
  - unfold ask. by rewrite Ec.
Qed.
Lemma global_not_temp ss parts : is_global_name ss parts -> ¬ exists n, parts = [n].
Proof. intros [n ->] [m H]. destruct (ss_global_database ss) as [a [|b l]]; discriminate H. Qed.
Lemma get_object_global ss g n :
  get_object ss g ((ss_global_database ss).1 :: (ss_global_database ss).2 ++ [n]) =
    match g !! n with Some v => inl (OGlobal n v) | None => inr (TempNotFound n) end.
Proof.
  set (parts := _ :: _).
  assert (Hg : is_global_name ss parts) by (by exists n).
  unfold get_object. pose proof (global_not_temp _ _ Hg) as Hn.
  replace (match parts with [n] => ss_temp ss !! n | _ => None end) with (None : option tview).
  2:{ destruct parts as [|k [|]] eqn:E; try done. destruct Hn. eauto. }
  cbn zeta. apply is_global_database_name in Hg. rewrite Hg.
  assert (Hl : last parts = Some n) by (unfold parts; change (?a :: ?b ++ [n]) with ((a :: b) ++ [n]); apply last_snoc).
  by rewrite Hl.
Qed.

Lemma is_temp_name_dec ss parts : is_temp_name ss parts \/ ¬ is_temp_name ss parts.
Proof.
  destruct parts as [|n [|m l]].
  - right. by intros (n & ? & _).
  - destruct (ss_temp ss !! n) as [v|] eqn:E; [left; exists n; split; [done|by eexists]|].
    right. intros (m & [= ->] & H). rewrite E in H. by destruct H.
  - right. by intros (k & ? & _).
Qed.
Lemma is_global_name_dec ss parts : is_global_name ss parts \/ ¬ is_global_name ss parts.
Proof.
  destruct (is_global_database ss (removelast parts)) eqn:E.
  - left. by apply is_global_database_name.
  - right. intros H. apply is_global_database_name in H. congruence.
Qed.

Lemma get_object_means ss g parts o : get_object ss g parts = inl o <-> means ss g parts o.
Proof.
  split.
  - destruct (is_temp_name_dec ss parts) as [(n & -> & [v Hv])|Ht].
    { unfold get_object. rewrite Hv. cbn. intros [= <-]. by apply (means_temp _ _ _ n v). }
    destruct (is_global_name_dec ss parts) as [[n ->]|Hg].
    { rewrite get_object_global. destruct (g !! n) as [v|] eqn:E; [|done]. intros [= <-]. by apply (means_global _ _ _ n v). }
    rewrite get_object_stored by done. unfold stored.
    destruct (resolve_object ss parts) as [[[c ns] t]|] eqn:Er; [|done]. apply resolve_names in Er.
    destruct (ss_catalogs ss !! c) as [cat|] eqn:Ec; [|done].
    destruct (w_table (holds cat) ns t) as [x|] eqn:Et.
    { intros [= <-]. by eapply means_table. }
    destruct (w_view (holds cat) ns t) as [x|] eqn:Ev; [|done].
    intros [= <-]. by eapply means_view.
  - intros [n v -> Hv|n v -> Hv|c cat ns t x Ht Hg Hn Hc Hx|c cat ns t x Ht Hg Hn Hc Hx Hv].
    + unfold get_object. by rewrite Hv.
    + by rewrite get_object_global, Hv.
    + rewrite get_object_stored by done. unfold stored. apply resolve_names in Hn. by rewrite Hn, Hc, Hx.
    + rewrite get_object_stored by done. unfold stored. apply resolve_names in Hn. by rewrite Hn, Hc, Hx, Hv.
Qed.

Lemma full_not_temp ss c parts : full_name ss c parts -> ¬ is_temp_name ss parts.
Proof. intros (_ & h & db & t & ->) (n & H & _). discriminate H. Qed.

Lemma full_name_same ss ss' g g' c parts :
  full_name ss c parts -> ss_catalogs ss' !! c = ss_catalogs ss !! c ->
  ¬ is_global_name ss parts -> ¬ is_global_name ss' parts ->
  get_object ss' g' parts = get_object ss g parts.
Proof.
  intros Hf Hc Hg Hg'. pose proof Hf as (Hs & h & db & t & ->).
  assert (Hf' : full_name ss' c (c :: h :: db ++ [t])) by (split; [by rewrite Hc|by eexists _, _, _]).
  rewrite !get_object_stored by eauto using full_not_temp. unfold stored.
  assert (H1 : resolve_object ss (c :: h :: db ++ [t]) = Some (c, (h, db), t)) by (apply resolve_names; by constructor).
  assert (H2 : resolve_object ss' (c :: h :: db ++ [t]) = Some (c, (h, db), t)).
  { apply resolve_names. constructor. by destruct Hf'. }
  by rewrite H1, H2, Hc.
Qed.

Lemma current_same ss g t :
  is_Some (ss_catalogs ss !! ss_catalog ss) -> ss_temp ss !! t = None ->
  let full := ss_catalog ss :: (ss_database ss).1 :: (ss_database ss).2 ++ [t] in
  ¬ is_global_name ss full -> get_object ss g [t] = get_object ss g full.
Proof.
  intros Hc Ht full Hg. rewrite !get_object_stored; try done.
  - unfold stored. assert (H : resolve_object ss full = Some (ss_catalog ss, ss_database ss, t)).
    { apply resolve_names. unfold full. destruct (ss_database ss). by constructor. }
    by rewrite H.
  - eapply full_not_temp. split; [done|]. by eexists _, _, _.
  - intros (n & [= <-] & H). rewrite Ht in H. by destruct H.
  - intros [n H]. destruct (ss_global_database ss) as [a [|b l]]; discriminate H.
Qed.

(** A table is found under the name it was created with. *)
Lemma created_found ss g' parts o x :
  ¬ is_temp_name ss parts -> ¬ is_global_name ss parts ->
  (on_object ss parts (OpCreateTable o)).2 = MObject (OTable x) ->
  get_object (on_object ss parts (OpCreateTable o)).1 g' parts = inl (OTable x).
Proof.
  intros Ht Hg. unfold on_object. destruct (resolve_object ss parts) as [[[c ns] t]|] eqn:Er; [|done].
  cbn [obj_request]. unfold ask. destruct (ss_catalogs ss !! c) as [cat|] eqn:Ec; [|done].
  destruct (step cat (CreateTable ns t o)) as [cat' r] eqn:Es. cbn [fst snd]. intros Hr.
  assert (r = Table x) as -> by (by destruct r; simplify_eq/=).
  rewrite get_object_stored.
  - unfold stored. set (ss' := mkSession _ _ _ _ _).
    assert (Hn : resolve_object ss' parts = Some (c, ns, t)).
    { apply resolve_names. apply resolve_names in Er. destruct Er as [t'|h db t' Hh|c' h db t' Hh].
      - apply (names_current ss').
      - apply (names_database ss'). cbn. rewrite lookup_insert_ne; [done|]. intros Heq. congruence.
      - apply (names_catalog ss'). cbn. rewrite lookup_insert. by eexists. }
    rewrite Hn. cbn [ss_catalogs ss']. rewrite lookup_insert.
    enough (w_table (holds cat') ns t = Some x) as -> by done.
    revert Es. cbn [step]. destruct (create_table_ok o); [|done].
    destruct (cat_dbs cat !! ns) as [d|] eqn:Ed; [|done].
    destruct (db_tables d !! t) as [old|] eqn:Eo; destruct (ct_mode o); intros [= <- <-]; cbn;
      rewrite ?Ed, ?lookup_insert; cbn; by rewrite ?lookup_insert.
  - exact Ht.
  - exact Hg.
Qed.

(** ** Listings *)
Lemma resolve_db ss d c ns :
  (match d with [] => Some (ss_catalog ss, ss_database ss) | _ => resolve_database ss d end) = Some (c, ns)
  <-> names_db ss d c ns.
Proof.
  split.
  - destruct d as [|h t]; [intros [= <- <-]; constructor|]. cbn [resolve_database].
    destruct (bool_decide_reflect (is_Some (ss_catalogs ss !! h))) as [Hc|Hc].
    + destruct t as [|h' t]; [done|]. cbn. intros [= <- <-]. by constructor.
    + cbn. intros [= <- <-]. constructor. by apply eq_None_not_Some.
  - intros [|h db Hh|c' h db Hc]; [done| |]; cbn [resolve_database].
    + rewrite bool_decide_false; [done|]. rewrite Hh. by intros [].
    + by rewrite bool_decide_true.
Qed.

Lemma temp_list_shows matches vs p f :
  (forall n v n' v', f (n, v) = f (n', v') -> n = n' /\ v = v') ->
  NoDup (map f (temp_list matches vs p) : list object) /\
  forall o, o ∈ map f (temp_list matches vs p) <-> exists n v, o = f (n, v) /\ vs !! n = Some v /\ matches n p = true.
Proof.
  intros Hf. unfold temp_list. split.
  - change (map ?f) with (fmap (M:=list) f). apply NoDup_fmap_2_strong.
    + intros [n v] [n' v'] _ _ H. by apply Hf in H as [-> ->].
    + apply NoDup_ListNoDup, List.NoDup_filter, NoDup_ListNoDup, NoDup_map_to_list.
  - intros o. change (map ?f) with (fmap (M:=list) f). rewrite elem_of_list_fmap. split.
    + intros ([n v] & -> & H). apply elem_of_list_In, List.filter_In in H as [H1 H2].
      apply elem_of_list_In, elem_of_map_to_list in H1. cbn in *. eauto.
    + intros (n & v & -> & H1 & H2). exists (n, v). split; [done|].
      apply elem_of_list_In, List.filter_In. split; [|done]. by apply elem_of_list_In, elem_of_map_to_list.
Qed.

Lemma shows_map {A} (f : A -> object) (q : A -> bool) l P :
  (forall x y, f x = f y -> x = y) -> shows l P ->
  NoDup (map f (List.filter q l)) /\ forall o, o ∈ map f (List.filter q l) <-> exists x, o = f x /\ P x /\ q x = true.
Proof.
  intros Hf [Hn Hs]. split.
  - change (map ?f) with (fmap (M:=list) f). apply NoDup_fmap_2_strong; [intros x y _ _; apply Hf|].
    by apply NoDup_ListNoDup, List.NoDup_filter, NoDup_ListNoDup.
  - intros o. change (map ?f) with (fmap (M:=list) f). rewrite elem_of_list_fmap. split.
    + intros (x & -> & H). apply elem_of_list_In, List.filter_In in H as [H1 H2].
      apply elem_of_list_In, Hs in H1. eauto.
    + intros (x & -> & H1 & H2). exists x. split; [done|].
      apply elem_of_list_In, List.filter_In. split; [|done]. by apply elem_of_list_In, Hs.
Qed.

Lemma ask_result ss c cat o :
  ss_catalogs ss !! c = Some cat ->
  (ask ss c o).2 = match (step cat o).2 with Error e => inr (Provider e) | r => inl r end.
Proof. intros Hc. unfold ask. rewrite Hc. destruct (step cat o) as [cat' []]; reflexivity. Qed.

Lemma show_tables_shown matches ss g d p c cat ns :
  to_namespace d <> Some (ss_global_database ss) -> names_db ss d c ns -> ss_catalogs ss !! c = Some cat ->
  reachable cat ->
  match w_db (holds cat) ns with
  | None => show_tables matches ss g d p = inr (Provider (NoDatabase ns))
  | Some _ => exists os, show_tables matches ss g d p = inl os /\ shows os (shown matches ss cat ns p)
  end.
Proof.
  intros Hg Hd Hc Hr. apply resolve_db in Hd. unfold show_tables, is_global_database.
  rewrite bool_decide_false by done. rewrite Hd.
  pose proof (reachable_named cat Hr) as Hn.
  pose proof (step_expected cat (ListTables ns) Hn (fun H => H)) as [_ Ht].
  pose proof (step_expected cat (ListViews ns) Hn (fun H => H)) as [_ Hv].
  rewrite !(ask_result ss c cat _ Hc).
  destruct (w_db (holds cat) ns) as [db|] eqn:E; [|by rewrite Ht].
  destruct Ht as (ts & -> & Ht), Hv as (vs & -> & Hv). eexists. split; [done|].
  apply (shows_map OTable (fun t => matches (tbl_name t) p)) in Ht as [Nt Ht]; [|intros ?? H; by simplify_eq].
  apply (shows_map OView (fun v => matches (vw_name v) p)) in Hv as [Nv Hv]; [|intros ?? H; by simplify_eq].
  destruct (temp_list_shows matches (ss_temp ss) p (fun q => OTemp q.1 q.2)) as [Np Hp];
    [cbn; intros ???? H; by simplify_eq|].
  assert (forall t x, w_table (holds cat) ns t = Some x -> tbl_name x = t) as Nt1.
  { intros t x H. cbn in H. destruct (cat_dbs cat !! ns) as [y|] eqn:E1; [|done]. by apply (Hn ns y E1). }
  assert (forall t x, w_view (holds cat) ns t = Some x -> vw_name x = t) as Nv1.
  { intros t x H. cbn in H. destruct (cat_dbs cat !! ns) as [y|] eqn:E1; [|done]. by apply (Hn ns y E1). }
  split.
  - apply NoDup_app. split; [done|split; [|apply NoDup_app; split; [done|split; [|done]]]].
    + intros o (x & -> & _)%Ht [(y & ? & _)%Hv|(n & v & ? & _)%Hp]%elem_of_app; done.
    + intros o (x & -> & _)%Hv (n & v & ? & _)%Hp; done.
  - intros o. rewrite !elem_of_app, Ht, Hv, Hp. split.
    + intros [(x & -> & [t Hx] & Hm)|[(x & -> & [t Hx] & Hm)|(n & v & -> & Hx & Hm)]].
      * rewrite (Nt1 _ _ Hx) in Hm. exists t. eauto.
      * rewrite (Nv1 _ _ Hx) in Hm. exists t. eauto 6.
      * exists n. eauto 6.
    + intros (n & Hm & [(x & -> & Hx)|[(x & -> & Hx)|(v & -> & Hx)]]).
      * left. exists x. rewrite (Nt1 _ _ Hx). eauto.
      * right. left. exists x. rewrite (Nv1 _ _ Hx). eauto.
      * right. right. eauto.
Qed.

Lemma show_tables_global matches ss g d p :
  to_namespace d = Some (ss_global_database ss) ->
  exists os, show_tables matches ss g d p = inl os /\
    shows os (fun o => exists n v, matches n p = true /\
      (o = OGlobal n v /\ g !! n = Some v \/ o = OTemp n v /\ ss_temp ss !! n = Some v)).
Proof.
  intros Hg. unfold show_tables, is_global_database. rewrite bool_decide_true by done.
  destruct (temp_list_shows matches (ss_temp ss) p (fun q => OTemp q.1 q.2)) as [Np Hp]; [cbn; intros ???? H; by simplify_eq|].
  destruct (temp_list_shows matches g p (fun q => OGlobal q.1 q.2)) as [Ng Hq]; [cbn; intros ???? H; by simplify_eq|].
  eexists. split; [done|]. split.
  - apply NoDup_app. split; [done|split; [|done]].
    intros o (n & v & -> & _)%Hq (n' & v' & ? & _)%Hp. done.
  - intros o. rewrite elem_of_app, Hp, Hq. cbn. split.
    + intros [(n & v & -> & ? & ?)|(n & v & -> & ? & ?)]; exists n, v; eauto.
    + intros (n & v & Hm & [[-> ?]|[-> ?]]); [left|right]; exists n, v; eauto.
Qed.

(** ** USE *)
Lemma use_database ss h db cat :
  ss_catalogs ss !! ss_catalog ss = Some cat ->
  (ask ss (ss_catalog ss) (GetDatabase (h, db))).2 =
    match w_db (holds cat) (h, db) with Some d => inl (Database d) | None => inr (Provider (NoDatabase (h, db))) end.
Proof.
  intros Hc. rewrite (ask_result ss _ cat _ Hc). cbn. by destruct (cat_dbs cat !! (h, db)).
Qed.
