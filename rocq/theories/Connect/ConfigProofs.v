(** Proofs about the configuration of a session. *)
From Coq Require Import NArith ZifyN Lia.
From stdpp Require Import prelude list gmap.
From Verif.Lib Require Import Text.
From Verif.Connect Require Import ConfigModel ConfigSpec.

Definition apply (c : config) (x : change) : config := match x with Assign k v => <[k := v]> c | Remove k => delete k c end.
Definition play (c : config) (h : list change) : config := fold_left apply h c.

Lemma removed_ok_allowed t k v : removed_ok t k v = true <-> allowed t k v.
Proof.
  unfold removed_ok, allowed. destruct (t !! k) as [e|]; [|split; [intros _ e [=]|done]].
  rewrite orb_true_iff, bool_decide_eq_true, negb_true_iff. split.
  - intros [H|H] e' [= <-]; [congruence|done].
  - intros H. specialize (H e eq_refl). destruct (e_removed e); [right; auto|by left].
Qed.
Lemma set_config_play t kvs : forall c, (set_config t c kvs).1 = play c (assignments t kvs).
Proof.
  induction kvs as [|[k [v|]] kvs IH]; intros c; [done| |done]. cbn [set_config assignments]. unfold set.
  destruct (decide (allowed t k v)) as [H|H].
  - rewrite (proj2 (removed_ok_allowed _ _ _) H). apply IH.
  - destruct (removed_ok t k v) eqn:E; [by apply removed_ok_allowed in E|done].
Qed.
Lemma play_app c a b : play c (a ++ b) = play (play c a) b.
Proof. apply fold_left_app. Qed.
Lemma step_play t c r : step t c r = play c (changes_of t r).
Proof.
  destruct r as [kvs|ks]; [apply set_config_play|]. cbn. unfold unset_config. revert c. induction ks as [|k ks IH]; intros c; [done|]. apply IH.
Qed.
Lemma run_play t zone l : allowed t time_zone_key zone -> run t (new_config t zone) l = play ∅ (changes t zone l).
Proof.
  intros Hz. unfold changes. rewrite <- (app_nil_l (_ :: _)). change ([] ++ ?x :: ?y) with ([x] ++ y). rewrite play_app.
  unfold new_config. rewrite set_config_play. cbn [assignments]. rewrite decide_True by done.
  generalize (play ∅ [Assign time_zone_key zone]). induction l as [|r l IH]; intros c; [done|].
  cbn [run fold_left flat_map]. rewrite play_app, <- step_play. apply IH.
Qed.
Lemma play_lookup h : forall c k, play c h !! k = match assigned h k with Some v => Some v | None => if decide (Remove k ∈ h) then None else c !! k end.
Proof.
  induction h as [|x h IH]; intros c k.
  - cbn. rewrite decide_False; [done|apply not_elem_of_nil].
  - cbn [play fold_left]. change (fold_left apply h ?d) with (play d h). rewrite IH. cbn [assigned].
    destruct (assigned h k) as [v|] eqn:E; [done|]. destruct x as [k' v|k']; cbn [apply].
    + destruct (decide (k' = k)) as [->|Hk].
      * rewrite lookup_insert. destruct (decide (Remove k ∈ h)) as [H|H].
        -- rewrite decide_False by (intros [_ ?]; done). by rewrite decide_True by (by right).
        -- by rewrite decide_True by done.
      * rewrite lookup_insert_ne by done. rewrite (decide_False (P := k' = k /\ _)) by (intros [? _]; done).
        destruct (decide (Remove k ∈ h)) as [H|H].
        -- by rewrite decide_True by (by right).
        -- rewrite decide_False; [done|]. intros [?|?]%elem_of_cons; done.
    + destruct (decide (k' = k)) as [->|Hk].
      * rewrite lookup_delete, (decide_True (P := Remove k ∈ Remove k :: h)) by left. by destruct (decide _).
      * rewrite lookup_delete_ne by done. destruct (decide (Remove k ∈ h)) as [H|H].
        -- by rewrite decide_True by (by right).
        -- rewrite decide_False; [done|]. intros [[= ->]|?]%elem_of_cons; done.
Qed.
Lemma play_assigned h k : play ∅ h !! k = assigned h k.
Proof. rewrite play_lookup, lookup_empty. destruct (assigned h k); [done|]. by destruct (decide _). Qed.

Lemma first_set_head c ks : first_set c ks = head (omap (fun k => c !! k) ks).
Proof. induction ks as [|k ks IH]; [done|]. cbn. destruct (c !! k); [done|exact IH]. Qed.
Lemma get_by_key_names t c k : get_by_key t c k = head (omap (fun k => c !! k) (names t k)).
Proof. unfold get_by_key, names. cbn. destruct (c !! k); [done|]. by rewrite first_set_head. Qed.
Lemma head_app {A} (a b : list A) : head (a ++ b) = match head a with Some x => Some x | None => head b end.
Proof. by destruct a. Qed.
Lemma value_next t h k ks : value_of t h (k :: ks) = match head (omap (assigned h) (names t k)) with Some v => Some v | None => value_of t h ks end.
Proof. unfold value_of. cbn [flat_map]. by rewrite omap_app, head_app. Qed.
Lemma omap_ext' {A B} (f g : A -> option B) (l : list A) : (forall x, f x = g x) -> omap f l = omap g l.
Proof. intros H. induction l as [|x l IH]; [done|]. cbn. rewrite H. by destruct (g x); rewrite IH. Qed.
Lemma get_by_key_assigned t h k : get_by_key t (play ∅ h) k = head (omap (assigned h) (names t k)).
Proof. rewrite get_by_key_names. f_equal. apply omap_ext'. intros; apply play_assigned. Qed.

Section reads.
  Context (t : table) (zone : text) (l : list request) (Hz : allowed t time_zone_key zone).
  Let c := run t (new_config t zone) l.
  Let h := changes t zone l.
  Lemma get_right k ks fuel : chain t k ks -> length ks <= fuel ->
    get fuel t c k = match value_of t h ks with Some v => Some (Some v) | None => default_of t ks end.
  Proof.
    unfold c. rewrite run_play by done. fold h. intros Hc. revert fuel. induction Hc as [k Hk|k k' ks Hk Hc IH]; intros [|fuel] Hf; cbn [length] in Hf; try lia.
    - cbn [get]. rewrite get_by_key_assigned, Hk, value_next. destruct (head _); [done|]. cbn. by destruct (t !! k).
    - cbn [get]. rewrite get_by_key_assigned, Hk, value_next. destruct (head _); [done|]. rewrite IH by lia.
      replace (default_of t (k :: ks)) with (default_of t ks); [done|]. by destruct Hc.
  Qed.
  Lemma get_option_right k ks fuel : chain t k ks -> length ks <= fuel ->
    get_option fuel t c k = match value_of t h ks with Some v => Some v | None => mjoin (default_of t ks) end.
  Proof.
    unfold c. rewrite run_play by done. fold h. intros Hc. revert fuel. induction Hc as [k Hk|k k' ks Hk Hc IH]; intros [|fuel] Hf; cbn [length] in Hf; try lia.
    - cbn [get_option]. rewrite get_by_key_assigned, Hk, value_next. destruct (head _); [done|]. cbn. by destruct (t !! k).
    - cbn [get_option]. rewrite get_by_key_assigned, Hk, value_next. destruct (head _); [done|]. rewrite IH by lia.
      replace (default_of t (k :: ks)) with (default_of t ks); [done|]. by destruct Hc.
  Qed.
  Lemma get_with_default_right k ks fuel d : chain t k ks -> length ks <= fuel ->
    get_with_default fuel t c k d = match value_of t h ks with Some v => Some v | None => d end.
  Proof.
    unfold c. rewrite run_play by done. fold h. intros Hc. revert fuel. induction Hc as [k Hk|k k' ks Hk Hc IH]; intros [|fuel] Hf; cbn [length] in Hf; try lia.
    - cbn [get_with_default]. rewrite get_by_key_assigned, Hk, value_next. by destruct (head _).
    - cbn [get_with_default]. rewrite get_by_key_assigned, Hk, value_next. destruct (head _); [done|]. by rewrite IH by lia.
  Qed.
  Lemma get_all_right prefix : NoDup (map fst (get_all c prefix)) /\
    forall k v, (k, v) ∈ get_all c prefix <-> assigned h k = Some v /\ match prefix with Some p => starts_with k p = true | None => True end.
  Proof.
    split.
    - unfold get_all. pose proof (NoDup_fst_map_to_list c) as H. change (map fst) with (fmap (M:=list) (@fst text text)).
      revert H. generalize (map_to_list c). intros m. induction m as [|x m IH]; intros H; [constructor|].
      cbn [fmap list_fmap] in H. apply NoDup_cons in H as [H1 H2]. rewrite filter_cons. destruct (decide _); [|by apply IH].
      cbn [fmap list_fmap]. constructor; [|by apply IH]. intros (y & Hy & Hin)%elem_of_list_fmap. apply elem_of_list_filter in Hin as [_ Hin].
      apply H1. apply elem_of_list_fmap. by exists y.
    - intros k v. unfold get_all. rewrite elem_of_list_filter, elem_of_map_to_list. cbn. unfold c. rewrite run_play, play_assigned by done. fold h. destruct prefix; tauto.
  Qed.
End reads.

(** Removed keys keep their default. *)
Lemma removed_constant t zone l k e v : t !! k = Some e -> e_removed e = true -> run t (new_config t zone) l !! k = Some v -> e_default e = Some v.
Proof.
  intros He Hr. assert (forall c, (forall w, c !! k = Some w -> e_default e = Some w) -> forall r w, step t c r !! k = Some w -> e_default e = Some w) as Hstep.
  { intros c Hc r. rewrite step_play. assert (forall x w, x ∈ changes_of t r -> x = Assign k w -> e_default e = Some w) as Hx.
    { intros x w Hx ->. destruct r as [kvs|ks]; cbn in Hx.
      - induction kvs as [|[k' [v'|]] kvs IH]; cbn in Hx; try by apply elem_of_nil in Hx. destruct (decide (allowed t k' v')) as [Ha|]; [|by apply elem_of_nil in Hx].
        apply elem_of_cons in Hx as [[= <- <-]|Hx]; [by apply Ha|auto].
      - apply elem_of_list_fmap in Hx as (? & ? & _). done. }
    revert c Hc. induction (changes_of t r) as [|x h IH]; intros c Hc w; [apply Hc|]. cbn [play fold_left]. apply IH.
    - intros y w' Hy. apply Hx. by right.
    - intros w'. destruct x as [k' v'|k']; cbn [apply].
      + destruct (decide (k' = k)) as [->|Hk]; [rewrite lookup_insert; intros [= <-]; eapply Hx; [left|done]|by rewrite lookup_insert_ne; auto].
      + destruct (decide (k' = k)) as [->|Hk]; [by rewrite lookup_delete|by rewrite lookup_delete_ne; auto]. }
  assert (forall c, (forall w, c !! k = Some w -> e_default e = Some w) -> forall w, run t c l !! k = Some w -> e_default e = Some w) as Hrun.
  { induction l as [|r l IH]; intros c Hc w; [apply Hc|]. cbn [run fold_left]. apply IH. by apply Hstep. }
  apply Hrun. intros w. change (new_config t zone) with (step t ∅ (SetConfig [(time_zone_key, Some zone)])). apply Hstep. intros w'. by rewrite lookup_empty.
Qed.

Lemma modifiable_settable t c k v : is_modifiable t k = true ->
  set_config t c [(k, Some v)] = (<[k := v]> c, true) /\
  (forall k', k' <> k -> (set_config t c [(k, Some v)]).1 !! k' = c !! k') /\
  forall fuel, get (S fuel) t (set_config t c [(k, Some v)]).1 k = Some (Some v) /\
    get_option (S fuel) t (set_config t c [(k, Some v)]).1 k = Some v /\
    forall d, get_with_default (S fuel) t (set_config t c [(k, Some v)]).1 k d = Some v.
Proof.
  intros Hm. assert (set_config t c [(k, Some v)] = (<[k := v]> c, true)) as ->.
  { cbn. unfold set, removed_ok. unfold is_modifiable in Hm. destruct (t !! k) as [e|]; [|done].
    apply andb_true_iff in Hm as [_ ->]. done. }
  split; [done|]. split; [intros k' Hk; cbn; by rewrite lookup_insert_ne|].
  intros fuel. cbn. unfold get_by_key. by rewrite lookup_insert.
Qed.
