From Coq Require Import NArith Lia ZifyN ZifyBool.
From stdpp Require Import prelude list.
From Verif Require Import Source.Utf8Spec Source.LossyModel Source.LossyProofs Source.TextSpec Source.TextModel Source.TextProofs.
#[local] Open Scope N_scope.

Lemma find_newline_spec nl t :
  let k := find_first_newline nl t in
  (t !! k = Some nl \/ k = length t) /\ (k <= length t)%nat /\ forall j, (j < k)%nat -> t !! j <> Some nl.
Proof.
  induction t as [|b t IH]; cbn [find_first_newline].
  - split_and!; [by right|done|lia].
  - destruct (b =? nl) eqn:E.
    + apply N.eqb_eq in E as ->. split_and!; [by left|cbn; lia|lia].
    + destruct IH as (H1 & H2 & H3). cbn [length lookup list_lookup]. split_and!.
      * destruct H1 as [H1|H1]; [by left|right; by rewrite <- H1].
      * lia.
      * intros [|j] Hj; [|apply H3; lia]. cbn. apply N.eqb_neq in E. congruence.
Qed.

(** Where a cut at [p] is moved to. *)
Definition adj (nl : N) (file : list N) (p : nat) : nat :=
  if (p =? 0)%nat then 0%nat else if (p =? length file)%nat then length file
  else (p + find_first_newline nl (drop (p - 1) file))%nat.
Definition newline_of (sep : option N) : N := match sep with Some s => s | None => 10 end.
Definition piece (sep : option N) (file : list N) (ab : nat * nat) : list N :=
  from_option id [] (range_bytes sep file ab.1 ab.2).

Lemma adj_spec nl file p : (0 < p < length file)%nat ->
  (p <= adj nl file p)%nat /\ (forall j, (p - 1 <= j < adj nl file p - 1)%nat -> file !! j <> Some nl) /\
  ((adj nl file p <= length file)%nat /\ file !! (adj nl file p - 1)%nat = Some nl \/ adj nl file p = S (length file)).
Proof.
  intros Hp. unfold adj. destruct (p =? 0)%nat eqn:E0; [lia|]. destruct (p =? length file)%nat eqn:E1; [lia|].
  pose proof (find_newline_spec nl (drop (p - 1) file)) as (H1 & H2 & H3).
  set (k := find_first_newline nl (drop (p - 1) file)) in *. rewrite drop_length in H1, H2.
  split_and!; [lia| |].
  - intros j Hj. specialize (H3 (j - (p - 1))%nat ltac:(lia)). rewrite lookup_drop in H3.
    by replace (p - 1 + (j - (p - 1)))%nat with j in H3 by lia.
  - destruct H1 as [H1|H1].
    + left. rewrite lookup_drop in H1. replace (p + k - 1)%nat with (p - 1 + k)%nat by lia.
      split; [|done]. apply lookup_lt_Some in H1. lia.
    + right. lia.
Qed.

Lemma slice (file : list N) (a b : nat) : (a <= b)%nat -> take (b - a) (drop a file) ++ drop b file = drop a file.
Proof.
  intros Hab. replace (drop b file) with (drop (b - a) (drop a file)); [by rewrite take_drop|].
  rewrite drop_drop. f_equal. lia.
Qed.
Lemma last_slice (file : list N) (a b : nat) x : (a < b <= length file)%nat -> file !! (b - 1)%nat = Some x ->
  last (take (b - a) (drop a file)) = Some x.
Proof.
  intros Hab Hx. rewrite last_lookup, take_length, drop_length.
  replace (Nat.pred _) with (b - a - 1)%nat by lia. rewrite lookup_take by lia. rewrite lookup_drop.
  by replace (a + (b - a - 1))%nat with (b - 1)%nat by lia.
Qed.

Lemma piece_ok sep file a b : (a < b <= length file)%nat ->
  piece sep file (a, b) ++ drop (adj (newline_of sep) file b) file = drop (adj (newline_of sep) file a) file /\
  (piece sep file (a, b) = [] \/ last (piece sep file (a, b)) = Some (newline_of sep) \/
   drop (adj (newline_of sep) file b) file = []).
Proof.
  intros Hab. unfold piece, range_bytes. cbn [fst snd].
  change (match sep with Some sep => sep | None => 10 end) with (newline_of sep). set (nl := newline_of sep).
  set (from := (a + (if (a =? 0)%nat then 0 else find_first_newline nl (drop (a - 1) file)))%nat).
  set (to := (b + (if (b =? length file)%nat then 0 else find_first_newline nl (drop (b - 1) file)))%nat).
  assert (adj nl file a = from) as Ha.
  { unfold adj, from. destruct (a =? 0)%nat eqn:E; [lia|]. replace (a =? length file)%nat with false by lia. done. }
  assert (adj nl file b = to) as Hb.
  { unfold adj, to. replace (b =? 0)%nat with false by lia. destruct (b =? length file)%nat eqn:E; [lia|done]. }
  rewrite Ha, Hb.
  assert (a <> 0%nat -> (a <= from)%nat /\ (forall j, (a - 1 <= j < from - 1)%nat -> file !! j <> Some nl) /\
    ((from <= length file)%nat /\ file !! (from - 1)%nat = Some nl \/ from = S (length file))) as Hfrom.
  { intros H0. rewrite <- Ha. apply adj_spec. lia. }
  assert (b <> length file -> (b <= to)%nat /\ (forall j, (b - 1 <= j < to - 1)%nat -> file !! j <> Some nl) /\
    ((to <= length file)%nat /\ file !! (to - 1)%nat = Some nl \/ to = S (length file))) as Hto.
  { intros H0. rewrite <- Hb. apply adj_spec. lia. }
  assert (b = length file -> to = b) as Hto'.
  { intros ->. unfold to. rewrite Nat.eqb_refl. lia. }
  assert (a = 0%nat -> from = 0%nat) as Hfrom' by (by intros ->).
  destruct (b <? from)%nat eqn:Elt.
  - cbn [from_option]. split; [|by left]. apply Nat.ltb_lt in Elt.
    destruct (decide (a = 0%nat)) as [->|Ha0]; [specialize (Hfrom' eq_refl); lia|].
    destruct (Hfrom Ha0) as (_ & Hno & Hend).
    destruct (decide (b = length file)) as [Hbl|Hbl].
    + rewrite (Hto' Hbl). rewrite !drop_ge by lia. done.
    + destruct (Hto Hbl) as (Hbt & Hno' & Hend'). cbn [app]. f_equal.
      assert (~ (to < from)%nat) as H1.
      { intros Hc. destruct Hend' as [[H1 H2]| H1].
        - apply (Hno (to - 1)%nat); [lia|done].
        - lia. }
      assert (~ (from < to)%nat) as H2.
      { intros Hc. destruct Hend as [[H3 H2]| H3].
        - apply (Hno' (from - 1)%nat); [lia|done].
        - lia. }
      lia.
  - apply Nat.ltb_ge in Elt.
    assert (b <= to)%nat as Hbt.
    { destruct (decide (b = length file)) as [Hbl|Hbl]; [rewrite (Hto' Hbl); lia|by destruct (Hto Hbl)]. }
    destruct (from =? to)%nat eqn:Eft.
    + apply Nat.eqb_eq in Eft. cbn [from_option app]. rewrite Eft. split; [done|by left].
    + apply Nat.eqb_neq in Eft. cbn [from_option id]. split; [apply slice; lia|].
      destruct (decide (b = length file)) as [Hbl|Hbl].
      { right; right. rewrite (Hto' Hbl). by rewrite drop_ge by lia. }
      destruct (Hto Hbl) as (_ & _ & [[H1 H2]|H1]).
      * right; left. apply last_slice; [lia|done].
      * right; right. by rewrite drop_ge by lia.
Qed.

Lemma lines_app sep a b r1 r2 : a = [] \/ last a = Some (newline_of sep) -> lines sep a r1 -> lines sep b r2 ->
  lines sep (a ++ b) (r1 ++ r2).
Proof.
  intros Ha H1 H2. induction H1 as [|l Hne Hf|l t after rows Hf Ht Hr IH]; [done| |].
  - exfalso. destruct Ha as [Ha|Ha]; [done|]. rewrite Forall_forall in Hf. apply (Hf (newline_of sep)).
    + by apply last_Some_elem_of.
    + destruct sep; cbn; [done|]. by right.
  - cbn [app]. rewrite <- !app_assoc.
    assert (after = [] \/ last after = Some (newline_of sep)) as Hafter.
    { destruct Ha as [Ha|Ha].
      - apply app_eq_nil in Ha as [_ Ha]. apply app_eq_nil in Ha as [_ Ha]. by left.
      - destruct (decide (after = [])) as [->|Hn]; [by left|right]. rewrite !last_app in Ha.
        destruct (last after) eqn:El; [done|]. by apply last_None in El. }
    constructor; [done| |by apply IH].
    destruct sep as [sep|]; [done|]. destruct Ht as [->|[->|[-> Hh]]]; [by left|right; by left|].
    right; right. split; [done|]. destruct after as [|x after]; [|done]. exfalso.
    destruct Ha as [Ha|Ha]; [by destruct l|]. rewrite app_nil_r, last_snoc in Ha. done.
Qed.

Lemma covers_le size a rs : covers size a rs -> (a <= size)%nat.
Proof. destruct 1; lia. Qed.
Lemma ranges_lines sep file a rs rowss :
  covers (length file) a rs -> Forall2 (fun ab rows => lines sep (piece sep file ab) rows) rs rowss ->
  lines sep (drop (adj (newline_of sep) file a) file) (concat rowss).
Proof.
  intros Hc. revert rowss. induction Hc as [|a b rs Hab Hb Hc IH]; intros rowss H.
  - apply Forall2_nil_inv_l in H as ->. rewrite drop_ge; [constructor|].
    unfold adj. destruct (_ =? 0)%nat eqn:E; [lia|]. by rewrite Nat.eqb_refl.
  - apply Forall2_cons_inv_l in H as (rows & rowss' & H1 & H2 & ->). cbn [concat].
    destruct (piece_ok sep file a b) as [He Hlast]; [lia|]. rewrite <- He.
    specialize (IH rowss' H2). destruct Hlast as [Hl|[Hl|Hl]].
    + apply lines_app; [by left|done|done].
    + apply lines_app; [by right|done|done].
    + rewrite Hl in *. assert (concat rowss' = []) as ->.
      { eapply lines_fun; [done|constructor]. }
      by rewrite !app_nil_r.
Qed.

(** Writing. *)
Lemma write_lines sep c rows :
  terminator sep [c] [] -> (sep = None -> c = LF) ->
  Forall (fun v => free sep (from_option id [] v)) rows ->
  lines sep (write_text c rows) (from_option id [] <$> rows).
Proof.
  intros Ht Hc. unfold write_text. induction 1 as [|v rows Hv Hrows IH]; cbn [fmap list_fmap concat]; [constructor|].
  rewrite <- app_assoc. constructor; [done| |done]. destruct sep as [s|]; [done|].
  rewrite (Hc eq_refl). right; by left.
Qed.
