From Coq Require Import NArith Lia ZifyN ZifyBool.
From stdpp Require Import prelude list.
From Verif Require Import Source.Utf8Spec Source.LossyModel Source.LossyProofs Source.TextSpec Source.TextModel.
#[local] Open Scope N_scope.

Notation free sep l := (Forall (fun b : N => ~ ends_line sep b) l).

(** Every file has its lines, and only one list of them. *)
Lemma app_free sep l1 l2 s1 s2 :
  free sep l1 -> free sep l2 -> 
  (exists b s, s1 = b :: s /\ ends_line sep b) -> (exists b s, s2 = b :: s /\ ends_line sep b) ->
  l1 ++ s1 = l2 ++ s2 -> l1 = l2 /\ s1 = s2.
Proof.
  intros H1 H2 (b1 & s1' & -> & Hb1) (b2 & s2' & -> & Hb2). revert l2 H2. induction H1 as [|x l1 Hx H1 IH]; intros l2 H2 He.
  - destruct H2 as [|y l2 Hy H2]; [done|]. cbn in He. injection He as <- _. done.
  - destruct H2 as [|y l2 Hy H2]; cbn in He.
    + injection He as <- _. done.
    + injection He as <- He. apply IH in He as [-> ->]; done.
Qed.
Lemma terminator_head sep t after s : terminator sep t after -> exists b s', t ++ s = b :: s' /\ ends_line sep b.
Proof.
  destruct sep as [sep|]; cbn.
  - intros ->. by exists sep, s.
  - intros [->|[->|[-> _]]]; eexists _, _; (split; [done|]); unfold ends_line; auto.
Qed.
Lemma free_no_term sep l l' b s : free sep l -> l = l' ++ b :: s -> ends_line sep b -> False.
Proof. intros H -> Hb. apply Forall_app in H as [_ H]. by apply Forall_cons in H as [H _]. Qed.
Lemma lines_fun sep t r : lines sep t r -> forall r', lines sep t r' -> r = r'.
Proof.
  induction 1 as [|l Hl Hf|l t after rows Hf Ht Hr IH]; intros r' H'.
  - inversion H' as [|l Hl Hf|l t after rows Hf Ht Hr He]; [done|done|].
    apply app_eq_nil in He as [_ He]. destruct (terminator_head sep t after after Ht) as (b & s & Hb & _). by rewrite Hb in He.
  - inversion H' as [|l' Hl' Hf'|l' t after rows Hf' Ht Hr He]; [by subst|by subst|].
    exfalso. destruct (terminator_head sep t after after Ht) as (b & s & Hb & Hbe). rewrite Hb in He.
    eapply free_no_term; [exact Hf|by symmetry|done].
  - inversion H' as [He|l' Hl' Hf' He|l' t' after' rows' Hf' Ht' Hr' He].
    + exfalso. symmetry in He. apply app_eq_nil in He as [_ He].
      destruct (terminator_head sep t after after Ht) as (b & s & Hb & _). by rewrite Hb in He.
    + exfalso. destruct (terminator_head sep t after after Ht) as (b & s & Hb & Hbe).
      eapply (free_no_term sep _ l b s); [exact Hf'|by rewrite <- Hb|done].
    + apply app_free with (sep := sep) in He as [-> He]; [|done|done|by eapply terminator_head|by eapply terminator_head].
      assert (after = after') as ->; [|f_equal; by apply IH].
      destruct sep as [sep|]; cbn in Ht, Ht'.
      * subst. by injection He.
      * destruct Ht as [->|[->|[-> Hh]]]; destruct Ht' as [->|[->|[-> Hh']]]; cbn in He; try by injection He.
        -- injection He as He. subst after'. by cbn in Hh'.
        -- injection He as He. subst after. by cbn in Hh.
Qed.

(** Cuts between a chunk and what follows. *)
Definition ok_cut (sep : option N) (t tail : list N) : Prop :=
  sep = None -> ~ (last t = Some CR /\ head tail = Some LF).

Lemma find_end_some sep t l after : find_end sep t = Some (l, after) ->
  exists term, t = l ++ term ++ after /\ term <> [] /\ free sep l /\
    (forall tail, ok_cut sep t tail -> terminator sep term (after ++ tail)).
Proof.
  revert l after. induction t as [|b rest IH]; intros l after H; [done|]. cbn [find_end] in H.
  unfold is_line_end in H. destruct sep as [sep|].
  - destruct (b =? sep) eqn:E.
    + cbn [drop] in H. injection H as <- <-. apply N.eqb_eq in E as ->. exists [sep]. by split_and!.
    + destruct (find_end (Some sep) rest) as [[l' a']|] eqn:Ef; [|done]. injection H as <- <-.
      destruct (IH l' a' eq_refl) as (term & -> & Hne & Hl & Hterm). exists term. split_and!; [done|done| |].
      * constructor; [|done]. cbn. apply N.eqb_neq in E. congruence.
      * intros tail _. apply Hterm. by intros ?.
  - destruct (b =? 13) eqn:E.
    + apply N.eqb_eq in E as ->. destruct rest as [|c rest]; [|destruct (c =? 10) eqn:Ec].
      * cbn [drop] in H. injection H as <- <-. exists [CR]. split_and!; [done|done|done|].
        intros tail Hcut. right; right. split; [done|]. intros Hh. apply Hcut; [done|]. split; [done|]. done.
      * apply N.eqb_eq in Ec as ->. cbn [drop] in H. injection H as <- <-. exists [CR; LF].
        split_and!; [done|done|done|]. intros tail _. by left.
      * cbn [drop] in H. injection H as <- <-. exists [CR]. split_and!; [done|done|done|].
        intros tail _. right; right. split; [done|]. cbn. intros [= ->]. done.
    + destruct (b =? 10) eqn:E10.
      * apply N.eqb_eq in E10 as ->. cbn [drop] in H. injection H as <- <-. exists [LF].
        split_and!; [done|done|done|]. intros tail _. right; by left.
      * destruct (find_end None rest) as [[l' a']|] eqn:Ef; [|done]. injection H as <- <-.
        destruct (IH l' a' eq_refl) as (term & -> & Hne & Hl & Hterm). exists term. split_and!; [done|done| |].
        -- constructor; [|done]. cbn. apply N.eqb_neq in E, E10. unfold CR, LF. lia.
        -- intros tail Hcut. apply Hterm. intros _ [Hl' Hh]. apply Hcut; [done|]. split; [|done].
           change (b :: l' ++ term ++ a') with ([b] ++ (l' ++ term ++ a')). rewrite last_app. by rewrite Hl'.
Qed.
Lemma find_end_none sep t : find_end sep t = None -> free sep t.
Proof.
  induction t as [|b rest IH]; intros H; [constructor|]. cbn [find_end] in H.
  destruct (is_line_end sep b rest) eqn:E; [|done].
  destruct (find_end sep rest) as [[]|]; [done|]. constructor; [|by apply IH].
  unfold is_line_end in E. unfold ends_line. destruct sep as [sep|].
  - destruct (b =? sep) eqn:Eb; [done|]. apply N.eqb_neq in Eb. congruence.
  - destruct (b =? 13) eqn:Eb; [destruct rest as [|c rest]; [done|destruct (c =? 10); done]|].
    destruct (b =? 10) eqn:Eb'; [done|]. apply N.eqb_neq in Eb, Eb'. unfold CR, LF. lia.
Qed.
Lemma find_end_free sep p t :
  free sep p -> find_end sep (p ++ t) =
    match find_end sep t with Some (l, a) => Some (p ++ l, a) | None => None end.
Proof.
  induction 1 as [|b p Hb Hp IH]; cbn [app find_end].
  - by destruct (find_end sep t) as [[]|].
  - rewrite IH. assert (is_line_end sep b (p ++ t) = 0%nat) as ->.
    { unfold is_line_end. unfold ends_line in Hb. destruct sep as [sep|].
      - destruct (b =? sep) eqn:E; [apply N.eqb_eq in E; done|done].
      - unfold CR, LF in Hb. destruct (b =? 13) eqn:E; [lia|]. destruct (b =? 10) eqn:E'; [lia|done]. }
    by destruct (find_end sep t) as [[]|].
Qed.

Lemma lines_total sep t : exists r, lines sep t r.
Proof.
  remember (length t) as n eqn:Hn. revert t Hn. induction (lt_wf n) as [n _ IH]; intros t ->.
  destruct (find_end sep t) as [[l after]|] eqn:E.
  - destruct (find_end_some sep t l after E) as (term & Ht & Hne & Hf & Hterm).
    destruct (IH (length after)) with (t := after) as [r Hr]; [|done|].
    + rewrite Ht, !app_length. destruct term; [done|]. cbn. lia.
    + exists (l :: r). rewrite Ht. constructor; [done| |done].
      specialize (Hterm []). rewrite app_nil_r in Hterm. apply Hterm. intros _ [_ ?]. done.
  - apply find_end_none in E. destruct t as [|b t]; [exists []; constructor|]. exists [b :: t]. by constructor.
Qed.

(** One call of the main loop. *)
Definition loop_ok sep (n : nat) (t : list N) (rows : list (list N)) (p rest : list N) : Prop :=
  (exists pre, t = pre ++ rest) /\ free sep p /\ (length rows <= n)%nat /\
  (rest <> [] -> length rows = n /\ p = []) /\ (p <> [] -> rest = [] /\ length rows < n)%nat /\
  (t <> [] -> 0 < n -> length rest < length t)%nat /\
  forall tail r, ok_cut sep t tail -> lines sep (p ++ rest ++ tail) r -> lines sep (t ++ tail) (rows ++ r).

Lemma ok_cut_suffix sep pre rest tail : ok_cut sep (pre ++ rest) tail -> ok_cut sep rest tail.
Proof.
  intros H Hs [Hl Hh]. apply H; [done|]. split; [|done]. rewrite last_app. by rewrite Hl.
Qed.
Lemma decode_loop_ok sep n t rows p rest : decode_loop sep n t = (rows, p, rest) -> loop_ok sep n t rows p rest.
Proof.
  revert t rows p rest. induction n as [|n IH]; intros t rows p rest H; cbn [decode_loop] in H.
  - injection H as <- <- <-. unfold loop_ok. split_and!; [by exists []|done|done|done|done|lia|].
    intros tail r _ Hr. exact Hr.
  - destruct (find_end sep t) as [[l after]|] eqn:E.
    + destruct (find_end_some sep t l after E) as (term & Ht & Hne & Hf & Hterm).
      destruct (decode_loop sep n after) as [[rows' p'] rest'] eqn:El. injection H as <- <- <-.
      destruct (IH after rows' p' rest' El) as ([pre Hpre] & Hp & Hlen & Hrest & Hpart & Hdec & Hlines).
      unfold loop_ok. split_and!.
      * exists (l ++ term ++ pre). rewrite Ht, Hpre. by rewrite <- !app_assoc.
      * done.
      * cbn. lia.
      * intros Hr. apply Hrest in Hr as [? ?]. cbn. split; [lia|done].
      * intros Hr. apply Hpart in Hr as [? ?]. cbn. split; [done|lia].
      * intros _ _. rewrite Ht, Hpre, !app_length. destruct term; [done|]. cbn. lia.
      * intros tail r Hcut Hr. cbn [app]. rewrite Ht, <- !app_assoc. constructor; [done| |].
        -- by apply Hterm.
        -- apply Hlines; [|done]. rewrite Ht, app_assoc in Hcut. by apply ok_cut_suffix in Hcut.
    + injection H as <- <- <-. apply find_end_none in E. unfold loop_ok. split_and!.
      * exists t. by rewrite app_nil_r.
      * done.
      * cbn; lia.
      * done.
      * cbn. intros _. split; [done|lia].
      * intros Hne _. destruct t; [done|cbn; lia].
      * intros tail r _ Hr. exact Hr.
Qed.

(** One call of decode. *)
Definition inv sep (n : nat) (d : decoder) : Prop := (length (d_rows d) < n)%nat /\ free sep (d_partial d).
Definition step_lines sep (n : nat) (d : decoder) (t : list N) (d' : decoder) (rest : list N) : Prop :=
  exists rows, d_rows d' = d_rows d ++ rows /\ (exists pre, t = pre ++ rest) /\ free sep (d_partial d') /\
    (length (d_rows d') <= n)%nat /\ (length (d_rows d') = n -> d_partial d' = []) /\
    (t <> [] -> (length rest < length t)%nat) /\ (length (d_rows d') < n -> rest = [])%nat /\
    forall tail r, ok_cut sep t tail -> lines sep (d_partial d' ++ rest ++ tail) r ->
      lines sep (d_partial d ++ t ++ tail) (rows ++ r).

Lemma decode_ok sep n d t d' rest : inv sep n d -> decode sep false n d t = (d', rest) -> step_lines sep n d t d' rest.
Proof.
  intros [Hlen Hfree] H. unfold decode, record_decode in H.
  destruct (n - length (d_rows d))%nat as [|todo] eqn:En; [lia|].
  destruct (d_partial d) as [|x p] eqn:Ep; [|destruct t as [|y t]].
  - destruct (decode_loop sep (S todo) t) as [[rows' p'] rest'] eqn:El. injection H as <- <-.
    destruct (decode_loop_ok sep (S todo) t rows' p' rest' El) as (Hpre & Hp & Hl & Hrest & Hpart & Hdec & Hlines).
    exists rows'. cbn [d_rows d_partial]. rewrite app_length. split_and!; [done|done|done|lia| | | |].
    + intros He. destruct p' as [|z p']; [done|]. destruct Hpart as [_ ?]; [done|]. cbn in *. lia.
    + intros Hne. apply Hdec; [done|lia].
    + intros Hlt. destruct rest' as [|z rest']; [done|]. destruct Hrest as [? _]; [done|]. lia.
    + rewrite Ep. exact Hlines.
  - destruct (decode_loop sep (S todo) []) as [[rows' p'] rest'] eqn:El.
    cbn in El. injection El as <- <- <-. injection H as <- <-. exists []. cbn [d_rows d_partial].
    rewrite !app_nil_r. split_and!; [done|by exists []|done|lia|lia|done|done|]. rewrite Ep. done.
  - destruct (find_end sep (y :: t)) as [[line after]|] eqn:E.
    + destruct (find_end_some sep (y :: t) line after E) as (term & Ht & Hne & Hf & Hterm).
      destruct (decode_loop sep todo after) as [[rows' p'] rest'] eqn:El. injection H as <- <-.
      destruct (decode_loop_ok sep todo after rows' p' rest' El) as ([pre Hpre] & Hp & Hl & Hrest & Hpart & Hdec & Hlines).
      exists ([(x :: p) ++ line] ++ rows'). cbn [d_rows d_partial]. rewrite !app_length. cbn [length].
      split_and!; [done| |done|lia| | | |].
      * exists (line ++ term ++ pre). rewrite Ht, Hpre. by rewrite <- !app_assoc.
      * intros He. destruct p' as [|z p']; [done|]. destruct Hpart as [_ ?]; [done|]. lia.
      * intros _. change (S (length t)) with (length (y :: t)). rewrite Ht, Hpre, !app_length. destruct term; [done|]. cbn. lia.
      * intros Hlt. destruct rest' as [|z rest']; [done|]. destruct Hrest as [? _]; [done|]. lia.
      * intros tail r Hcut Hr. rewrite Ep, Ht. rewrite <- !app_assoc. rewrite (app_assoc (x :: p)).
        cbn [app]. apply (lines_cons sep (x :: p ++ line) term (after ++ tail)).
        -- change (x :: p ++ line) with ((x :: p) ++ line). by apply Forall_app.
        -- by apply Hterm.
        -- apply Hlines; [|done]. rewrite Ht, app_assoc in Hcut. by apply ok_cut_suffix in Hcut.
    + injection H as <- <-. apply find_end_none in E. exists []. cbn [d_rows d_partial].
      rewrite app_nil_r. split_and!; [done| | |lia|lia| |done|].
      * exists (y :: t). by rewrite app_nil_r.
      * change (free sep ((x :: p) ++ y :: t)). by apply Forall_app.
      * intros _. cbn. lia.
      * intros tail r _ Hr. rewrite Ep. cbn [app] in Hr |- *. rewrite <- app_assoc in Hr. exact Hr.
Qed.

(** The reader without the check for UTF-8. *)
Definition pflush (d : decoder) : option (list (list N)) :=
  match d_rows d, d_partial d with
  | [], [] => None
  | rows, partial => Some (rows ++ match partial with [] => [] | _ => [partial] end)
  end.
Definition good (batch : list (list N)) : bool := from_utf8_ok (concat batch).
Lemma flush_eq d : flush d = match pflush d with None => Some None | Some b => if good b then Some (Some b) else None end.
Proof. unfold flush, pflush, good. by destruct (d_rows d), (d_partial d). Qed.

Fixpoint pchunk (sep : option N) (w : bool) (n fuel : nat) (d : decoder) (chunk : list N) : list (list (list N)) * decoder :=
  match fuel, chunk with
  | S fuel, _ :: _ =>
      let '(d, rest) := decode sep w n d chunk in
      if (length rest =? length chunk)%nat || (capacity n d =? 0)%nat then
        let r := pchunk sep w n fuel decoder_new rest in (option_list (pflush d) ++ r.1, r.2)
      else pchunk sep w n fuel d rest
  | _, _ => ([], d)
  end.
Fixpoint pchunks (sep : option N) (w : bool) (n : nat) (d : decoder) (chunks : list (list N)) : list (list (list N)) :=
  match chunks with
  | [] => option_list (pflush (decode sep w n d []).1)
  | chunk :: chunks =>
      let r := pchunk sep w n (length chunk) d chunk in r.1 ++ pchunks sep w n r.2 chunks
  end.
Lemma read_chunk_eq sep w n fuel d chunk :
  read_chunk sep w n fuel d chunk =
    let r := pchunk sep w n fuel d chunk in if forallb good r.1 then Some r else None.
Proof.
  revert d chunk. induction fuel as [|fuel IH]; intros d chunk; cbn [read_chunk pchunk]; [done|].
  destruct chunk as [|b chunk]; [done|]. destruct (decode sep w n d (b :: chunk)) as [d' rest].
  destruct (_ || _); [|by apply IH]. rewrite flush_eq, IH. cbn zeta.
  destruct (pchunk sep w n fuel decoder_new rest) as [bs d'']. cbn [fst snd].
  destruct (pflush d') as [b'|]; cbn [option_list option_rect app forallb].
  - destruct (good b'); cbn [andb]; [|done]. by destruct (forallb good bs).
  - by destruct (forallb good bs).
Qed.
Lemma read_chunks_eq sep w n d chunks :
  read_chunks sep w n d chunks =
    let r := pchunks sep w n d chunks in if forallb good r then Some r else None.
Proof.
  revert d. induction chunks as [|chunk chunks IH]; intros d; cbn [read_chunks pchunks].
  - destruct (decode sep w n d []) as [d' rest]. rewrite flush_eq. cbn [fst].
    destruct (pflush d') as [b|]; [|done]. cbn [option_list option_rect forallb]. by destruct (good b).
  - rewrite read_chunk_eq. cbn zeta. destruct (pchunk sep w n (length chunk) d chunk) as [bs d'] eqn:E. cbn [fst snd].
    rewrite forallb_app. destruct (forallb good bs); cbn [andb]; [|done]. rewrite IH. cbn zeta.
    destruct (forallb good (pchunks sep w n d' chunks)); done.
Qed.

(** Chunks. *)
Lemma pchunk_ok sep n fuel d t tail bs d' :
  (0 < n)%nat -> inv sep n d -> (length t <= fuel)%nat -> ok_cut sep t tail ->
  pchunk sep false n fuel d t = (bs, d') ->
  inv sep n d' /\ Forall (fun b => length b = n) bs /\
  forall r, lines sep (d_partial d' ++ tail) r ->
    exists r0, lines sep (d_partial d ++ t ++ tail) r0 /\ d_rows d ++ r0 = concat bs ++ d_rows d' ++ r.
Proof.
  intros Hn. revert d t bs d'. induction fuel as [|fuel IH]; intros d t bs d' Hinv Hfuel Hcut H.
  - destruct t; [|cbn in Hfuel; lia]. cbn in H. injection H as <- <-. split_and!; [done|constructor|].
    intros r Hr. by exists r.
  - destruct t as [|b t].
    { cbn in H. injection H as <- <-. split_and!; [done|constructor|]. intros r Hr. by exists r. }
    cbn [pchunk] in H. destruct (decode sep false n d (b :: t)) as [d1 rest] eqn:Ed.
    destruct (decode_ok sep n d (b :: t) d1 rest Hinv Ed)
      as (rows & Hrows & [pre Hpre] & Hfree & Hle & Hfull & Hdec & Hrest & Hlines).
    specialize (Hdec ltac:(done)).
    assert ((length rest =? length (b :: t))%nat = false) as Hneq by (apply Nat.eqb_neq; lia).
    rewrite Hneq in H. cbn [orb] in H. unfold capacity in H.
    assert (ok_cut sep rest tail) as Hcut'.
    { rewrite Hpre in Hcut. by apply ok_cut_suffix in Hcut. }
    destruct (n - length (d_rows d1) =? 0)%nat eqn:Ec.
    + assert (length (d_rows d1) = n) as Hlen by (apply Nat.eqb_eq in Ec; lia).
      specialize (Hfull Hlen).
      destruct (pchunk sep false n fuel decoder_new rest) as [bs' d2] eqn:E2. cbn [fst snd] in H. injection H as <- <-.
      destruct (IH decoder_new rest bs' d2) as (Hinv2 & Hbs2 & Hl2); [split; [cbn; lia|constructor]|cbn in *; lia|done|done|].
      assert (pflush d1 = Some (d_rows d1)) as Hfl.
      { unfold pflush. rewrite Hfull. destruct (d_rows d1); [cbn in Hlen; lia|]. by rewrite app_nil_r. }
      rewrite Hfl. cbn [option_list option_rect]. split; [done|]. split; [by constructor|].
      intros r Hr. destruct (Hl2 r Hr) as (r0 & Hr0 & He). cbn [d_partial d_rows decoder_new app] in Hr0, He.
      exists (rows ++ r0). split.
      * apply Hlines; [done|]. by rewrite Hfull.
      * rewrite He. cbn [app concat]. rewrite app_assoc, <- Hrows, app_assoc. done.
    + apply Nat.eqb_neq in Ec. specialize (Hrest ltac:(lia)) as ->.
      assert (pchunk sep false n fuel d1 [] = ([], d1)) as E2 by (by destruct fuel).
      rewrite E2 in H. injection H as <- <-.
      split; [split; [lia|done]|]. split; [constructor|]. intros r Hr. exists (rows ++ r). split; [by apply Hlines|].
      by rewrite app_assoc, <- Hrows.
Qed.

Lemma decode_nil sep n d : inv sep n d -> decode sep false n d [] = (d, []).
Proof.
  intros [Hlen _]. unfold decode, record_decode. destruct (n - _)%nat as [|todo] eqn:En; [lia|].
  cbn [decode_loop find_end]. destruct d as [rows [|x p]]; cbn; by rewrite ?app_nil_r.
Qed.
Lemma pflush_ok sep n d r : inv sep n d -> lines sep (d_partial d) r ->
  concat (option_list (pflush d)) = d_rows d ++ r /\
  Forall (fun b => 0 < length b <= n)%nat (option_list (pflush d)).
Proof.
  intros [Hlen Hfree] Hr.
  assert (r = match d_partial d with [] => [] | p => [p] end) as ->.
  { eapply lines_fun; [done|]. destruct (d_partial d); [constructor|]. by constructor. }
  unfold pflush. destruct (d_rows d) as [|x rows] eqn:Er, (d_partial d) as [|y p]; cbn [option_list option_rect concat app];
    rewrite ?app_nil_r; (split; [done|]); constructor; try done; cbn [length app]; rewrite ?app_length; cbn in *; lia.
Qed.

Lemma well_cut_head sep chunk chunks : well_cut sep (chunk :: chunks) -> ok_cut sep chunk (concat chunks).
Proof.
  intros H ->. cbn in H. specialize (H [chunk] chunks eq_refl). cbn [concat] in H. by rewrite app_nil_r in H.
Qed.
Lemma well_cut_tail sep chunk chunks : well_cut sep (chunk :: chunks) -> well_cut sep chunks.
Proof.
  destruct sep as [sep|]; [done|]. intros H before after ->.
  intros [Hl Hh]. apply (H (chunk :: before) after); [done|]. split; [|done]. cbn [concat]. rewrite last_app. by rewrite Hl.
Qed.

Lemma well_batched_app {A} n (bs cs : list (list A)) :
  (0 < n)%nat -> Forall (fun b => length b = n) bs -> well_batched n cs -> well_batched n (bs ++ cs).
Proof.
  intros Hn Hbs [Hc1 Hc2]. split.
  - apply Forall_app. split; [|done]. eapply Forall_impl; [exact Hbs|]. cbn. intros b Hb. lia.
  - intros before b after He Hne. destruct (decide (length before < length bs)%nat) as [Hlt|Hge].
    + rewrite Forall_forall in Hbs. apply Hbs. apply elem_of_list_lookup. exists (length before).
      rewrite <- (lookup_app_l bs cs) by done. rewrite He. by rewrite list_lookup_middle.
    + apply (Hc2 (drop (length bs) before) b after); [|done].
      assert (drop (length bs) (bs ++ cs) = drop (length bs) (before ++ b :: after)) as Hd by (by rewrite He).
      rewrite drop_app in Hd. rewrite Hd. rewrite drop_app_le by lia. done.
Qed.
Lemma well_batched_short {A} n (b : option (list A)) :
  Forall (fun b => 0 < length b <= n)%nat (option_list b) -> well_batched n (option_list b).
Proof.
  intros H. split; [done|]. intros before b' after He Hne. destruct b as [b|]; cbn in He.
  - destruct before as [|? [|]]; cbn in He; [injection He as -> <-; done|done|done].
  - by destruct before.
Qed.

Lemma pchunks_ok sep n d chunks : (0 < n)%nat -> inv sep n d -> well_cut sep chunks ->
  well_batched n (pchunks sep false n d chunks) /\
  exists r0, lines sep (d_partial d ++ concat chunks) r0 /\ concat (pchunks sep false n d chunks) = d_rows d ++ r0.
Proof.
  intros Hn. revert d. induction chunks as [|chunk chunks IH]; intros d Hinv Hcut; cbn [pchunks].
  - rewrite (decode_nil sep n) by done. cbn [fst]. cbn [concat]. rewrite app_nil_r.
    destruct (lines_total sep (d_partial d)) as [r Hr]. destruct (pflush_ok sep n d r Hinv Hr) as [H1 H2].
    split; [by apply well_batched_short|]. by exists r.
  - destruct (pchunk sep false n (length chunk) d chunk) as [bs d'] eqn:E. cbn [fst snd concat].
    destruct (pchunk_ok sep n (length chunk) d chunk (concat chunks) bs d') as (Hinv' & Hbs & Hl);
      [done|done|done|by apply well_cut_head|done|].
    destruct (IH d' Hinv') as [Hwb (r1 & Hr1 & He1)]; [by eapply well_cut_tail|].
    destruct (Hl r1 Hr1) as (r0 & Hr0 & He0). split.
    + by apply well_batched_app.
    + exists r0. split; [done|]. rewrite concat_app, He1. by rewrite He0.
Qed.

Lemma batches_good bs : Forall (fun l => utf8 l) (concat bs) -> forallb good bs = true.
Proof.
  induction bs as [|b bs IH]; intros H; [done|]. cbn [concat] in H. apply Forall_app in H as [Hb Hbs].
  cbn [forallb]. rewrite IH by done. rewrite andb_true_r. unfold good. apply from_utf8_spec. by apply utf8_concat.
Qed.

Lemma read_text_ok sep n chunks rows : (0 < n)%nat -> well_cut sep chunks -> lines sep (concat chunks) rows ->
  exists batches, concat batches = rows /\ well_batched n batches /\
    (Forall utf8 rows -> read_text sep false n chunks = Some batches) /\
    (forall r, read_text sep false n chunks = Some r -> r = batches).
Proof.
  intros Hn Hcut Hrows. unfold read_text. rewrite read_chunks_eq. cbn zeta.
  destruct (pchunks_ok sep n decoder_new chunks Hn) as [Hwb (r0 & Hr0 & He)]; [split; [cbn; lia|constructor]|done|].
  cbn [d_partial d_rows decoder_new app] in Hr0, He.
  assert (r0 = rows) as -> by (by eapply lines_fun).
  exists (pchunks sep false n decoder_new chunks). split_and!; [done|done| |].
  - intros Hu. rewrite batches_good; [done|]. by rewrite He.
  - intros r Hr. destruct (forallb good _); [|done]. by injection Hr.
Qed.

(** Whole text. *)
Definition whole (t : list N) : decoder := Decoder (match t with [] => [] | _ => [t] end) [].
Lemma whole_decode sep n t s : (2 <= n)%nat -> decode sep true n (whole t) s = (whole (t ++ s), []).
Proof.
  intros Hn. unfold decode, record_decode. destruct (n - _)%nat as [|todo] eqn:En.
  { destruct t; cbn in En; lia. }
  destruct t as [|x t]; cbn; [|done]. by destruct s.
Qed.
Lemma whole_chunk sep n fuel t s : (2 <= n)%nat -> (length s <= fuel)%nat ->
  pchunk sep true n fuel (whole t) s = ([], whole (t ++ s)).
Proof.
  intros Hn. destruct fuel as [|fuel]; intros Hf.
  { destruct s; [|cbn in Hf; lia]. by rewrite app_nil_r. }
  destruct s as [|b s]; [by rewrite app_nil_r|]. cbn [pchunk]. rewrite whole_decode by done.
  replace ((_ =? _)%nat || (_ =? 0)%nat) with false.
  - by destruct fuel.
  - symmetry. apply orb_false_iff. split; [done|]. apply Nat.eqb_neq. unfold capacity, whole. cbn [d_rows].
    destruct (t ++ b :: s); cbn; lia.
Qed.
Lemma whole_chunks sep n t chunks : (2 <= n)%nat ->
  pchunks sep true n (whole t) chunks = match t ++ concat chunks with [] => [] | f => [[f]] end.
Proof.
  intros Hn. revert t. induction chunks as [|c chunks IH]; intros t; cbn [pchunks concat].
  - rewrite whole_decode by done. rewrite !app_nil_r. cbn [fst]. destruct t; done.
  - rewrite whole_chunk by done. cbn [fst snd app]. rewrite IH. by rewrite <- app_assoc.
Qed.
