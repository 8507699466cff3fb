From Coq Require Import NArith ZArith ZifyN Lia String.
From stdpp Require Import prelude list strings.
From Verif.Lib Require Import Text ListFacts.
From Verif.Delta Require Import LogNameModel LogNameSpec.
Local Open Scope Z_scope.

Lemma i64_bound v : is_version v -> (Z.to_N v < 10 ^ N.of_nat 20)%N.
Proof.
  intros [H1 H2]. unfold i64_max in H2.
  change (10 ^ N.of_nat 20)%N with 100000000000000000000%N.
  change (2 ^ 63 - 1) with 9223372036854775807 in H2. lia.
Qed.
Lemma pad20_nonneg v : 0 <= v -> pad20 v = digits 20 (Z.to_N v).
Proof. intros H. unfold pad20. by destruct (Z.ltb_spec v 0); [lia|]. Qed.
Lemma pad20_length v : length (pad20 v) = 20%nat.
Proof.
  unfold pad20. destruct (v <? 0).
  - change (S (length (digits 19 (Z.to_N (- v)))) = 20%nat). by rewrite digits_length.
  - by rewrite digits_length.
Qed.
Lemma parse_digits20_pad v : is_version v -> parse_digits20 (pad20 v) = Some v.
Proof.
  intros Hv. unfold parse_digits20. rewrite decide_True by apply pad20_length.
  pose proof Hv as [H1 H2]. rewrite pad20_nonneg by done.
  assert (forallb is_digit (digits 20 (Z.to_N v)) = true) as ->.
  { apply forallb_forall. intros x Hx. apply elem_of_list_In in Hx.
    pose proof (digits_are_digits 20 (Z.to_N v)) as Hf. by rewrite Forall_forall in Hf; apply Hf. }
  rewrite dec_value_digits by (by apply i64_bound). rewrite Z2N.id by done.
  by destruct (Z.leb_spec v i64_max); [|lia].
Qed.
Lemma parse_prefix_pad v s : is_version v -> parse_prefix (pad20 v ++ s) = Some v.
Proof.
  intros Hv. unfold parse_prefix. rewrite take_app_alt by (by rewrite pad20_length).
  by apply parse_digits20_pad.
Qed.
Lemma parse_digits20_inv s v : parse_digits20 s = Some v -> is_version v /\ s = pad20 v.
Proof.
  unfold parse_digits20. destruct (decide _) as [Hl|]; [|done].
  destruct (forallb is_digit s) eqn:Ef; [|done].
  destruct (Z.leb_spec (Z.of_N (dec_value s)) i64_max) as [Hle|]; [|done].
  intros [= <-]. split; [split; lia|]. rewrite pad20_nonneg by lia. rewrite N2Z.id.
  rewrite <- Hl. symmetry. apply digits_value. apply Forall_forall. intros x Hx.
  rewrite forallb_forall in Ef. apply Ef. by apply elem_of_list_In.
Qed.
Lemma parse_prefix_inv f v :
  parse_prefix f = Some v -> is_version v /\ f = pad20 v ++ drop 20 f.
Proof.
  unfold parse_prefix. intros [Hv Hs]%parse_digits20_inv. split; [done|].
  rewrite <- Hs. by rewrite take_drop.
Qed.

(** Names of one kind. *)
Lemma parse_commit_name v : is_version v -> parse_commit (commit_name v) = Some v.
Proof.
  intros Hv. unfold parse_commit, commit_name.
  rewrite bool_decide_false by (rewrite app_length, pad20_length; intros H; by apply H).
  rewrite ends_with_app. cbn [negb orb]. by apply parse_prefix_pad.
Qed.
Lemma parse_checksum_name v : is_version v -> parse_checksum (checksum_name v) = Some v.
Proof.
  intros Hv. unfold parse_checksum, checksum_name.
  rewrite bool_decide_false by (rewrite app_length, pad20_length; intros H; by apply H).
  rewrite ends_with_app. cbn [negb orb]. by apply parse_prefix_pad.
Qed.

Lemma contains_app_l p s sub : contains s sub = true -> contains (p ++ s) sub = true.
Proof.
  intros H. induction p as [|x p IH]; [done|]. cbn [app contains]. by rewrite IH, orb_true_r.
Qed.
Lemma starts_with_app s r : starts_with (s ++ r) s = true.
Proof. unfold starts_with. rewrite take_app. by apply bool_decide_true. Qed.
Lemma contains_here s r : contains (s ++ r) s = true.
Proof.
  destruct (s ++ r) eqn:E; cbn [contains].
  - destruct s; [done|done].
  - rewrite <- E, starts_with_app. done.
Qed.
Lemma contains_skip p s c sub :
  c ∉ p -> contains (p ++ s) (c :: sub) = contains s (c :: sub).
Proof.
  intros Hc. induction p as [|x p IH]; [done|]. cbn [app contains].
  rewrite IH by set_solver.
  assert (starts_with (x :: p ++ s) (c :: sub) = false) as ->; [|done].
  unfold starts_with. apply bool_decide_false. cbn. intros [= -> _]. set_solver.
Qed.
Lemma digits_no_char k n c : is_digit c = false -> c ∉ digits k n.
Proof.
  intros Hc Hin. pose proof (digits_are_digits k n) as Hf. rewrite Forall_forall in Hf.
  apply Hf in Hin. congruence.
Qed.
Lemma pad20_no_dot v : is_version v -> 46%N ∉ pad20 v.
Proof. intros [Hv _]. rewrite pad20_nonneg by done. by apply digits_no_char. Qed.
Lemma pad20_no_slash v : is_version v -> 47%N ∉ pad20 v.
Proof. intros [Hv _]. rewrite pad20_nonneg by done. by apply digits_no_char. Qed.

Lemma parse_checkpoint_app v s :
  is_version v -> contains s (str ".checkpoint") = true ->
  ends_with (pad20 v ++ s) (str ".parquet") || ends_with (pad20 v ++ s) (str ".json") = true ->
  parse_checkpoint (pad20 v ++ s) = Some v.
Proof.
  intros Hv Hc He. unfold parse_checkpoint.
  rewrite contains_app_l by done. rewrite He. cbn [negb orb]. by apply parse_prefix_pad.
Qed.
Lemma parse_checkpoint_name v : is_version v -> parse_checkpoint (checkpoint_name v) = Some v.
Proof.
  intros Hv. apply parse_checkpoint_app; [done|done|].
  change (str ".checkpoint.parquet") with (str ".checkpoint" ++ str ".parquet").
  rewrite app_assoc, ends_with_app. done.
Qed.
Lemma parse_uuid_checkpoint_name v u :
  is_version v -> parse_checkpoint (uuid_checkpoint_name v u) = Some v.
Proof.
  intros Hv. apply parse_checkpoint_app; [done| |].
  - change (str ".checkpoint.") with (str ".checkpoint" ++ str "."). rewrite <- app_assoc. apply contains_here.
  - rewrite !app_assoc, ends_with_app. done.
Qed.
Lemma parse_uuid_json_checkpoint_name v u :
  is_version v -> parse_checkpoint (uuid_json_checkpoint_name v u) = Some v.
Proof.
  intros Hv. apply parse_checkpoint_app; [done| |].
  - change (str ".checkpoint.") with (str ".checkpoint" ++ str "."). rewrite <- app_assoc. apply contains_here.
  - rewrite !app_assoc. rewrite (ends_with_app _ (str ".json")). apply orb_true_r.
Qed.
Lemma parse_compacted_name s e :
  is_version s -> is_version e -> s < e -> parse_compacted (compacted_name s e) = Some (s, e).
Proof.
  intros Hs He Hlt. unfold parse_compacted, compacted_name.
  rewrite bool_decide_false by (rewrite !app_length, !pad20_length; intros H; by apply H).
  assert (ends_with (pad20 s ++ str "." ++ pad20 e ++ str ".compacted.json") (str ".compacted.json") = true) as ->
    by (rewrite !app_assoc; apply ends_with_app).
  cbn [negb orb]. rewrite parse_prefix_pad by done. cbn [mbind option_bind].
  rewrite decide_True.
  2:{ rewrite lookup_app_r by (rewrite pad20_length; lia). rewrite pad20_length. done. }
  assert (drop 21 (pad20 s ++ str "." ++ pad20 e ++ str ".compacted.json") = pad20 e ++ str ".compacted.json") as ->.
  { change (str ".") with [46%N]. rewrite (app_assoc (pad20 s)).
    apply drop_app_alt. rewrite app_length, pad20_length. done. }
  rewrite take_app_alt by (by rewrite pad20_length).
  rewrite parse_digits20_pad by done. cbn [mbind option_bind].
  by destruct (Z.leb_spec e s); [lia|].
Qed.

(** Names are recognised only if they are exactly as written. *)
Lemma drop_suffix (f suf : text) k :
  length f = (k + length suf)%nat -> ends_with f suf = true -> drop k f = suf.
Proof.
  intros Hl (p & ->)%ends_with_inv. rewrite app_length in Hl. apply drop_app_alt. lia.
Qed.
Lemma parse_commit_inv f v : parse_commit f = Some v -> is_version v /\ f = commit_name v.
Proof.
  unfold parse_commit. destruct (bool_decide (length f <> 25%nat)) eqn:El; [done|].
  apply bool_decide_eq_false, dec_stable in El.
  destruct (ends_with f (str ".json")) eqn:Ee; [|done]. cbn.
  intros [Hv Hf]%parse_prefix_inv. split; [done|].
  rewrite (drop_suffix f (str ".json") 20) in Hf by done. done.
Qed.
Lemma parse_checksum_inv f v : parse_checksum f = Some v -> is_version v /\ f = checksum_name v.
Proof.
  unfold parse_checksum. destruct (bool_decide (length f <> 24%nat)) eqn:El; [done|].
  apply bool_decide_eq_false, dec_stable in El.
  destruct (ends_with f (str ".crc")) eqn:Ee; [|done]. cbn.
  intros [Hv Hf]%parse_prefix_inv. split; [done|].
  rewrite (drop_suffix f (str ".crc") 20) in Hf by done. done.
Qed.
Lemma parse_compacted_inv f s e :
  parse_compacted f = Some (s, e) -> is_version s /\ is_version e /\ s < e /\ f = compacted_name s e.
Proof.
  unfold parse_compacted. destruct (bool_decide (length f <> 56%nat)) eqn:El; [done|].
  apply bool_decide_eq_false, dec_stable in El.
  destruct (ends_with f (str ".compacted.json")) eqn:Ee; [|done]. cbn [negb orb].
  destruct (parse_prefix f) as [s'|] eqn:Ep; [|done]. cbn [mbind option_bind].
  apply parse_prefix_inv in Ep as [Hs Hf].
  destruct (decide _) as [Hdot|]; [|done].
  destruct (parse_digits20 _) as [e'|] eqn:E2; [|done]. cbn [mbind option_bind].
  apply parse_digits20_inv in E2 as [He Hf2].
  destruct (Z.leb_spec e' s'); [done|]. intros [= -> ->].
  split_and!; [done..|]. rewrite Hf. unfold compacted_name. f_equal.
  rewrite (drop_S f 46%N 20) by done. change (str "." ++ ?x) with (46%N :: x). f_equal.
  rewrite <- (take_drop 20 (drop 21 f)). rewrite <- Hf2. f_equal.
  rewrite drop_drop. by apply drop_suffix.
Qed.

(** ** Order *)
Lemma pad20_ltb v w : 0 <= v -> 0 <= w -> v <= i64_max -> w <= i64_max ->
  tlt (pad20 v) (pad20 w) = (v <? w).
Proof.
  intros. rewrite !pad20_nonneg by done.
  rewrite tlt_digits by (apply i64_bound; by split).
  destruct (N.ltb_spec (Z.to_N v) (Z.to_N w)), (Z.ltb_spec v w); try done; lia.
Qed.
Lemma pad20_inj v w : is_version v -> is_version w -> pad20 v = pad20 w -> v = w.
Proof. intros Hv Hw He. apply (f_equal parse_digits20) in He. rewrite !parse_digits20_pad in He by done. congruence. Qed.
Lemma offset_order o v suf :
  -1 <= o <= i64_max -> is_version v -> suf <> [] ->
  tlt (prefix_name o) (pad20 v ++ suf) = (o <=? v).
Proof.
  intros Ho Hv Hs. unfold prefix_name.
  rewrite <- (app_nil_r (pad20 o)). rewrite tlt_app_same_length by (by rewrite !pad20_length).
  assert (tlt [] suf = true) as -> by (by destruct suf). rewrite andb_true_r.
  pose proof Hv as [Hv1 Hv2].
  destruct (decide (0 <= o)) as [Hpos|Hneg].
  - rewrite pad20_ltb by lia.
    destruct (decide (pad20 o = pad20 v)) as [He|He].
    + rewrite bool_decide_true, orb_true_r by done. apply pad20_inj in He; [|split; lia|done].
      symmetry. apply Z.leb_le. lia.
    + rewrite bool_decide_false, orb_false_r by done.
      assert (o <> v) by congruence.
      destruct (Z.ltb_spec o v), (Z.leb_spec o v); try done; lia.
  - replace o with (-1) by lia. assert (tlt (pad20 (-1)) (pad20 v) = true) as ->.
    { rewrite (pad20_nonneg v) by done.
      pose proof (digits_are_digits 20 (Z.to_N v)) as Hf. pose proof (digits_length 20 (Z.to_N v)) as Hl.
      destruct (digits 20 (Z.to_N v)) as [|c l]; [done|]. apply Forall_inv in Hf.
      unfold is_digit in Hf. apply andb_true_iff in Hf as [Hc%N.leb_le _].
      unfold pad20. change (-1 <? 0) with true. cbn [tlt].
      destruct (N.ltb_spec 45 c); [done|lia]. }
    cbn. symmetry. apply Z.leb_le. lia.
Qed.
Lemma name_order v w suf suf' :
  is_version v -> is_version w -> v < w -> tlt (pad20 v ++ suf) (pad20 w ++ suf') = true.
Proof.
  intros [??] [??] Hlt. rewrite tlt_app_same_length by (by rewrite !pad20_length).
  rewrite pad20_ltb by done. by destruct (Z.ltb_spec v w); [|lia].
Qed.

(** ** All kinds together *)
Lemma name_shape f : exists suf, suf <> [] /\ name_of f = pad20 (first_version f) ++ suf.
Proof. destruct f; eexists; (split; [|reflexivity]); done. Qed.

Lemma good_first f : good_file f -> is_version (first_version f).
Proof. destruct f; cbn; tauto. Qed.

Lemma parse_name f :
  good_file f ->
  parse_commit (name_of f) = (match f with Commit v => Some v | _ => None end) /\
  parse_checksum (name_of f) = (match f with Checksum v => Some v | _ => None end) /\
  parse_checkpoint (name_of f) =
    (match f with Checkpoint v | UuidCheckpoint v _ | UuidJsonCheckpoint v _ => Some v | _ => None end) /\
  parse_compacted (name_of f) = (match f with Compacted s e => Some (s, e) | _ => None end) /\
  parse_entry (name_of f) = entry_version f.
Proof.
  intros Hf.
  assert (forall n s, length s <> n -> forall x, (if bool_decide (length s <> n) || x then None else parse_prefix s) = @None Z) as Hlen.
  { intros n s Hn x. by rewrite bool_decide_true by done. }
  assert (parse_commit (name_of f) = (match f with Commit v => Some v | _ => None end)) as H1.
  { destruct f; cbn in Hf; [by apply parse_commit_name|..]; apply Hlen; cbn [name_of];
      unfold checksum_name, checkpoint_name, uuid_checkpoint_name, uuid_json_checkpoint_name, compacted_name;
      rewrite ?app_length, ?pad20_length; try (destruct Hf as [_ [-> _]]); done. }
  assert (parse_checksum (name_of f) = (match f with Checksum v => Some v | _ => None end)) as H2.
  { destruct f; cbn in Hf; [|by apply parse_checksum_name|..]; apply Hlen; cbn [name_of];
      unfold commit_name, checkpoint_name, uuid_checkpoint_name, uuid_json_checkpoint_name, compacted_name;
      rewrite ?app_length, ?pad20_length; try (destruct Hf as [_ [-> _]]); done. }
  assert (parse_checkpoint (name_of f) =
    (match f with Checkpoint v | UuidCheckpoint v _ | UuidJsonCheckpoint v _ => Some v | _ => None end)) as H3.
  { destruct f as [v|v|v|v u|v u|s e]; cbn [name_of]; cbn in Hf.
    - unfold parse_checkpoint, commit_name.
      change (str ".checkpoint") with (46%N :: str "checkpoint").
      rewrite contains_skip by (by apply pad20_no_dot). done.
    - unfold parse_checkpoint, checksum_name.
      change (str ".checkpoint") with (46%N :: str "checkpoint").
      rewrite contains_skip by (by apply pad20_no_dot). done.
    - by apply parse_checkpoint_name.
    - destruct Hf as [Hv _]. by apply parse_uuid_checkpoint_name.
    - destruct Hf as [Hv _]. by apply parse_uuid_json_checkpoint_name.
    - destruct Hf as (Hs & He & Hlt). unfold parse_checkpoint, compacted_name.
      change (str ".checkpoint") with (46%N :: str "checkpoint").
      rewrite contains_skip by (by apply pad20_no_dot).
      assert (contains (str "." ++ pad20 e ++ str ".compacted.json") (46%N :: str "checkpoint") = false) as ->; [|done].
      change (str "." ++ ?x) with ([46%N] ++ x). cbn [app contains].
      rewrite contains_skip by (by apply pad20_no_dot).
      assert (starts_with (46%N :: pad20 e ++ str ".compacted.json") (46%N :: str "checkpoint") = false) as ->; [|done].
      unfold starts_with. apply bool_decide_false. intros Heq.
      change (take (length (46%N :: str "checkpoint")) (46%N :: pad20 e ++ str ".compacted.json"))
        with (46%N :: take 10 (pad20 e ++ str ".compacted.json")) in Heq.
      injection Heq as Heq.
      rewrite take_app_le in Heq by (rewrite pad20_length; lia).
      assert (99%N ∈ pad20 e) as Hin.
      { apply (elem_of_list_lookup_2 _ 0). rewrite <- (lookup_take _ 10) by lia. by rewrite Heq. }
      destruct He as [He _]. rewrite pad20_nonneg in Hin by done.
      apply (digits_no_char 20 (Z.to_N e) 99%N); done. }
  assert (parse_compacted (name_of f) = (match f with Compacted s e => Some (s, e) | _ => None end)) as H4.
  { assert (length (name_of f) <> 56%nat -> parse_compacted (name_of f) = None) as Hn.
    { intros Hl. unfold parse_compacted. by rewrite bool_decide_true by done. }
    destruct f; cbn in Hf; [..|destruct Hf as (?&?&?); by apply parse_compacted_name]; apply Hn; cbn [name_of];
      unfold commit_name, checksum_name, checkpoint_name, uuid_checkpoint_name, uuid_json_checkpoint_name;
      rewrite ?app_length, ?pad20_length; try (destruct Hf as [_ [-> _]]); done. }
  split_and!; [done..|]. unfold parse_entry. rewrite H1, H3, H4. by destruct f.
Qed.

Lemma parse_entry_prefix f v :
  parse_entry f = Some v ->
  exists p suf, is_version p /\ is_version v /\ suf <> [] /\ f = pad20 p ++ suf /\
    (p = v \/ exists s, f = compacted_name s v /\ is_version s).
Proof.
  unfold parse_entry. destruct (parse_commit f) as [v'|] eqn:E1.
  { intros [= ->]. apply parse_commit_inv in E1 as [Hv ->].
    exists v, (str ".json"). split_and!; try done. by left. }
  destruct (parse_checkpoint f) as [v'|] eqn:E2.
  { intros [= ->]. unfold parse_checkpoint in E2.
    destruct (negb (contains f (str ".checkpoint")) || _) eqn:Ec; [done|].
    apply orb_false_iff in Ec as [Ec _]. apply negb_false_iff in Ec.
    apply parse_prefix_inv in E2 as [Hv Hf].
    exists v, (drop 20 f). split_and!; try done; [|by left].
    intros Hd. rewrite Hd, app_nil_r in Hf. rewrite Hf in Ec.
    change (str ".checkpoint") with (46%N :: str "checkpoint") in Ec.
    rewrite <- (app_nil_r (pad20 v)), contains_skip in Ec by (by apply pad20_no_dot). done. }
  destruct (parse_compacted f) as [[s e]|] eqn:E3; [|done].
  cbn. intros [= ->]. apply parse_compacted_inv in E3 as (Hs & He & Hlt & ->).
  unfold compacted_name. eexists s, _. split_and!; [done|done| |reflexivity|].
  - done.
  - right. by exists s.
Qed.

(** ** Listing *)
Lemma list_from_spec o files f v suf :
  -1 <= o <= i64_max -> is_version v -> suf <> [] -> f = pad20 v ++ suf ->
  f ∈ list_from o files <-> f ∈ files /\ 47%N ∉ f /\ o <= v.
Proof.
  intros Ho Hv Hs ->. unfold list_from. rewrite elem_of_list_filter, andb_true_iff.
  rewrite offset_order by done. rewrite Z.leb_le. unfold top_level.
  rewrite andb_true_iff, !negb_true_iff, !bool_decide_eq_false.
  assert (pad20 v ++ suf <> []) by (intros H; apply app_eq_nil in H as [_ H]; done).
  tauto.
Qed.

Lemma name_no_slash f : good_file f -> 47%N ∉ name_of f.
Proof.
  intros Hf. pose proof (pad20_no_slash _ (good_first f Hf)) as Hp.
  destruct f; cbn in *; unfold commit_name, checksum_name, checkpoint_name, uuid_checkpoint_name,
    uuid_json_checkpoint_name, compacted_name; rewrite ?elem_of_app; intros Hin.
  1-3: destruct Hin as [?|Hin]; [done|]; apply elem_of_list_In in Hin; vm_compute in Hin; intuition discriminate.
  1-2: destruct Hf as [_ [_ Hu]]; destruct Hin as [?|[Hin|[?|Hin]]]; try done;
    apply elem_of_list_In in Hin; vm_compute in Hin; intuition discriminate.
  destruct Hf as (_ & He & _). pose proof (pad20_no_slash e He).
  destruct Hin as [?|[Hin|[?|Hin]]]; try done;
    apply elem_of_list_In in Hin; vm_compute in Hin; intuition discriminate.
Qed.

Lemma listing_complete o files f :
  -1 <= o <= i64_max -> good_file f ->
  name_of f ∈ list_from o files <-> name_of f ∈ files /\ o <= first_version f.
Proof.
  intros Ho Hf. destruct (name_shape f) as (suf & Hs & He).
  rewrite (list_from_spec o files _ (first_version f) suf) by (try done; by apply good_first).
  pose proof (name_no_slash f Hf). tauto.
Qed.

Lemma max_version_app vs v :
  max_version (vs ++ [v]) = Some (match max_version vs with Some c => Z.max c v | None => v end).
Proof. unfold max_version. by rewrite foldl_app. Qed.
Lemma max_version_largest vs m : max_version vs = Some m <-> largest m vs.
Proof.
  revert m. induction vs as [|v vs IH] using rev_ind; intros m.
  - split; [done|]. intros [H _]. set_solver.
  - rewrite max_version_app. unfold largest. destruct (max_version vs) as [c|] eqn:Ec.
    + destruct (proj1 (IH c) eq_refl) as [Hc Hmax]. split.
      * intros [= <-]. split.
        -- destruct (Z.max_spec c v) as [[_ ->]|[_ ->]]; set_solver.
        -- intros x [Hx|Hx]%elem_of_app; [apply Hmax in Hx; lia|].
           apply elem_of_list_singleton in Hx. lia.
      * intros [Hm Hall]. f_equal.
        assert (c <= m) by (apply Hall; set_solver). assert (v <= m) by (apply Hall; set_solver).
        apply elem_of_app in Hm as [Hm|Hm]; [apply Hmax in Hm; lia|]. apply elem_of_list_singleton in Hm. lia.
    + assert (vs = []) as ->.
      { destruct vs as [|x vs _] using rev_ind; [done|]. by rewrite max_version_app in Ec. }
      cbn. split.
      * intros [= <-]. split; [set_solver|]. intros x Hx%elem_of_list_singleton. lia.
      * intros [Hm%elem_of_list_singleton _]. congruence.
Qed.


Lemma entry_versions_elem files v :
  v ∈ entry_versions files <-> exists f, f ∈ files /\ 47%N ∉ f /\ parse_entry f = Some v.
Proof.
  unfold entry_versions. rewrite elem_of_list_omap. split.
  - intros (f & Hf & Hp). apply elem_of_list_filter in Hf as [Ht Hf].
    unfold top_level in Ht. apply andb_true_iff in Ht as [_ Ht]. apply negb_true_iff, bool_decide_eq_false in Ht. eauto.
  - intros (f & Hf & Hs & Hp). exists f. split; [|done]. apply elem_of_list_filter. split; [|done].
    unfold top_level. apply andb_true_iff. split; apply negb_true_iff, bool_decide_eq_false; [|done].
    intros ->. done.
Qed.

Lemma latest_correct hint files m :
  (* a compacted file is only written for commits that exist *)
  (forall s e, is_version s -> compacted_name s e ∈ files -> commit_name e ∈ files) ->
  (* the recorded checkpoint is not ahead of the log *)
  (forall h, hint = Some h -> 0 <= h <= i64_max /\ h - 1 <= m) ->
  largest m (entry_versions files) ->
  latest_version hint files = Some m.
Proof.
  intros Hcomp Hhint [Hm Hmax]. unfold latest_version. apply max_version_largest.
  set (o := match hint with Some v => v - 1 | None => 0 end).
  assert (-1 <= o <= i64_max /\ (o <= m \/ o = 0)) as [Ho Hom].
  { subst o. destruct hint as [h|]; [|by split; [|right]]. destruct (Hhint h eq_refl). lia. }
  apply entry_versions_elem in Hm as (f & Hf & Hsl & Hp).
  pose proof (parse_entry_prefix f m Hp) as (p & suf & Hpv & Hmv & Hne & Hfs & Hcase).
  assert (o <= m) by (destruct Hmv; lia).
  split.
  - apply elem_of_list_omap. destruct Hcase as [->|(s & -> & Hs)].
    + exists f. split; [|done]. by eapply (list_from_spec o files f m suf).
    + exists (commit_name m). apply (Hcomp s) in Hf; [|done]. split.
      * apply (listing_complete o files (Commit m)); done.
      * destruct (parse_name (Commit m) Hmv) as (_ & _ & _ & _ & Hpe). exact Hpe.
  - intros v Hv. apply elem_of_list_omap in Hv as (f' & Hf' & Hp').
    apply Hmax, entry_versions_elem. exists f'.
    pose proof (parse_entry_prefix f' v Hp') as (p' & suf' & ? & ? & ? & Hfs' & _).
    apply (list_from_spec o files f' p' suf') in Hf' as (? & ? & ?); done.
Qed.
