(** The intervals that are shown with units, and what they are read back as. *)
From Coq Require Import NArith ZArith ZifyN ZifyBool Ascii String Lia.
From stdpp Require Import prelude list strings.
From Verif Require Import Lib.Text Functions.IntModel Sql.LexModel Sql.LexSpec Sql.LexProofs Literal.NumberModel
  Literal.NumberSpec Literal.NumberProofs Literal.IntervalModel Literal.IntervalSpec Literal.IntervalProofs
  Literal.IntervalLex Literal.IntervalDisplay Literal.IntervalMulti Literal.IntervalCalendar.
#[local] Open Scope Z_scope.

(** ** Sums of parts, some left out because they are zero *)
Fixpoint prefixes_fit (m0 : Z) (l : list (Z * Z)) : Prop :=
  match l with
  | [] => True
  | (m, _) :: l' => fits 32 m = true /\ fits 32 (m0 + m) = true /\ prefixes_fit (m0 + m) l'
  end.
Lemma items_run (items : list (value * unit)) (parts : list (Z * Z)) (m0 t0 : Z) :
  says_all items parts ->
  Forall2 (fun i (mt : Z * Z) => i.2 = USecond -> Z.abs mt.2 < 4294967296000000) items parts ->
  prefixes_fit m0 parts -> Z.abs t0 + sum (map Z.abs (map snd parts)) <= delta_max ->
  add_items (m0, t0) items = Some (m0 + sum (map fst parts), t0 + sum (map snd parts)).
Proof.
  intros H. revert m0 t0. induction H as [|i [m t] items parts Hi _ IH]; intros m0 t0 Hs Hm Ht; cbn [add_items].
  - cbn. do 2 f_equal; lia.
  - apply Forall2_cons_1 in Hs as [Hs1 Hs2]. cbn [map fst snd] in *. rewrite !sum_cons in *.
    destruct Hm as (Hm1 & Hm2 & Hm3). pose proof (sum_abs_nonneg (map snd parts)).
    rewrite (item_accepts m0 t0 m t); [|done|done|done|lia|done].
    cbn [mbind option_bind]. rewrite IH by (first [done|lia]). do 2 f_equal; lia.
Qed.
Definition kept (l : list (bool * part)) : list part := flat_map (fun zp : bool * part => if zp.1 then [] else [zp.2]) l.
Definition zero_amounts (l : list (bool * part)) : Prop := Forall (fun zp : bool * part => zp.1 = true -> amount zp.2 = (0, 0)) l.
Lemma kept_sum (f : Z * Z -> Z) (l : list (bool * part)) :
  f (0, 0) = 0 -> zero_amounts l -> sum (map f (map amount (kept l))) = sum (map f (map amount (map snd l))).
Proof.
  intros Hf. induction 1 as [|[z p] l Hz _ IH]; [done|]. cbn [kept flat_map map fst snd] in *. fold (kept l).
  destruct z; cbn [app map]; rewrite ?sum_cons, IH; [|done]. rewrite Hz, Hf by done. lia.
Qed.
Lemma kept_prefixes (l : list (bool * part)) (m0 : Z) :
  zero_amounts l -> prefixes_fit m0 (map amount (map snd l)) -> prefixes_fit m0 (map amount (kept l)).
Proof.
  intros H. revert m0. induction H as [|[z p] l Hz _ IH]; intros m0; [done|]. cbn [kept flat_map map fst snd] in *. fold (kept l).
  destruct z.
  - rewrite Hz by done. cbn [prefixes_fit app]. intros (_ & _ & Hp). rewrite Z.add_0_r in Hp. by apply IH.
  - cbn [app map]. destruct (amount p) as [m t]. cbn [prefixes_fit]. intros (H1 & H2 & Hp). split_and!; [done|done|]. by apply IH.
Qed.
Lemma kept_forall (P : part -> Prop) (l : list (bool * part)) : Forall P (map snd l) -> Forall P (kept l).
Proof.
  induction l as [|[z p] l IH]; [done|]. cbn [map kept flat_map fst snd]. intros [H1 H2]%Forall_cons_1. fold (kept l).
  destruct z; cbn [app]; [by apply IH|]. constructor; [done|]. by apply IH.
Qed.

(** What months and microseconds are as a calendar interval. *)
Definition settle (m t : Z) : option (Z * Z * Z) :=
  if bool_decide (m = 0) && negb (fits 64 t) then None
  else if fits 32 (Z.quot t 86400000000) then Some (m, Z.quot t 86400000000, Z.rem t 86400000000 * 1000) else None.
Lemma calendar_of_settle (t : Z) : fits 64 t = true -> calendar_of_micros t = settle 0 t.
Proof.
  intros Hf. unfold calendar_of_micros, settle. rewrite Hf. change US_DAY with 86400000000.
  rewrite andb_false_r. unfold checked. by destruct (fits 32 _).
Qed.
Definition as_calendar (v : option ivalue) : option (Z * Z * Z) :=
  match v with
  | Some (YearMonth n) => Some (n, 0, 0)
  | Some (Micro n) => calendar_of_micros n
  | Some (MonthDayNano m d n) => Some (m, d, n)
  | None => None
  end.
Lemma finish_settle (m t : Z) : as_calendar (finish false m t) = settle m t.
Proof.
  unfold finish. case_bool_decide as Hm.
  - subst m. destruct (fits 64 t) eqn:Hf.
    + rewrite checked_fits by done. cbn [mbind option_bind negate_if as_calendar]. by apply calendar_of_settle.
    + unfold checked. rewrite Hf. cbn [mbind option_bind as_calendar]. unfold settle. by rewrite Hf.
  - case_bool_decide as Ht.
    + subst t. cbn [negate_if mbind option_bind as_calendar]. unfold settle. rewrite (bool_decide_false (m = 0)) by done. done.
    + unfold settle. rewrite (bool_decide_false (m = 0)) by done. cbn [andb]. change US_DAY with 86400000000.
      pose proof (Z.quot_rem' t 86400000000) as Hqr.
      assert (Hrem : Z.abs (Z.rem t 86400000000) < 86400000000) by (rewrite <- Z.rem_abs by lia; apply Z.rem_bound_pos; lia).
      replace (t - Z.quot t 86400000000 * 86400000000) with (Z.rem t 86400000000) by lia.
      rewrite (checked_fits 64) by (apply fits_bounds; destruct i64_bounds; lia). cbn [mbind option_bind negate_if].
      unfold checked. destruct (fits 32 _); done.
Qed.

(** ** The parts that are shown *)
Definition int_part (n : Z) (word : text) (u : unit) : part := Part (n <? 0) (decimal (Z.to_N (Z.abs n))) None word u.
Lemma int_part_ok (n : Z) (word : text) (u : unit) : (word, u) ∈ part_words -> part_ok (int_part n word u).
Proof. intros H. split_and!; [apply number_decimal|done|done|done]. Qed.
Lemma int_part_int (n : Z) (word : text) (u : unit) : part_int (int_part n word u) = n.
Proof. unfold part_int. cbn [int_part p_neg p_digits]. rewrite decimal_z by lia. unfold opposite_if. destruct (Z.ltb_spec n 0); lia. Qed.
Lemma int_part_says (n : Z) (w : text) (u : unit) :
  (w, u) ∈ part_words -> Z.abs n <= 2147483648 -> (u = UYear \/ u = UMonth -> Z.abs n <= 2147483647) ->
  item_says (part_item (int_part n w u)) (amount (int_part n w u)).1 (amount (int_part n w u)).2.
Proof.
  intros Hw Hn Hum. destruct i32_bounds as [_ E2].
  apply amount_says; [by apply int_part_ok| |]; cbn [int_part p_digits p_unit]; rewrite decimal_z by lia; rewrite E2; [lia|done].
Qed.
Lemma show_part_kept (n : Z) (word : text) (u : unit) :
  show_part n word = map part_text (kept [(n =? 0, int_part n word u)]).
Proof.
  unfold show_part, kept. cbn [flat_map fst snd app]. destruct (n =? 0); [done|]. cbn [map app]. f_equal.
  unfold part_text, part_num. cbn [int_part p_neg p_digits p_frac p_word]. rewrite print_int_split, app_nil_r.
  by rewrite <- app_assoc.
Qed.
Lemma seconds_part (ns : Z) :
  exists p, part_ok p /\ p_unit p = USecond /\ amount p = (0, Z.quot (Z.rem ns 60000000000) 1000) /\
    Z.of_N (dec_value (p_digits p)) < 60 /\
    let seconds := Z.quot (Z.rem ns 60000000000) 1000000000 in
    let nanos := Z.rem ns 1000000000 in
    (if (seconds =? 0) && (nanos =? 0) then []
     else [(if (seconds =? 0) && (nanos <? 0) then str "-" else []) ++ print_int seconds ++
           show_fraction 9 (Z.abs nanos) ++ str " seconds"]) =
    map part_text (kept [((seconds =? 0) && (nanos =? 0), p)]) /\
    ((seconds =? 0) && (nanos =? 0) = true -> amount p = (0, 0)).
Proof.
  set (seconds := Z.quot (Z.rem ns 60000000000) 1000000000). set (nanos := Z.rem ns 1000000000).
  destruct (show_fraction_shows 9 (Z.abs nanos)) as (fraction & Hfrac & Hnum & Hmicros).
  { unfold nanos. rewrite rem_abs by lia. change (10 ^ Z.of_nat 9) with 1000000000. apply Z.mod_pos_bound. lia. }
  change (10 ^ Z.of_nat 9) with 1000000000 in Hmicros.
  set (neg := ((seconds =? 0) && (nanos <? 0)) || (seconds <? 0)).
  exists (Part neg (decimal (Z.to_N (Z.abs seconds))) fraction (str "seconds") USecond).
  assert (Hs : Z.abs seconds < 60).
  { unfold seconds. rewrite quot_abs, rem_abs by lia. apply Z.div_lt_upper_bound; [lia|]. apply Z.mod_pos_bound. lia. }
  assert (Ham : opposite_if neg (Z.abs seconds * 1000000 + Z.abs nanos * 1000000 / 1000000000) = Z.quot (Z.rem ns 60000000000) 1000).
  { assert (Hn2 : nanos = Z.rem (Z.rem ns 60000000000) 1000000000).
    { unfold nanos. clear. Z.to_euclidean_division_equations. lia. }
    unfold neg, opposite_if. rewrite Hn2. unfold seconds. clear. generalize (Z.rem ns 60000000000) as x. intros x.
    destruct (Z.ltb_spec x 0) as [Hx|Hx].
    - assert (Hneg : ((Z.quot x 1000000000 =? 0) && (Z.rem x 1000000000 <? 0) || (Z.quot x 1000000000 <? 0)) = true).
      { Z.to_euclidean_division_equations. lia. }
      rewrite Hneg. clear Hneg. rewrite quot_abs, rem_abs by lia.
      rewrite <- (Z.opp_involutive (Z.quot x 1000)), <- Z.quot_opp_l by lia. f_equal. rewrite Z.abs_neq by lia.
      Z.to_euclidean_division_equations. lia.
    - assert (Hneg : ((Z.quot x 1000000000 =? 0) && (Z.rem x 1000000000 <? 0) || (Z.quot x 1000000000 <? 0)) = false).
      { Z.to_euclidean_division_equations. lia. }
      rewrite Hneg. clear Hneg. rewrite quot_abs, rem_abs by lia. rewrite Z.abs_eq by lia.
      Z.to_euclidean_division_equations. lia. }
  assert (Ham2 : amount (Part neg (decimal (Z.to_N (Z.abs seconds))) fraction (str "seconds") USecond) =
    (0, Z.quot (Z.rem ns 60000000000) 1000)).
  { unfold amount. cbn [p_unit p_neg p_digits p_frac]. rewrite decimal_z by lia. by rewrite Hmicros, Ham. }
  split; [|split; [done|split; [done|split]]]; [| |cbv zeta; split].
  - split_and!; [apply number_decimal|done| |done]. unfold part_words. do 5 apply elem_of_list_further. constructor.
  - cbn [p_digits]. rewrite decimal_z by lia. done.
  - cbn [kept flat_map fst snd]. destruct ((seconds =? 0) && (nanos =? 0)); [done|]. cbn [app map]. f_equal.
    unfold part_text, part_num. cbn [p_neg p_digits p_frac p_word]. rewrite print_int_split.
    rewrite <- !app_assoc. unfold neg. rewrite Hfrac.
    destruct ((seconds =? 0) && (nanos <? 0)) eqn:E; [|done].
    apply andb_true_iff in E as [E%Z.eqb_eq _]. rewrite E. done.
  - intros [E1%Z.eqb_eq E2%Z.eqb_eq]%andb_true_iff. rewrite Ham2, <- Ham, E1, E2. unfold opposite_if. by destruct neg.
Qed.

Section calendar.
Context (alnum : N -> bool) (Ha : ascii_alnum alnum).

Lemma to_calendar_as (s : text) : to_calendar alnum s = as_calendar (parse_interval alnum s).
Proof. done. Qed.

Lemma parts_back (l : list part) :
  l <> [] -> Forall part_ok l ->
  Forall (fun p => item_says (part_item p) (amount p).1 (amount p).2) l ->
  Forall (fun p => p_unit p = USecond -> Z.abs (amount p).2 < 4294967296000000) l ->
  Forall (fun p => Z.abs (amount p).1 <= int_max 32 /\ (amount p).2 <> int_min 64 /\ (unit_kind (p_unit p) = Some Year \/ unit_kind (p_unit p) = Some Month -> (amount p).1 <> 0)) l ->
  prefixes_fit 0 (map amount l) -> sum (map Z.abs (map snd (map amount l))) <= delta_max ->
  to_calendar alnum (join_blank (map part_text l)) = settle (sum (map fst (map amount l))) (sum (map snd (map amount l))).
Proof.
  intros Hne Hok Hsays Hsec Hsingle Hpre Hsum. rewrite to_calendar_as. destruct l as [|p l]; [done|].
  rewrite parse_parts by done. destruct l as [|q l].
  - apply Forall_cons_1 in Hok as [Hp _]. apply Forall_cons_1 in Hsingle as [(Hm & Ht & Hnz) _].
    destruct (single_part p Hp Hm) as (k & Hk & Hv). rewrite Hk, Hv. cbn [map sum foldr]. rewrite !Z.add_0_r.
    destruct i64_bounds as [E3 E4].
    assert (Hym : if is_year_month k then (amount p).2 = 0 /\ (amount p).1 <> 0 else (amount p).1 = 0).
    { unfold amount in *. destruct (p_unit p); cbn [unit_kind] in Hk; (injection Hk as <- || done); cbn [is_year_month fst snd] in *;
        first [done|split; [done|]; apply Hnz; cbn [unit_kind]; first [by left|by right]]. }
    destruct (is_year_month k).
    + destruct Hym as [H1 H2]. rewrite H1. cbn [as_calendar]. unfold settle. rewrite (bool_decide_false ((amount p).1 = 0)) by done. done.
    + rewrite Hym. destruct (Z.leb_spec (Z.abs (amount p).2) (int_max 64)).
      * cbn [as_calendar]. apply calendar_of_settle, fits_bounds. lia.
      * cbn [as_calendar]. unfold settle. destruct (fits 64 (amount p).2) eqn:Hf; [|done]. apply fits_bounds in Hf. lia.
  - unfold parse_multi.
    rewrite (items_run (map part_item (p :: q :: l)) (map amount (p :: q :: l)) 0 0).
    + rewrite !Z.add_0_l. cbn [mbind option_bind]. apply finish_settle.
    + unfold says_all. apply Forall2_fmap. apply Forall_Forall2_diag. done.
    + apply Forall2_fmap. apply Forall_Forall2_diag. done.
    + done.
    + lia.
Qed.

Theorem calendar_back (m d ns : Z) :
  fits 32 m = true -> fits 32 d = true -> fits 64 ns = true ->
  to_calendar alnum (show_calendar m d ns) = settle m (d * 86400000000 + Z.quot ns 1000).
Proof.
  intros Fm%fits_bounds Fd%fits_bounds Fn%fits_bounds. destruct i32_bounds as [E1 E2], i64_bounds as [E3 E4].
  rewrite E1, E2 in *. rewrite E3, E4 in *.
  destruct (seconds_part ns) as (ps & Hps & Hsu & Hsa & Hsd & Hst & Hsz). cbv zeta in Hst, Hsz.
  set (hours := Z.quot ns 3600000000000). set (minutes := Z.quot (Z.rem ns 3600000000000) 60000000000).
  set (zs := (Z.quot (Z.rem ns 60000000000) 1000000000 =? 0) && (Z.rem ns 1000000000 =? 0)) in *.
  set (full := [(Z.quot m 12 =? 0, int_part (Z.quot m 12) (str "years") UYear);
                (Z.rem m 12 =? 0, int_part (Z.rem m 12) (str "months") UMonth);
                (d =? 0, int_part d (str "days") UDay);
                (hours =? 0, int_part hours (str "hours") UHour);
                (minutes =? 0, int_part minutes (str "minutes") UMinute); (zs, ps)]).
  assert (Htext : calendar_parts m d ns = map part_text (kept full)).
  { unfold calendar_parts. cbv zeta. fold zs. rewrite Hst.
    rewrite (show_part_kept (Z.quot m 12) (str "years") UYear), (show_part_kept (Z.rem m 12) (str "months") UMonth),
      (show_part_kept d (str "days") UDay). fold hours minutes.
    rewrite (show_part_kept hours (str "hours") UHour), (show_part_kept minutes (str "minutes") UMinute).
    rewrite <- !map_app. f_equal. unfold kept, full. cbn [flat_map fst snd]. by rewrite !app_nil_r, <- ?app_assoc. }
  assert (By : Z.abs (Z.quot m 12) <= 178956970) by (clear -Fm; Z.to_euclidean_division_equations; lia).
  assert (Bm : Z.abs (Z.rem m 12) <= 11) by (clear; Z.to_euclidean_division_equations; lia).
  assert (Bh : Z.abs hours <= 2562047) by (unfold hours; clear -Fn; Z.to_euclidean_division_equations; lia).
  assert (Bi : Z.abs minutes <= 59) by (unfold minutes; clear; Z.to_euclidean_division_equations; lia).
  assert (Bs : Z.abs (Z.quot (Z.rem ns 60000000000) 1000) <= 60000000) by (clear; Z.to_euclidean_division_equations; lia).
  assert (Hmm : Z.quot m 12 * 12 + Z.rem m 12 = m) by (clear; Z.to_euclidean_division_equations; lia).
  assert (Hsame : Z.abs (Z.quot m 12 * 12) + Z.abs (Z.rem m 12) = Z.abs m) by (clear; Z.to_euclidean_division_equations; lia).
  assert (Htt : hours * 3600000000 + minutes * 60000000 + Z.quot (Z.rem ns 60000000000) 1000 = Z.quot ns 1000).
  { unfold hours, minutes. clear. Z.to_euclidean_division_equations. lia. }
  set (y := Z.quot m 12) in *. set (mo := Z.rem m 12) in *. set (st := Z.quot (Z.rem ns 60000000000) 1000) in *.
  clearbody y mo st hours minutes zs. generalize dependent (Z.quot ns 1000). intros micros Htt.
  assert (Aint : forall n w u, amount (int_part n w u) =
    match u with UYear => (n * 12, 0) | UMonth => (n, 0) | UDay => (0, n * 86400000000) | UHour => (0, n * 3600000000)
      | UMinute => (0, n * 60000000) | _ => amount (int_part n w u) end).
  { intros n w u. unfold amount. cbn [int_part p_unit]. destruct u; try done; by rewrite int_part_int. }
  assert (Ham : map amount (map snd full) = [(y * 12, 0); (mo, 0); (0, d * 86400000000); (0, hours * 3600000000); (0, minutes * 60000000); (0, st)]).
  { unfold full. cbn [map snd]. by rewrite !Aint, Hsa. }
  assert (Hzero : zero_amounts full).
  { unfold zero_amounts, full. repeat apply List.Forall_cons; [..|apply List.Forall_nil]; cbn [fst snd]; rewrite ?Aint;
      try (intros E%Z.eqb_eq; rewrite E; done). exact Hsz. }
  assert (Hok : Forall part_ok (map snd full)).
  { unfold full. cbn [map snd]. repeat apply List.Forall_cons; [..|apply List.Forall_nil]; try done; apply int_part_ok; unfold part_words;
      rewrite !elem_of_cons; tauto. }
  assert (Hsays : Forall (fun p => item_says (part_item p) (amount p).1 (amount p).2) (map snd full)).
  { unfold full in *. cbn [map snd] in *.
    repeat apply List.Forall_cons; [..|apply List.Forall_nil]; try (apply int_part_says; [unfold part_words; rewrite !elem_of_cons; tauto|lia|first [intros _; lia|by intros [|]]]).
    apply amount_says; [done|rewrite E2; lia|]. rewrite Hsu. by intros [|]. }
  assert (Hsum1 : sum (map fst (map amount (kept full))) = m).
  { rewrite (kept_sum fst) by done. rewrite Ham. cbn [map fst sum foldr]. lia. }
  assert (Hsum2 : sum (map snd (map amount (kept full))) = d * 86400000000 + micros).
  { rewrite (kept_sum snd) by done. rewrite Ham. cbn [map snd sum foldr]. lia. }
  unfold show_calendar. rewrite Htext.
  destruct (map part_text (kept full)) as [|x xs] eqn:Ekept.
  { apply map_eq_nil in Ekept. rewrite Ekept in Hsum1, Hsum2. cbn in Hsum1, Hsum2. rewrite <- Hsum1, <- Hsum2.
    change (str "0 seconds") with (join_blank (map part_text [Part false (str "0") None (str "seconds") USecond])).
    rewrite to_calendar_as, (parse_parts alnum Ha); [by vm_compute|].
    constructor; [|constructor]. split; [|split; [done|split; [|done]]].
    - split; [|done]. by repeat constructor.
    - unfold part_words. rewrite !elem_of_cons. tauto. }
  rewrite <- Ekept, <- Hsum1, <- Hsum2. apply parts_back.
  - intros E. by rewrite E in Ekept.
  - by apply kept_forall.
  - by apply kept_forall.
  - apply kept_forall. unfold full. cbn [map snd]. repeat apply List.Forall_cons; [..|apply List.Forall_nil]; try done.
    intros _. rewrite Hsa. cbn [snd]. lia.
  - assert (Hnz : Forall (fun zp : bool * part => zp.1 = false -> Z.abs (amount zp.2).1 <= int_max 32 /\ (amount zp.2).2 <> int_min 64 /\
      (unit_kind (p_unit zp.2) = Some Year \/ unit_kind (p_unit zp.2) = Some Month -> (amount zp.2).1 <> 0)) full).
    { unfold full. rewrite E2, E3. repeat apply List.Forall_cons; [..|apply List.Forall_nil]; cbn [fst snd]; rewrite ?Aint, ?Hsa; cbn [fst snd];
        rewrite ?Hsu; cbn [int_part p_unit unit_kind].
      - intros E%Z.eqb_neq. split_and!; [lia|done|lia].
      - intros E%Z.eqb_neq. split_and!; [lia|done|lia].
      - intros _. split_and!; [lia|lia|by intros [|]].
      - intros _. split_and!; [lia|lia|by intros [|]].
      - intros _. split_and!; [lia|lia|by intros [|]].
      - intros _. split_and!; [lia|lia|by intros [|]]. }
    revert Hnz. generalize full. clear. induction 1 as [|[z p] l Hz _ IH]; [constructor|]. cbn [kept flat_map fst snd] in *. fold (kept l).
    destruct z; cbn [app]; [done|]. constructor; [by apply Hz|done].
  - apply kept_prefixes; [done|]. rewrite Ham. cbn [prefixes_fit]. rewrite !Z.add_0_r, !Z.add_0_l.
    assert (forall n, Z.abs n <= 2147483647 -> fits 32 n = true) as Hf by (intros n Hn; apply fits_bounds; lia).
    assert (Hfm : fits 32 m = true) by (apply fits_bounds; lia).
    rewrite Hmm. split_and!; first [done|apply Hf; lia].
  - rewrite map_map. rewrite (kept_sum (fun mt => Z.abs mt.2)) by done. rewrite Ham, delta_max_value. cbn [map snd sum foldr]. lia.
Qed.
End calendar.
