(** C40: the catalog cache never shows a state older than the session's own last change. *)
From Coq Require Import NArith ZifyN Ascii String Lia.
From stdpp Require Import prelude gmap list strings.
From Verif.Lib Require Import Text.
From Verif.Catalog Require Import MemoryModel MemorySpec MemoryProps CacheModel CacheSpec CacheProofs.

Definition all_caches : flags := mkFlags true true true.

(** In front of every catalog whose operations change only the listings they
    are meant to, with any of the caches on or off, after any requests one
    after another and any expiry of entries: a listing through the cache is the
    catalog's own, if only this session changes the catalog.
    Left out: listings that overlap changes ([C40_overlap_refuted]) and changes
    that fail half way ([C40_half_way_refuted]). *)
Theorem C40_coherent_partial {S} (istep : S -> op -> S * out) allowed f s es l :
  well_behaved istep allowed ->
  Forall sequential es -> Forall own es -> Forall (allows allowed) es -> is_listing l ->
  exists r, (event_step istep f (after istep f s es) (Own l)).2 = Some r /\
    same_answer r (istep (st_inner (after istep f s es)) l).2.
Proof. intros wb. exact (coherent istep allowed f wb s es l). Qed.
Print Assumptions C40_coherent_partial.

(** The in-memory catalog is such a catalog. *)
Theorem C40_memory : well_behaved step (fun o => ¬ may_stop_half_way o).
Proof. exact memory_well_behaved. Qed.
Print Assumptions C40_memory.

Local Ltac events := rewrite !Forall_cons, Forall_nil; cbn; tauto.
Definition full : list event :=
  [Own (ListTables db); Own (CreateTable db (str "u") (plain Create [])); Own (ListTables db);
   Own (ListDatabases None); Own (CreateDatabase (str "new", []) (mkCreateDb None None false []));
   Evict (KTables db); Own (ListViews db); Own (DropView db (str "t") false)].
Example C40_coherent_example :
  Forall sequential full /\ Forall own full /\ Forall (allows (fun o => ¬ may_stop_half_way o)) full /\
  (exists a b, (event_step step all_caches (after step all_caches sample_state full) (Own (ListTables db))).2 = Some (Tables [a; b])) /\
  (event_step step all_caches (after step all_caches sample_state full) (Own (ListViews db))).2 = Some (Views []).
Proof.
  unfold full. split_and!; [events|events|events| |].
  - eexists _, _. by vm_compute.
  - by vm_compute.
Qed.

(** With others changing the catalog at the same time: a listing is the
    catalog's answer at some moment since the session's own last change of that
    answer.  Left out: what [C40_coherent_partial] leaves out, and changes by
    creating the database whose content is listed ([C40_recreated_refuted]). *)
Theorem C40_own_changes_partial {S} (istep : S -> op -> S * out) allowed f s es l :
  well_behaved istep allowed ->
  Forall sequential es -> Forall (allows allowed) es -> is_listing l ->
  exists r, (event_step istep f (after istep f s es) (Own l)).2 = Some r /\
    no_older_than_own_change istep f s es l r.
Proof. intros wb. exact (bounded istep allowed f wb s es l). Qed.
Print Assumptions C40_own_changes_partial.
(** Someone else's table is not listed from the cache, the session's own is. *)
Example C40_own_changes_example :
  let es := [Own (ListTables db); Other (CreateTable db (str "u") (plain Create []))] in
  let es' := es ++ [Own (DropTable db (str "t") false)] in
  (exists a, (event_step step all_caches (after step all_caches sample_state es) (Own (ListTables db))).2 = Some (Tables [a]) /\
     tbl_name a = str "t") /\
  (exists a, (event_step step all_caches (after step all_caches sample_state es') (Own (ListTables db))).2 = Some (Tables [a]) /\
     tbl_name a = str "u").
Proof. cbn zeta. split; eexists; by vm_compute. Qed.

(** The listing [l] through the cache is not what the catalog says. *)
Definition stale (s : catalog) (es : list event) (l : op) : Prop :=
  exists r, (event_step step all_caches (after step all_caches s es) (Own l)).2 = Some r /\
    ¬ same_answer r (step (st_inner (after step all_caches s es)) l).2.

Lemma different_tables (a b : list table) :
  length a <> length b \/ (exists x y, a = [x] /\ b = [y] /\ x <> y) -> ¬ same_answer (Tables a) (Tables b).
Proof.
  cbn. intros [H|(x & y & -> & -> & H)] Hp; [by apply Permutation_length in Hp|].
  by apply Permutation_length_1 in Hp.
Qed.

(** A change that fails half way is not seen by the cache. *)
Theorem C40_half_way_refuted :
  exists s es l, reachable s /\ Forall sequential es /\ Forall own es /\ is_listing l /\ stale s es l.
Proof.
  exists sample_state,
    [Own (ListTables db); Own (AlterTable db (str "t") (UnsetProperties [str "p"; str "q"] false))], (ListTables db).
  split; [exact sample_reachable|]. split_and!; [events|events|done|].
  eexists. split; [by vm_compute|].
  match goal with |- context [(step ?a ?b).2] => let v := eval vm_compute in (step a b).2 in replace (step a b).2 with v by (by vm_compute) end.
  apply different_tables. right. eexists _, _. split_and!; [done|done|]. done.
Qed.
Print Assumptions C40_half_way_refuted.

(** A listing that overlaps a change puts back what the change removed: with
    two queries of one session at a time, the session does not see its own
    table until the entry expires. *)
Theorem C40_overlap_refuted :
  exists s es l, reachable s /\ Forall own es /\ Forall (allows (fun o => ¬ may_stop_half_way o)) es /\
    is_listing l /\ stale s es l.
Proof.
  exists sample_state,
    [Start (ListTables db); Own (CreateTable db (str "u") (plain Create [])); Finish], (ListTables db).
  split; [exact sample_reachable|]. split_and!; [events|events|done|].
  eexists. split; [by vm_compute|].
  match goal with |- context [(step ?a ?b).2] => let v := eval vm_compute in (step a b).2 in replace (step a b).2 with v by (by vm_compute) end.
  apply different_tables. by left.
Qed.
Print Assumptions C40_overlap_refuted.

(** A database that someone else dropped and the session created again is
    listed with its old tables. *)
Theorem C40_recreated_refuted :
  exists s es l o, reachable s /\ Forall sequential es /\
    Forall (allows (fun o => ¬ may_stop_half_way o)) es /\ is_listing l /\
    last es = Some (Own o) /\
    (* the session's own last change made the listing possible, and the catalog lists nothing *)
    (step (st_inner (after step all_caches s (removelast es))) l).2 = Error (NoDatabase db) /\
    (step (st_inner (after step all_caches s es)) l).2 = Tables [] /\
    stale s es l.
Proof.
  exists sample_state,
    [Own (ListTables db); Other (DropDatabase db false true); Own (CreateDatabase db (mkCreateDb None None false []))],
    (ListTables db), (CreateDatabase db (mkCreateDb None None false [])).
  split; [exact sample_reachable|]. split_and!; [events|events|done|done|by vm_compute|by vm_compute|].
  eexists. split; [by vm_compute|].
  match goal with |- context [(step ?a ?b).2] => let v := eval vm_compute in (step a b).2 in replace (step a b).2 with v by (by vm_compute) end.
  apply different_tables. by left.
Qed.
Print Assumptions C40_recreated_refuted.
