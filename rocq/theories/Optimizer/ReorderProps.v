(** C69: reordering joins keeps the result. *)
From Coq Require Import NArith ZArith ZifyN Ascii String Lia.
From stdpp Require Import prelude list gmap.
From Verif.Lib Require Import Text.
From Verif.Optimizer Require Import ReorderModel ReorderSpec ReorderProofs ReorderRebuildProofs.

(** Whatever join tree is chosen, whatever the limit on the number of relations and whatever the
    order of the hash map: the plan after the rule returns the same rows, as often, in the same
    columns.  Missing: plans that are not [plain], that is, with a null-safe join that also filters
    by "column = column"; for these it is false, see [C69_null_safe_equality_refuted]. *)
Theorem C69_same_rows_partial (o : options) (choose : graph -> option tree) (p : plan) :
  (forall l, order o l ≡ₚ l) -> wf p -> plain p ->
  same_rows (optimize o choose p) p.
Proof. intros Ho Hw Hp. by destruct (optimize_ok o choose p Ho Hw Hp) as (_ & _ & H). Qed.
Print Assumptions C69_same_rows_partial.

(** The rewritten plan is again one the rule may be given, so it may run any number of times. *)
Theorem C69_repeatable_partial (o o' : options) (choose choose' : graph -> option tree) (p : plan) :
  (forall l, order o l ≡ₚ l) -> (forall l, order o' l ≡ₚ l) -> wf p -> plain p ->
  same_rows (optimize o' choose' (optimize o choose p)) p.
Proof.
  intros Ho Ho' Hw Hp. destruct (optimize_ok o choose p Ho Hw Hp) as (Hw1 & Hp1 & V1 & W1).
  destruct (optimize_ok o' choose' _ Ho' Hw1 Hp1) as (_ & _ & V2 & W2).
  split; [by etrans|congruence].
Qed.
Print Assumptions C69_repeatable_partial.

(** Rebuilding never fails: if all joins of the region treat NULL keys alike, a tree that passes
    the check before rebuilding is the one that is run.  Missing: regions that mix "=" and "<=>"
    joins, which are left as they are when two of them meet in one join of the tree. *)
Theorem C69_always_rebuilt_partial (o : options) (choose : graph -> option tree) (p : plan)
    (target : colmap) (g : graph) (t : tree) (ns : bool) :
  (forall l, order o l ≡ₚ l) -> wf p -> plain p -> one_null_mode ns p ->
  visit o p {| g_rels := []; g_edges := [] |} = Some (target, g) ->
  2 < length (g_rels g) -> choose g = Some t -> validate g t = true ->
  is_Some (try_region o choose p).
Proof. exact (try_region_total o choose p target g t ns). Qed.
Print Assumptions C69_always_rebuilt_partial.

(** Names given to columns while reordering identify the relation and the column. *)
Theorem C69_names (c : stable) : parse_stable (stable_name c) = Some c.
Proof. exact (parse_stable_name c). Qed.
Print Assumptions C69_names.

(** ** A concrete case *)
Definition int (z : Z) : cell := Some (VInt z).
Definition col (i : nat) : expr := ECol [] i.
Definition ex_opts : options := {| max_relations := 12; order := fun l => l |}.
(** a.x < b.y *)
Definition less (l : list cell) : cell :=
  match l with [Some (VInt a); Some (VInt b)] => Some (VBool (a <? b)%Z) | _ => None end.
Definition ex_a := POther false 2 [[int 1; int 10]; [int 2; int 20]; [None; int 30]].
Definition ex_b := POther false 2 [[int 1; int 15]; [int 2; int 5]; [int 2; int 25]; [None; int 99]].
Definition ex_c := POther false 1 [[int 25]; [int 15]; [int 15]].
Definition ex_join :=
  PHash (PHash ex_a ex_b [(col 0, col 0)] false
           (Some {| jf_expr := EApp less [col 0; col 1]; jf_cols := [(SLeft, 1); (SRight, 1)] |})
           (Some [3; 1]))
        ex_c [(col 0, col 0)] false None None.
(** c is joined with b first *)
Definition ex_tree : tree :=
  TJoin {[0; 1; 2]} [0] (TLeaf {[0]} 0) (TJoin {[1; 2]} [1] (TLeaf {[2]} 2) (TLeaf {[1]} 1)).

Example C69_example :
  (forall l, order ex_opts l ≡ₚ l) /\ wf ex_join /\ plain ex_join /\ one_null_mode false ex_join /\
  (exists target g, visit ex_opts ex_join {| g_rels := []; g_edges := [] |} = Some (target, g) /\
     length (g_rels g) = 3 /\ length (g_edges g) = 2 /\ validate g ex_tree = true) /\
  eval ex_join =
    [[int 15; int 10; int 15]; [int 15; int 10; int 15]; [int 25; int 20; int 25]] /\
  optimize ex_opts (fun _ => Some ex_tree) ex_join =
    PProj [2; 0; 1]
      (PHash ex_a
         (PHash ex_c ex_b [(col 0, col 1)] false None None)
         [(col 0, col 1)] false
         (Some {| jf_expr := EApp less [ECol (stable_name (0, 1)) 0; ECol (stable_name (1, 1)) 1];
                  jf_cols := [(SLeft, 1); (SRight, 2)] |})
         (Some [1; 2; 4])).
Proof.
  split; [done|]. split; [|split; [|split; [|split; [|split]]]].
  - repeat split; repeat (constructor; cbn); lia.
  - repeat split; done.
  - repeat split; done.
  - eexists _, _. split; [reflexivity|]. split; [done|]. split; [done|]. by vm_compute.
  - by vm_compute.
  - by vm_compute.
Qed.

(** ** Null-safe keys and a filter on the same columns *)

(** A join by "a.k <=> b.k" that also filters by "a.k = b.k" loses the filter when the region is
    rebuilt, and then returns rows whose keys are NULL. *)
Theorem C69_null_safe_equality_refuted :
  exists (o : options) (choose : graph -> option tree) (p : plan),
    (forall l, order o l ≡ₚ l) /\ wf p /\
    eval p = [] /\ eval (optimize o choose p) = [[None; None; None]].
Proof.
  exists ex_opts,
    (fun _ => Some (TJoin {[0; 1; 2]} [1] (TJoin {[0; 1]} [0] (TLeaf {[0]} 0) (TLeaf {[1]} 1)) (TLeaf {[2]} 2))),
    (PHash (PHash (POther false 1 [[None]]) (POther false 1 [[None]]) [(col 0, col 0)] true
              (Some {| jf_expr := EEq (col 0) (col 1); jf_cols := [(SLeft, 0); (SRight, 0)] |}) None)
           (POther false 1 [[None]]) [(col 0, col 0)] true None None).
  split; [done|]. split; [repeat split; repeat (constructor; cbn); lia|].
  split; by vm_compute.
Qed.
Print Assumptions C69_null_safe_equality_refuted.
