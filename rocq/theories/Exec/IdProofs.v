(** Proofs about identifier generation. *)
From stdpp Require Import prelude list.
From Coq Require Import NArith Lia.
From Verif.Exec Require Import IdModel.
Open Scope N_scope.

Lemma requests_lookup k : forall next i,
  next <= u64_max -> (i < k)%nat ->
  requests next k !! i =
  Some (if next + N.of_nat i <? u64_max then Some (next + N.of_nat i) else None).
Proof.
  induction k as [|k IH]; intros next i Hn Hi; [lia|].
  cbn [requests]. unfold generate, next_id.
  destruct (N.ltb_spec next u64_max) as [Hlt|Hge].
  - destruct i as [|i].
    + cbn [lookup list_lookup]. replace (next + N.of_nat 0) with next by lia.
      destruct (N.ltb_spec next u64_max); [done|lia].
    + cbn [lookup list_lookup]. change (list_lookup i) with (lookup (M:=list (option N)) i).
      rewrite IH by lia. replace (next + 1 + N.of_nat i) with (next + N.of_nat (S i)) by lia. done.
  - destruct i as [|i].
    + cbn [lookup list_lookup]. destruct (N.ltb_spec (next + N.of_nat 0) u64_max); [lia|done].
    + cbn [lookup list_lookup]. change (list_lookup i) with (lookup (M:=list (option N)) i).
      rewrite IH by lia.
      destruct (N.ltb_spec (next + N.of_nat i) u64_max); [lia|].
      destruct (N.ltb_spec (next + N.of_nat (S i)) u64_max); [lia|done].
Qed.

Lemma first_requests k i :
  (i < k)%nat ->
  requests first_id k !! i =
  Some (if N.of_nat i + 1 <? 2 ^ 64 - 1 then Some (N.of_nat i + 1) else None).
Proof.
  intros Hi. rewrite requests_lookup; [|vm_compute; discriminate|done].
  unfold first_id. rewrite (N.add_comm 1). done.
Qed.

Lemma ids_increasing k i j a b :
  requests first_id k !! i = Some (Some a) -> requests first_id k !! j = Some (Some b) ->
  (i < j)%nat -> 0 < a /\ a < b /\ b < 2 ^ 64.
Proof.
  intros Hi Hj Hij.
  assert (Hlen : forall n k, length (requests n k) = k).
  { clear. intros n k. revert n. induction k as [|k IH]; intros n; [done|].
    cbn. destruct (generate n). cbn. by rewrite IH. }
  pose proof (lookup_lt_Some _ _ _ Hj) as Hjl. rewrite Hlen in Hjl.
  rewrite first_requests in Hi by lia. rewrite first_requests in Hj by lia.
  destruct (N.ltb_spec (N.of_nat i + 1) (2 ^ 64 - 1)); [|done].
  destruct (N.ltb_spec (N.of_nat j + 1) (2 ^ 64 - 1)); [|done].
  injection Hi as <-. injection Hj as <-. lia.
Qed.
