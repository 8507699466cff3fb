(** C15: identifiers. *)
From stdpp Require Import prelude list.
From Coq Require Import NArith.
From Verif.Exec Require Import IdModel IdProofs.
Open Scope N_scope.

(** The i-th request (from 0) returns i+1 until the largest u64 is reached, and an
    error from then on. *)
Theorem C15_ith_request k i :
  (i < k)%nat ->
  requests first_id k !! i =
  Some (if N.of_nat i + 1 <? 2 ^ 64 - 1 then Some (N.of_nat i + 1) else None).
Proof. exact (first_requests k i). Qed.
Print Assumptions C15_ith_request.

(** Identifiers are positive, strictly increasing (so never reused) and fit in 64 bits. *)
Theorem C15_ids_increasing k i j a b :
  requests first_id k !! i = Some (Some a) -> requests first_id k !! j = Some (Some b) ->
  (i < j)%nat -> 0 < a /\ a < b /\ b < 2 ^ 64.
Proof. exact (ids_increasing k i j a b). Qed.
Print Assumptions C15_ids_increasing.

Example C15_example :
  requests first_id 3 = [Some 1; Some 2; Some 3] /\
  requests (2 ^ 64 - 2) 3 = [Some (2 ^ 64 - 2); None; None].
Proof. split; reflexivity. Qed.
