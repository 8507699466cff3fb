(** C12: row round-robin repartitioning; C49: rows crossing a shuffle. *)
From stdpp Require Import prelude list.
From Verif.Exec Require Import GraphModel ExchangeModel.
From Verif.Exec Require Import RoundRobinModel RoundRobinSpec RoundRobinProofs.

(** One call: each output partition is called at most once, with a non-empty batch,
    and gets the rows whose turn it is. *)
Theorem C12_one_batch {A} s (batch : list A) :
  rr_n s <> 0 ->
  calls_ok (rr_n s) (rr_partition s batch).2 /\
  forall p, p < rr_n s -> sent (rr_partition s batch).2 p = dealt (rr_next s) (rr_n s) batch p.
Proof. exact (rr_partition_ok s batch). Qed.
Print Assumptions C12_one_batch.

(** A whole input: partition [p] gets row number i exactly when
    (start + i) mod n = p, whatever the split into batches. *)
Theorem C12_rotation_continues_across_batches {A} n input inputs s (batches : list (list A)) p :
  rr_new n input inputs = Some s -> p < n ->
  exists st, shuffle_write rr_partition n s batches !! p = Some st /\
    concat st = dealt (input * n / inputs) n (concat batches) p.
Proof. exact (rr_shuffle_write n input inputs s batches p). Qed.
Print Assumptions C12_rotation_continues_across_batches.

(** Dealing loses and duplicates nothing, keeps the order and is balanced. *)
Theorem C12_dealing_conserves {A} n (rows : list A) start :
  n <> 0 -> flat_map (dealt start n rows) (seq 0 n) ≡ₚ rows.
Proof. exact (dealt_perm n rows start). Qed.
Print Assumptions C12_dealing_conserves.

Theorem C12_dealing_keeps_order {A} n (rows : list A) p start :
  dealt start n rows p `sublist_of` rows.
Proof. exact (dealt_sublist n rows p start). Qed.
Print Assumptions C12_dealing_keeps_order.

Theorem C12_dealing_is_balanced {A} n (rows : list A) start p p' :
  p < n -> p' < n ->
  length (dealt start n rows p) <= length (dealt start n rows p') + 1.
Proof. exact (dealt_balanced n rows start p p'). Qed.
Print Assumptions C12_dealing_is_balanced.

Example C12_example :
  exists s, rr_new 3 1 2 = Some s /\
  map (@concat nat) (shuffle_write rr_partition 3 s [[10; 11]; []; [12; 13; 14]]) =
  [[12]; [10; 13]; [11; 14]].
Proof. eexists. split; reflexivity. Qed.

(** C49: all rows of all producers reach the consumers exactly once through a
    round-robin shuffle ... *)
Theorem C49_round_robin_shuffle_conserves_rows {A} (data : nat -> list (list A)) att ip n
  (start : nat -> rr) (keys : nat -> list input_key) :
  (forall q, q < ip -> is_Some (att q)) ->
  (forall q, q < ip -> rr_new n q ip = Some (start q)) ->
  (forall p, p < n -> read_task Shuffle att ip n n p = Some (keys p)) ->
  flat_map (fun p => fetched_rows (fun q => shuffle_write rr_partition n (start q) (data q)) (keys p))
           (seq 0 n) ≡ₚ
  flat_map (fun q => concat (data q)) (seq 0 ip).
Proof. exact (shuffle_rr_conserves data att ip n start keys). Qed.
Print Assumptions C49_round_robin_shuffle_conserves_rows.

(** ... and through a hash shuffle consumer [p] gets exactly the rows that hash to [p]. *)
Theorem C49_hash_shuffle_places_rows {A} (h : A -> nat) (data : nat -> list (list A)) att ip n p keys :
  (forall q, q < ip -> is_Some (att q)) -> p < n ->
  read_task Shuffle att ip n n p = Some keys ->
  fetched_rows (fun q => shuffle_write (hash_partition h n) n tt (data q)) keys =
  filter (fun r => h r = p) (flat_map (fun q => concat (data q)) (seq 0 ip)).
Proof. exact (shuffle_hash_places h data att ip n p keys). Qed.
Print Assumptions C49_hash_shuffle_places_rows.

Example C49_example :
  fetched_rows (fun q => shuffle_write (hash_partition (fun r => r mod 2) 2) 2 tt [[q; q + 1]; [q + 2]])
    (default [] (read_task Shuffle (fun _ => Some 0) 2 2 2 1)) = [1; 1; 3].
Proof. reflexivity. Qed.
