(** C37: the configuration of a session. *)
From Coq Require Import NArith ZifyN Ascii String Lia.
From stdpp Require Import prelude list gmap.
From Verif.Lib Require Import Text.
From Verif.Connect Require Import ConfigModel ConfigSpec ConfigProofs.

(** After any requests, reading a key gives the value of the first of its names, and of
    those of the keys it falls back to, that has been assigned one and not been removed
    since; else the default of the last key; and an error if that is not declared. *)
Theorem C37_get : forall t zone l k ks fuel,
  allowed t time_zone_key zone -> chain t k ks -> length ks <= fuel ->
  get fuel t (run t (new_config t zone) l) k =
  match value_of t (changes t zone l) ks with Some v => Some (Some v) | None => default_of t ks end.
Proof. intros t zone l k ks fuel Hz. exact (get_right t zone l Hz k ks fuel). Qed.
Print Assumptions C37_get.
Theorem C37_get_option : forall t zone l k ks fuel,
  allowed t time_zone_key zone -> chain t k ks -> length ks <= fuel ->
  get_option fuel t (run t (new_config t zone) l) k =
  match value_of t (changes t zone l) ks with Some v => Some v | None => mjoin (default_of t ks) end.
Proof. intros t zone l k ks fuel Hz. exact (get_option_right t zone l Hz k ks fuel). Qed.
Print Assumptions C37_get_option.
Theorem C37_get_with_default : forall t zone l k ks fuel d,
  allowed t time_zone_key zone -> chain t k ks -> length ks <= fuel ->
  get_with_default fuel t (run t (new_config t zone) l) k d =
  match value_of t (changes t zone l) ks with Some v => Some v | None => d end.
Proof. intros t zone l k ks fuel d Hz. exact (get_with_default_right t zone l Hz k ks fuel d). Qed.
Print Assumptions C37_get_with_default.
(** The list of all values has each assigned key once, with its value. *)
Theorem C37_get_all : forall t zone l prefix, allowed t time_zone_key zone ->
  NoDup (map fst (get_all (run t (new_config t zone) l) prefix)) /\
  forall k v, (k, v) ∈ get_all (run t (new_config t zone) l) prefix <->
    assigned (changes t zone l) k = Some v /\ match prefix with Some p => starts_with k p = true | None => True end.
Proof. intros t zone l prefix Hz. exact (get_all_right t zone l Hz prefix). Qed.
Print Assumptions C37_get_all.
(** A key that was removed from Spark never has a value other than its default. *)
Theorem C37_removed : forall t zone l k e v, t !! k = Some e -> e_removed e = true ->
  run t (new_config t zone) l !! k = Some v -> e_default e = Some v.
Proof. exact removed_constant. Qed.
Print Assumptions C37_removed.

(** Some entries of data/config/spark-3.5.json. *)
Definition arrow : text := str "spark.sql.execution.arrow.pyspark.enabled".
Definition arrow_old : text := str "spark.sql.execution.arrow.enabled".
Definition rebase : text := str "spark.sql.parquet.datetimeRebaseModeInRead".
Definition rebase_old : text := str "spark.sql.legacy.parquet.datetimeRebaseModeInRead".
Definition strict_index : text := str "spark.sql.ansi.strictIndexOperator".
Definition allow_local : text := str "spark.connect.copyFromLocalToFs.allowDestLocal".
Definition udf_buffer : text := str "spark.sql.execution.pandas.udf.buffer.size".
Definition some_entries : table := list_to_map [
  (arrow, Entry None [] (Some arrow_old) false false);
  (arrow_old, Entry (Some (str "false")) [] None false false);
  (rebase, Entry (Some (str "EXCEPTION")) [rebase_old] None false false);
  (strict_index, Entry (Some (str "true")) [] None false true);
  (allow_local, Entry (Some (str "false")) [] None true false);
  (udf_buffer, Entry None [] (Some (str "spark.buffer.size")) false false)].
Definition utc : text := str "UTC".

Definition some_requests : list request :=
  [SetConfig [(arrow_old, Some (str "true")); (rebase_old, Some (str "LEGACY"))]; SetConfig [(arrow, Some (str "maybe"))]; UnsetConfig [arrow]].
Example config_case : allowed some_entries time_zone_key utc /\ chain some_entries arrow [arrow; arrow_old] /\
  get 2 some_entries (run some_entries (new_config some_entries utc) some_requests) arrow = Some (Some (str "true")) /\
  value_of some_entries (changes some_entries utc some_requests) [arrow; arrow_old] = Some (str "true") /\
  get 1 some_entries (run some_entries (new_config some_entries utc) some_requests) rebase = Some (Some (str "LEGACY")).
Proof.
  split; [apply (bool_decide_unpack _); by vm_compute|]. split; [|by vm_compute].
  apply (chain_next _ _ arrow_old); [by vm_compute|]. apply chain_end. by vm_compute.
Qed.
Example removed_case : (exists e, some_entries !! strict_index = Some e /\ e_removed e = true) /\
  run some_entries (new_config some_entries utc) [SetConfig [(strict_index, Some (str "true"))]] !! strict_index = Some (str "true").
Proof. split; [by eexists|by vm_compute]. Qed.

(** A key that is reported as modifiable can be set to any value, and is then
    read as that value. *)
Theorem C37_modifiable : forall t c k v, is_modifiable t k = true ->
  set_config t c [(k, Some v)] = (<[k := v]> c, true) /\
  (forall k', k' <> k -> (set_config t c [(k, Some v)]).1 !! k' = c !! k') /\
  forall fuel, get (S fuel) t (set_config t c [(k, Some v)]).1 k = Some (Some v) /\
    get_option (S fuel) t (set_config t c [(k, Some v)]).1 k = Some v /\
    forall d, get_with_default (S fuel) t (set_config t c [(k, Some v)]).1 k d = Some v.
Proof. exact modifiable_settable. Qed.
Print Assumptions C37_modifiable.
Example modifiable_case : is_modifiable some_entries arrow = true /\ is_modifiable some_entries strict_index = false /\
  is_modifiable some_entries allow_local = false.
Proof. by vm_compute. Qed.

(** Keys that are declared static, and reported as not modifiable, can be changed. *)
Theorem C37_static_refuted : exists t zone k v, is_modifiable t k = false /\ (exists e, t !! k = Some e /\ e_static e = true /\ e_default e <> Some v) /\
  (set_config t (new_config t zone) [(k, Some v)]).2 = true /\
  get 1 t (run t (new_config t zone) [SetConfig [(k, Some v)]]) k = Some (Some v).
Proof.
  exists some_entries, utc, allow_local, (str "true"). split; [by vm_compute|]. split; [eexists; split; [by vm_compute|by split]|]. by vm_compute.
Qed.
Print Assumptions C37_static_refuted.

(** A request that is refused may have changed some keys. *)
Theorem C37_atomic_refuted : exists t zone kvs k,
  (set_config t (new_config t zone) kvs).2 = false /\
  get 1 t (run t (new_config t zone) [SetConfig kvs]) k <> get 1 t (new_config t zone) k.
Proof.
  exists some_entries, utc, [(arrow_old, Some (str "true")); (strict_index, Some (str "false"))], arrow_old. by vm_compute.
Qed.
Print Assumptions C37_atomic_refuted.

(** A declared key whose fallback is declared elsewhere cannot be read. *)
Theorem C37_declared_refuted : exists t zone k, (exists e, t !! k = Some e) /\ is_modifiable t k = true /\
  forall fuel, get fuel t (new_config t zone) k = None.
Proof.
  exists some_entries, utc, udf_buffer. split; [by eexists|]. split; [by vm_compute|]. intros [|[|fuel]]; by vm_compute.
Qed.
Print Assumptions C37_declared_refuted.
