(** Theorems for C33: partition transforms. *)
From Coq Require Import NArith ZArith Ascii String Lia.
From stdpp Require Import prelude list strings.
From Verif.Lib Require Import Text.
From Verif.Iceberg Require Import ValueModel DeleteModel TransformModel TransformSpec TransformProofs.
Local Open Scope Z_scope.

(** There is a calendar, and only one. *)
Theorem C33_calendar_unique : exists start, calendar start /\
  forall start', calendar start' -> forall k, start' k = start k.
Proof. exact (ex_intro _ month_start (conj month_start_calendar calendar_unique)). Qed.
Print Assumptions C33_calendar_unique.

(** Null stays null. *)
Theorem C33_null : forall t ty, apply_transform t ty None = Ret None.
Proof. exact null_transform. Qed.
Print Assumptions C33_null.

(** Days: every date and timestamp. *)
Theorem C33_day : forall start ty v, spec_types Day ty v -> prim_ok v ->
  exists r, apply_transform Day ty (Some v) = Ret r /\ spec_transform start Day ty v r.
Proof. exact day_transform. Qed.
Print Assumptions C33_day.

(** Hours: every timestamp whose hour fits into 32 bits. *)
Theorem C33_hour_partial : forall start ty v, spec_types Hour ty v -> prim_ok v -> hour_plain ty v ->
  exists r, apply_transform Hour ty (Some v) = Ret r /\ spec_transform start Hour ty v r.
Proof. exact hour_transform. Qed.
Print Assumptions C33_hour_partial.

(** Months and years: dates from 1970 on and timestamps, up to the year 262142.
    Missing: dates before 1970 (they panic, see below). *)
Theorem C33_month_partial : forall start ty v,
  calendar start -> spec_types Month ty v -> date_plain start ty v ->
  exists r, apply_transform Month ty (Some v) = Ret r /\ spec_transform start Month ty v r.
Proof. exact month_transform. Qed.
Print Assumptions C33_month_partial.

Theorem C33_year_partial : forall start ty v,
  calendar start -> spec_types Year ty v -> date_plain start ty v ->
  exists r, apply_transform Year ty (Some v) = Ret r /\ spec_transform start Year ty v r.
Proof. exact year_transform. Qed.
Print Assumptions C33_year_partial.

(** Truncation of integers whose result is in range and of UTF-8 strings.
    Missing: decimals and binaries (returned unchanged, see below). *)
Theorem C33_truncate_partial : forall start w ty v,
  spec_types (Truncate w) ty v -> truncate_plain w v ->
  exists r, apply_transform (Truncate w) ty (Some v) = Ret r /\ spec_transform start (Truncate w) ty v r.
Proof. exact truncate_transform. Qed.
Print Assumptions C33_truncate_partial.

(** Buckets: integers, dates, times, microsecond timestamps, strings, binaries, UUIDs
    and decimals that need no sign byte.  Missing: other decimals and nanosecond
    timestamps (see below). *)
Theorem C33_bucket_partial : forall start n ty v,
  spec_types (Bucket n) ty v -> bucket_plain ty v ->
  exists r, apply_transform (Bucket n) ty (Some v) = Ret r /\ spec_transform start (Bucket n) ty v r.
Proof. exact bucket_transform. Qed.
Print Assumptions C33_bucket_partial.

(** The hash function agrees with the test values of the specification. *)
Example C33_hash_examples :
  hash_long 34 = 2017239379%N /\ hash_long 17486 = 3641636874%N /\
  hash_bytes (str "iceberg") = 1210000089%N /\ hash_decimal 1420 = 3794212707%N /\
  hash_bytes [0; 1; 2; 3]%N = 4106284089%N.
Proof. by vm_compute. Qed.
(** 2017-11-16 is day 17486, month 574 and year 47; two microseconds before 1970 is
    day -1, hour -1, month -1. *)
Example C33_time_examples :
  apply_transform Month TyDate (Some (PInt 17486)) = Ret (Some (PInt 574)) /\
  apply_transform Year TyDate (Some (PInt 17486)) = Ret (Some (PInt 47)) /\
  apply_transform Day TyTs (Some (PLong (-2))) = Ret (Some (PInt (-1))) /\
  apply_transform Hour TyTsNs (Some (PLong (-2))) = Ret (Some (PInt (-1))) /\
  apply_transform Month TyTs (Some (PLong (-2))) = Ret (Some (PInt (-1))) /\
  date_plain month_start TyTs (PLong (-2)).
Proof. repeat split; by vm_compute. Qed.
Example C33_truncate_examples :
  apply_transform (Truncate 10) TyInt (Some (PInt (-1))) = Ret (Some (PInt (-10))) /\
  truncate_plain 10 (PInt (-1)) /\
  apply_transform (Truncate 2) TyString (Some (PString [97; 195; 169; 98]%N)) = Ret (Some (PString [97; 195; 169]%N)) /\
  truncate_plain 2 (PString [97; 195; 169; 98]%N).
Proof.
  split; [by vm_compute|]. split; [vm_compute; split; [split|]; discriminate || done|]. split; [by vm_compute|].
  exists [[97]; [195; 169]; [98]]%N. split; [|done].
  repeat (apply Forall_cons; split; [do 2 eexists; repeat split; repeat constructor|]). constructor.
Qed.
Example C33_bucket_example :
  apply_transform (Bucket 16) TyLong (Some (PLong 34)) = Ret (Some (PInt 3)) /\
  decimal_plain 1420.
Proof. split; [by vm_compute|]. right. exists 2. by vm_compute. Qed.

(** ** What fails *)

(** The void transform must give null but returns the value. *)
Theorem C33_void_refuted : exists start v r, calendar start /\ spec_types Void TyInt v /\
  apply_transform Void TyInt (Some v) = Ret r /\ ~ spec_transform start Void TyInt v r.
Proof. exact void_refuted. Qed.
Print Assumptions C33_void_refuted.

(** Months and years of dates before 1970 panic: every one of them. *)
Theorem C33_date_before_1970_refuted : forall d, d < 0 ->
  apply_transform Year TyDate (Some (PInt d)) = Panic /\
  apply_transform Month TyDate (Some (PInt d)) = Panic.
Proof. exact before_1970. Qed.
Print Assumptions C33_date_before_1970_refuted.

(** Decimals: 1.28 must hash the bytes 00 80 but hashes 80; -1 must hash FF but
    hashes sixteen bytes. *)
Theorem C33_bucket_decimal_refuted : exists start n v r, calendar start /\
  spec_types (Bucket n) TyDecimal v /\
  apply_transform (Bucket n) TyDecimal (Some v) = Ret r /\ ~ spec_transform start (Bucket n) TyDecimal v r.
Proof. exact bucket_decimal_refuted. Qed.
Print Assumptions C33_bucket_decimal_refuted.

Theorem C33_bucket_negative_decimal_refuted : exists start n v r, calendar start /\ v < 0 /\
  spec_types (Bucket n) TyDecimal (PInt128 v) /\
  apply_transform (Bucket n) TyDecimal (Some (PInt128 v)) = Ret r /\
  ~ spec_transform start (Bucket n) TyDecimal (PInt128 v) r.
Proof. exact bucket_negative_refuted. Qed.
Print Assumptions C33_bucket_negative_decimal_refuted.

(** Nanosecond timestamps must hash as microseconds. *)
Theorem C33_bucket_nanos_refuted : exists start n v r, calendar start /\
  spec_types (Bucket n) TyTsNs v /\
  apply_transform (Bucket n) TyTsNs (Some v) = Ret r /\ ~ spec_transform start (Bucket n) TyTsNs v r.
Proof. exact bucket_nanos_refuted. Qed.
Print Assumptions C33_bucket_nanos_refuted.

(** Decimals and binaries are not truncated. *)
Theorem C33_truncate_unchanged_refuted : exists start w,
  calendar start /\ exists v r, spec_types (Truncate w) TyDecimal v /\
    apply_transform (Truncate w) TyDecimal (Some v) = Ret r /\ ~ spec_transform start (Truncate w) TyDecimal v r /\
  exists v' r', spec_types (Truncate w) TyBinary v' /\
    apply_transform (Truncate w) TyBinary (Some v') = Ret r' /\ ~ spec_transform start (Truncate w) TyBinary v' r'.
Proof. exact truncate_unchanged_refuted. Qed.
Print Assumptions C33_truncate_unchanged_refuted.

(** An hour below the 32-bit range becomes the largest one. *)
Theorem C33_hour_range_refuted : exists start v r, calendar start /\ prim_ok v /\
  spec_types Hour TyTs v /\ apply_transform Hour TyTs (Some v) = Ret r /\
  r = Some (PInt (2 ^ 31 - 1)) /\ ~ spec_transform start Hour TyTs v r.
Proof. exact hour_range_refuted. Qed.
Print Assumptions C33_hour_range_refuted.
