(** Specification of the partition transforms, after the Iceberg table specification
    ("Partition transforms" and "Appendix B: 32-bit hash requirements"). *)
From Coq Require Import NArith ZArith Lia.
From stdpp Require Import prelude list.
From Verif.Lib Require Import Text.
From Verif.Iceberg Require Import ValueModel TransformModel.
Local Open Scope Z_scope.

(** The Gregorian calendar. *)
Definition leap (y : Z) : Prop := y mod 4 = 0 /\ (y mod 100 <> 0 \/ y mod 400 = 0).
Definition leap_dec (y : Z) : {leap y} + {~ leap y} := decide (leap y).
(** The length of month [m] of the year [y], January being 0. *)
Definition month_length (y m : Z) : Z :=
  if decide (m = 1) then if leap_dec y then 29 else 28
  else if decide (m = 3 \/ m = 5 \/ m = 8 \/ m = 10) then 30 else 31.
(** [start k] is the first day, counted from 1970-01-01, of the month that is [k]
    months after January 1970. *)
Definition calendar (start : Z -> Z) : Prop :=
  start 0 = 0 /\ forall k, start (k + 1) = start k + month_length (1970 + k / 12) (k mod 12).
(** The month and the year of a day, as offsets from January 1970 and 1970. *)
Definition in_month (start : Z -> Z) (d k : Z) : Prop := start k <= d < start (k + 1).
Definition in_year (start : Z -> Z) (d y : Z) : Prop := start (12 * y) <= d < start (12 * (y + 1)).

(** [q] is [v / unit] rounded down. *)
Definition floor_of (v unit q : Z) : Prop := q * unit <= v < (q + 1) * unit.

(** The bytes hashed for the bucket transform. *)
Fixpoint le_val (l : text) : Z := match l with [] => 0 | b :: l => Z.of_N b + 256 * le_val l end.
(** big-endian, two's complement *)
Definition be_signed (l : text) : Z :=
  let u := le_val (rev l) in
  let n := 8 * Z.of_nat (length l) in
  if decide (u < 2 ^ (n - 1)) then u else u - 2 ^ n.
Definition spec_bytes (ty : ptype) (p : prim) (b : text) : Prop :=
  Forall is_byte b /\
  match p with
  | PInt v => length b = 8%nat /\ le_val b = v mod 2 ^ 64
  | PLong v => length b = 8%nat /\ le_val b = (match ty with TyTsNs => v / 1000 | _ => v end) mod 2 ^ 64
  | PInt128 v => be_signed b = v /\ b <> [] /\
      forall b', Forall is_byte b' -> b' <> [] -> be_signed b' = v -> (length b <= length b')%nat
  | PUInt128 u => length b = 16%nat /\ le_val (rev b) = Z.of_N u
  | PString s | PBinary s => b = s
  | _ => False
  end.

(** Characters of a UTF-8 string: the first byte tells how many bytes continue it. *)
Definition utf8_tail (b : N) : nat :=
  if decide (b < 192)%N then 0 else if decide (b < 224)%N then 1 else if decide (b < 240)%N then 2 else 3.
Definition utf8_char (c : text) : Prop :=
  exists b bs, c = b :: bs /\ is_cont b = false /\ Forall (fun x => is_cont x = true) bs /\
    length bs = utf8_tail b.

(** The specified result of a transform. *)
Definition spec_transform (start : Z -> Z) (t : transform) (ty : ptype) (v : prim) (r : option prim) : Prop :=
  match t, v with
  | Identity, v => r = Some v
  | Void, _ => r = None
  | Bucket n, v => exists b, spec_bytes ty v b /\
      r = Some (PInt (Z.of_N (N.land (murmur3_32 0 b) 0x7fffffff) mod Z.of_N n))
  | Truncate w, PInt z => exists q, floor_of z (Z.of_N w) q /\ r = Some (PInt (q * Z.of_N w))
  | Truncate w, PLong z => exists q, floor_of z (Z.of_N w) q /\ r = Some (PLong (q * Z.of_N w))
  | Truncate w, PInt128 z => exists q, floor_of z (Z.of_N w) q /\ r = Some (PInt128 (q * Z.of_N w))
  | Truncate w, PString s => exists cs, Forall utf8_char cs /\ s = concat cs /\
      r = Some (PString (concat (take (N.to_nat w) cs)))
  | Truncate w, PBinary s => r = Some (PBinary (take (N.to_nat w) s))
  | Day, PInt d => r = Some (PInt d)
  | Month, PInt d => exists k, in_month start d k /\ r = Some (PInt k)
  | Year, PInt d => exists y, in_year start d y /\ r = Some (PInt y)
  | _, PLong z =>
      let second := match ty with TyTsNs => 1000000000 | _ => 1000000 end in
      match t with
      | Hour => exists q, floor_of z (3600 * second) q /\ r = Some (PInt q)
      | Day => exists q, floor_of z (86400 * second) q /\ r = Some (PInt q)
      | Month => exists d k, floor_of z (86400 * second) d /\ in_month start d k /\ r = Some (PInt k)
      | Year => exists d y, floor_of z (86400 * second) d /\ in_year start d y /\ r = Some (PInt y)
      | _ => False
      end
  | _, _ => False
  end.
(** The source types each transform accepts. *)
Definition spec_types (t : transform) (ty : ptype) (v : prim) : Prop :=
  match ty, v with
  | TyInt, PInt _ | TyLong, PLong _ | TyDecimal, PInt128 _ | TyString, PString _ | TyBinary, PBinary _
  | TyUuid, PUInt128 _ | TyDate, PInt _ | TyTime, PLong _ | TyTs, PLong _ | TyTsNs, PLong _ => True
  | _, _ => False
  end /\
  match t with
  | Identity => True
  | Bucket n => (0 < n < 2 ^ 31)%N
  | Truncate w => (0 < w < 2 ^ 31)%N /\ ty ∈ [TyInt; TyLong; TyDecimal; TyString; TyBinary]
  | Year | Month | Day => ty ∈ [TyDate; TyTs; TyTsNs]
  | Hour => ty ∈ [TyTs; TyTsNs]
  | Void => True
  | Unknown => False
  end.

(** ** The values for which the code is proved to follow the specification *)
Definition second_of (ty : ptype) : Z := match ty with TyTsNs => 1000000000 | _ => 1000000 end.
(** Non-negative decimals whose shortest encoding has its leading bit free, so that no
    sign byte is needed. *)
Definition decimal_plain (v : Z) : Prop :=
  v = 0 \/ exists n, 0 < n <= 16 /\ 2 ^ (8 * (n - 1)) <= v < 2 ^ (8 * n - 1).
(** Values for which hashing follows the specification. *)
Definition bucket_plain (ty : ptype) (v : prim) : Prop :=
  ty <> TyTsNs /\ match v with PInt128 z => decimal_plain z | PString s | PBinary s => Forall is_byte s
    | PUInt128 u => (u < 2 ^ 128)%N | _ => True end.
(** Values for which truncation follows the specification. *)
Definition truncate_plain (w : N) (v : prim) : Prop :=
  match v with
  | PInt z => - 2 ^ 31 <= z < 2 ^ 31 /\ - 2 ^ 31 <= z - z mod Z.of_N w
  | PLong z => - 2 ^ 63 <= z < 2 ^ 63 /\ - 2 ^ 63 <= z - z mod Z.of_N w
  | PString s => exists cs, Forall utf8_char cs /\ s = concat cs
  | _ => False
  end.
(** Hours must fit into 32 bits; with nanoseconds they always do. *)
Definition hour_plain (ty : ptype) (v : prim) : Prop :=
  match v with PLong z => ty = TyTsNs \/ - 2 ^ 31 * 3600000000 <= z < 2 ^ 31 * 3600000000 | _ => True end.
(** The day a value lies on. *)
Definition day_of (ty : ptype) (v : prim) : Z :=
  match v with PInt d => d | PLong z => z / (86400 * second_of ty) | _ => 0 end.
(** Dates from 1970 on, and everything within the years chrono knows. *)
Definition date_plain (start : Z -> Z) (ty : ptype) (v : prim) : Prop :=
  (ty = TyDate -> 0 <= day_of ty v) /\
  start (12 * (-262143 - 1970)) <= day_of ty v < start (12 * (262143 - 1970)).
