(** Model of the Iceberg partition transforms.
    Source: crates/sail-iceberg/src/utils/transform.rs. *)
From Coq Require Import NArith ZArith Lia.
From stdpp Require Import prelude list.
From Verif.Lib Require Import Text.
From Verif.Iceberg Require Import ValueModel DeleteModel.

(** The primitive types (spec/types/mod.rs); the variants with and without time
    zone behave alike here and are merged, the parameters of decimals are left out. *)
Inductive ptype :=
| TyBool | TyInt | TyLong | TyFloat | TyDouble | TyDecimal | TyDate | TyTime
| TyTs | TyTsNs | TyString | TyUuid | TyFixed | TyBinary.
Global Instance ptype_eqdec : EqDecision ptype.
Proof. solve_decision. Defined.

(** spec/transform.rs:33-53 [Transform]; the parameters are [u32]. *)
Inductive transform :=
| Identity | Bucket (n : N) | Truncate (w : N) | Year | Month | Day | Hour | Void | Unknown.
Global Instance transform_eqdec : EqDecision transform.
Proof. solve_decision. Defined.

(** A call either panics or returns; arithmetic wraps around as in release builds. *)
Inductive outcome := Panic | Ret (v : option prim).

Definition wrap (k : Z) (z : Z) : Z := (z + 2 ^ (k - 1)) mod 2 ^ k - 2 ^ (k - 1).
Definition wrap32 := wrap 32.
Definition wrap64 := wrap 64.
(** [i32::try_from(z).unwrap_or(i32::MAX)] *)
Definition clamp32 (z : Z) : Z := if decide (- 2 ^ 31 <= z < 2 ^ 31)%Z then z else (2 ^ 31 - 1)%Z.

(** ** Calendar: what chrono's [year] and [month0] return for a day counted from
    1970-01-01 (proleptic Gregorian calendar). The algorithm is the usual one with
    years starting in March, not the tables of chrono. *)
Definition cycle_day (d : Z) : Z := (d + 719468) mod 146097.
Definition cycle_year (doe : Z) : Z := (doe - doe / 1460 + doe / 36524 - doe / 146096) / 365.
Definition cycle_month (doe : Z) : Z :=
  let yoe := cycle_year doe in
  let doy := (doe - (365 * yoe + yoe / 4 - yoe / 100))%Z in
  ((5 * doy + 2) / 153)%Z.
(** January is 0. *)
Definition month0_of_day (d : Z) : Z :=
  let mp := cycle_month (cycle_day d) in
  if decide (mp < 10)%Z then (mp + 2)%Z else (mp - 10)%Z.
Definition year_of_day (d : Z) : Z :=
  let y := (cycle_year (cycle_day d) + 400 * ((d + 719468) / 146097))%Z in
  if decide (month0_of_day d <= 1)%Z then (y + 1)%Z else y.
(** The years chrono can represent. *)
Definition chrono_min_year : Z := -262143.
Definition chrono_max_year : Z := 262142.
Definition chrono_day (d : Z) : bool :=
  bool_decide (chrono_min_year <= year_of_day d)%Z && bool_decide (year_of_day d <= chrono_max_year)%Z.

(** transform.rs:196-201 [days_to_year]: a negative day count becomes a huge
    unsigned one, so that the addition panics. *)
Definition days_to_year (d : Z) : option Z :=
  if decide (0 <= d)%Z then if chrono_day d then Some (year_of_day d - 1970)%Z else None else None.
(** transform.rs:209-214 [days_to_months] *)
Definition days_to_months (d : Z) : option Z :=
  if decide (0 <= d)%Z then
    if chrono_day d then Some ((year_of_day d - 1970) * 12 + month0_of_day d)%Z else None
  else None.
Definition micros_per_day : Z := 86400000000.
(** transform.rs:203-207 [micros_to_year] *)
Definition micros_to_year (m : Z) : Z :=
  let d := (m / micros_per_day)%Z in
  if chrono_day d then (year_of_day d - 1970)%Z else 0%Z.
(** transform.rs:216-230 [micros_to_months] *)
Definition micros_to_months (m : Z) : Z :=
  let d := (m / micros_per_day)%Z in
  if chrono_day d then
    if decide (0 < m)%Z then ((year_of_day d - 1970) * 12 + month0_of_day d)%Z
    else (- ((12 - month0_of_day d) + 12 * (1970 - year_of_day d - 1)))%Z
  else 0%Z.
(** transform.rs:92-97 and likewise: nanoseconds become microseconds. *)
Definition to_micros (t : ptype) (v : Z) : Z := match t with TyTsNs => (v / 1000)%Z | _ => v end.

(** ** Murmur3 (x86, 32 bits), as the murmur3 crate computes it *)
Definition mask32 (n : N) : N := N.land n 0xffffffff.
Definition rotl32 (n : N) (k : N) : N := N.lor (mask32 (N.shiftl n k)) (N.shiftr n (32 - k)).
Definition mul32 (a b : N) : N := mask32 (a * b).
Definition mix_k (k : N) : N := mul32 (rotl32 (mul32 k 0xcc9e2d51) 15) 0x1b873593.
Fixpoint le_word (l : text) : N := match l with [] => 0 | b :: l => b + 256 * le_word l end%N.
Fixpoint murmur_body (h : N) (l : text) : N :=
  match l with
  | a :: b :: c :: d :: l =>
      murmur_body (mask32 (rotl32 (N.lxor h (mix_k (le_word [a; b; c; d]))) 13 * 5 + 0xe6546b64)) l
  | [] => h
  | tail => N.lxor h (mix_k (le_word tail))
  end.
Definition fmix (h : N) : N :=
  let h := N.lxor h (N.shiftr h 16) in
  let h := mul32 h 0x85ebca6b in
  let h := N.lxor h (N.shiftr h 13) in
  let h := mul32 h 0xc2b2ae35 in
  N.lxor h (N.shiftr h 16).
Definition murmur3_32 (seed : N) (l : text) : N :=
  fmix (N.lxor (murmur_body seed l) (mask32 (N.of_nat (length l)))).

(** transform.rs:235-237 [hash_bytes] as the unsigned word, and 264-266 [bucket_n]. *)
Definition hash_bytes (b : text) : N := murmur3_32 0 b.
Definition bucket_n (hash : N) (n : N) : outcome :=
  let m := wrap32 (Z.of_N n) in
  if decide (m = 0)%Z then Panic
  else Ret (Some (PInt (Z.rem (Z.of_N (N.land hash 0x7fffffff)) m))).
(** transform.rs:246-248 [hash_long] *)
Definition hash_long (v : Z) : N := hash_bytes (signed_le 8 v).
(** transform.rs:251-258 [hash_decimal] *)
Fixpoint strip_zeros (l : text) : text :=
  match l with b :: l' => if decide (b = 0%N) then strip_zeros l' else l | [] => [] end.
Definition hash_decimal (v : Z) : N :=
  match strip_zeros (rev (signed_le 16 v)) with
  | [] => hash_bytes [0%N]
  | l => hash_bytes l
  end.

(** ** Truncation *)
(** [s.chars().take(w)] on UTF-8 bytes: a byte 10xxxxxx continues a character. *)
Definition is_cont (b : N) : bool := bool_decide (128 <= b)%N && bool_decide (b < 192)%N.
Fixpoint take_chars (w : N) (s : text) : text :=
  match s with
  | [] => []
  | b :: s => if is_cont b then b :: take_chars w s
              else if decide (w = 0%N) then [] else b :: take_chars (w - 1) s
  end.
(** [v.rem_euclid(w)] for a non-zero [w]. *)
Definition rem_euclid (v w : Z) : Z := (v mod Z.abs w)%Z.
Definition truncate_int (w : N) (v : Z) : outcome :=
  let w := wrap32 (Z.of_N w) in
  if decide (w = 0)%Z then Panic
  else if decide (w = -1 /\ v = - 2 ^ 31)%Z then Panic
  else Ret (Some (PInt (wrap32 (v - rem_euclid v w)))).
Definition truncate_long (w : N) (v : Z) : outcome :=
  if decide (w = 0%N) then Panic
  else Ret (Some (PLong (wrap64 (v - rem_euclid v (Z.of_N w))))).

(** transform.rs:27-190 [apply_transform] *)
Definition apply_transform (t : transform) (ty : ptype) (v : option prim) : outcome :=
  match t with
  | Identity | Unknown | Void => Ret v
  | Truncate w =>
      match v with
      | Some (PString s) => Ret (Some (PString (take_chars w s)))
      | Some (PInt z) => truncate_int w z
      | Some (PLong z) => truncate_long w z
      | other => Ret other
      end
  | Bucket n =>
      match v with
      | None => Ret None
      | Some (PInt z) => bucket_n (hash_long z) n
      | Some (PLong z) => bucket_n (hash_long z) n
      | Some (PInt128 z) => bucket_n (hash_decimal z) n
      | Some (PString s) => bucket_n (hash_bytes s) n
      | Some (PUInt128 u) => bucket_n (hash_bytes (rev (le_bytes 16 u))) n
      | Some (PBinary b) => bucket_n (hash_bytes b) n
      | other => Ret other
      end
  | Day =>
      match ty, v with
      | TyDate, Some (PInt z) => Ret (Some (PInt z))
      | (TyTs | TyTsNs), Some (PLong z) => Ret (Some (PInt (clamp32 (to_micros ty z / micros_per_day))))
      | _, _ => Ret v
      end
  | Year =>
      match ty, v with
      | TyDate, Some (PInt z) => match days_to_year z with Some y => Ret (Some (PInt y)) | None => Panic end
      | (TyTs | TyTsNs), Some (PLong z) => Ret (Some (PInt (micros_to_year (to_micros ty z))))
      | _, _ => Ret v
      end
  | Month =>
      match ty, v with
      | TyDate, Some (PInt z) => match days_to_months z with Some y => Ret (Some (PInt y)) | None => Panic end
      | (TyTs | TyTsNs), Some (PLong z) => Ret (Some (PInt (micros_to_months (to_micros ty z))))
      | _, _ => Ret v
      end
  | Hour =>
      match ty, v with
      | (TyTs | TyTsNs), Some (PLong z) => Ret (Some (PInt (clamp32 (to_micros ty z / 3600000000))))
      | _, _ => Ret v
      end
  end.
