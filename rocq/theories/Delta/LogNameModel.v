(** Model of Delta log file names and of listing them from an offset.
    Sources: crates/sail-delta-lake/src/spec/log.rs,
             crates/sail-delta-lake/src/delta_log/listing.rs.
    All paths start with [_delta_log/]; the part after it is modelled. *)
From Coq Require Import NArith ZArith String.
From stdpp Require Import prelude list strings.
From Verif.Lib Require Import Text.
Local Open Scope Z_scope.

Definition i64_max : Z := 2 ^ 63 - 1.

(** [{version:020}] for an [i64]: at least 20 characters, zeros after the sign. *)
Definition pad20 (v : Z) : text :=
  if v <? 0 then 45%N :: digits 19 (Z.to_N (- v)) else digits 20 (Z.to_N v).

(** log.rs:38-40 [delta_log_prefix_path], 43-45 [checkpoint_path], 47-49
    [commit_path], 59-61 [checksum_path], 93-103 [uuid_checkpoint_path] and
    [uuid_json_checkpoint_path] ([uuid] is the text of the UUID), 205-209
    [compacted_json_path] *)
Definition prefix_name (v : Z) : text := pad20 v.
Definition checkpoint_name (v : Z) : text := pad20 v ++ str ".checkpoint.parquet".
Definition commit_name (v : Z) : text := pad20 v ++ str ".json".
Definition checksum_name (v : Z) : text := pad20 v ++ str ".crc".
Definition uuid_checkpoint_name (v : Z) (uuid : text) : text :=
  pad20 v ++ str ".checkpoint." ++ uuid ++ str ".parquet".
Definition uuid_json_checkpoint_name (v : Z) (uuid : text) : text :=
  pad20 v ++ str ".checkpoint." ++ uuid ++ str ".json".
Definition compacted_name (s e : Z) : text := pad20 s ++ str "." ++ pad20 e ++ str ".compacted.json".

(** log.rs:113-119 [parse_version_prefix]; [parse::<i64>] of 20 digits fails when the
    number is too large. *)
Definition parse_digits20 (s : text) : option Z :=
  if decide (length s = 20%nat) then
    if forallb is_digit s then
      if Z.of_N (dec_value s) <=? i64_max then Some (Z.of_N (dec_value s)) else None
    else None
  else None.
Definition parse_prefix (f : text) : option Z := parse_digits20 (take 20 f).

(** log.rs:121-126 *)
Definition parse_commit (f : text) : option Z :=
  if bool_decide (length f <> 25%nat) || negb (ends_with f (str ".json")) then None else parse_prefix f.
(** log.rs:128-133 *)
Definition parse_checksum (f : text) : option Z :=
  if bool_decide (length f <> 24%nat) || negb (ends_with f (str ".crc")) then None else parse_prefix f.
(** log.rs:135-146 *)
Definition parse_checkpoint (f : text) : option Z :=
  if negb (contains f (str ".checkpoint"))
     || negb (ends_with f (str ".parquet") || ends_with f (str ".json"))
  then None else parse_prefix f.
(** log.rs:184-203 *)
Definition parse_compacted (f : text) : option (Z * Z) :=
  if bool_decide (length f <> 56%nat) || negb (ends_with f (str ".compacted.json")) then None
  else
    s ← parse_prefix f;
    if decide (f !! 20%nat = Some 46%N) then
      e ← parse_digits20 (take 20 (drop 21 f));
      if e <=? s then None else Some (s, e)
    else None.

(** listing.rs:14-18 [parse_delta_log_entry_version] *)
Definition parse_entry (f : text) : option Z :=
  match parse_commit f with
  | Some v => Some v
  | None => match parse_checkpoint f with
            | Some v => Some v
            | None => snd <$> parse_compacted f
            end
  end.

(** listing.rs:20-27 and 88-122 [list_delta_log_entries_from]: [files] are the names
    of all objects under [_delta_log/]; those in sub-directories are left out.  Both
    ways of listing give the same after the filter. *)
Definition top_level (f : text) : bool := negb (bool_decide (f = [])) && negb (bool_decide (47%N ∈ f)).
Definition list_from (offset : Z) (files : list text) : list text :=
  filter (fun f => tlt (prefix_name offset) f && top_level f = true) files.

(** listing.rs:124-140 [latest_version_from_listing]; [hint] is the version recorded
    in [_last_checkpoint], if that file can be read *)
Definition max_version (vs : list Z) : option Z :=
  foldl (fun acc v => Some (match acc with Some c => Z.max c v | None => v end)) None vs.
Definition latest_version (hint : option Z) (files : list text) : option Z :=
  let offset := match hint with Some v => v - 1 | None => 0 end in
  max_version (omap parse_entry (list_from offset files)).
