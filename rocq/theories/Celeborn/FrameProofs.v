(** Proofs about the framing of shuffle data. *)
From Coq Require Import NArith ZArith ZifyN Ascii String Lia.
From stdpp Require Import prelude list.
From Verif.Lib Require Import Text.
From Verif.Delta Require Import DvModel DvProofs.
From Verif.Sql Require Import LexModel MarkerProofs.
From Verif.Celeborn Require Import FrameModel FrameSpec.
Local Open Scope N_scope.

Lemma le_bytes_length k n : length (le_bytes k n) = k.
Proof. unfold le_bytes. by rewrite rev_length, be_bytes_length. Qed.
Lemma le_value_bytes n : n < 2 ^ 32 -> le_value (le_bytes 4 n) = n.
Proof. intros H. unfold le_value, le_bytes. rewrite rev_involutive. by apply be_value_bytes. Qed.
Lemma le_bytes_value s : Forall is_byte s -> length s = 4%nat -> le_bytes 4 (le_value s) = s.
Proof.
  intros H Hl. unfold le_value, le_bytes. rewrite <- (rev_involutive s) at 2. f_equal.
  rewrite <- Hl, <- rev_length. apply be_bytes_value. by apply Forall_rev in H.
Qed.

(** ** Blocks *)
Lemma take4 (a b : text) : length a = 4%nat -> take 4 (a ++ b) = a.
Proof. intros <-. apply take_app. Qed.
Lemma drop4 (a b : text) k : length a = 4%nat -> drop (4 + k) (a ++ b) = drop k b.
Proof. intros <-. by rewrite <- drop_drop, drop_app. Qed.

(** How a block is read, given its pieces. *)
Lemma decompress_pieces f method a b c payload :
  length a = 4%nat -> length b = 4%nat -> length c = 4%nat ->
  decompress_block f (magic f ++ [method] ++ a ++ b ++ c ++ payload) =
  if decide (N.to_nat (le_value a) <> length payload) then None
  else
    match (if decide (method = method_raw) then
             if decide (length payload <> N.to_nat (le_value b)) then None else Some payload
           else if decide (method = method_compressed f) then inflate f payload (N.to_nat (le_value b))
           else None) with
    | Some output =>
        if decide (length output <> N.to_nat (le_value b) \/ checksum f output <> le_value c) then None else Some output
    | None => None
    end.
Proof.
  intros Ha Hb Hc. unfold decompress_block. set (m := length (magic f)).
  set (data := magic f ++ [method] ++ a ++ b ++ c ++ payload).
  assert (Hlen : length data = (m + 13 + length payload)%nat).
  { unfold data. rewrite !app_length, Ha, Hb, Hc. cbn [length]. fold m. lia. }
  assert (Hm : take m data = magic f) by apply take_app.
  assert (Hd : forall k, drop (m + k) data = drop k ([method] ++ a ++ b ++ c ++ payload)).
  { intros k. unfold data. rewrite <- drop_drop. unfold m. by rewrite drop_app. }
  rewrite decide_False by (intros [?|?]; [lia|done]).
  assert (nth m data 0 = method) as ->.
  { unfold data. rewrite app_nth2 by (fold m; lia). fold m. by rewrite Nat.sub_diag. }
  rewrite !Hd. change (drop 1 ([method] ++ ?x)) with x.
  change (drop 5 ([method] ++ ?x)) with (drop (4 + 0) x).
  change (drop 9 ([method] ++ ?x)) with (drop (4 + 4) x).
  change (drop 13 ([method] ++ ?x)) with (drop (4 + 8) x).
  rewrite !drop4 by done. change 8%nat with (4 + 4)%nat. change (drop 4 (b ++ ?x)) with (drop (4 + 0) (b ++ x)).
  rewrite !drop4 by done. change (drop 4 (c ++ ?x)) with (drop (4 + 0) (c ++ x)). rewrite !drop4 by done.
  rewrite !drop_0, !take4 by done. cbn zeta.
  destruct (decide (N.to_nat (le_value a) <> length payload)) as [Hne|Heq].
  - rewrite decide_True by (rewrite Hlen; lia). done.
  - assert (N.to_nat (le_value a) = length payload) as -> by lia.
    rewrite decide_False by (rewrite Hlen; lia). done.
Qed.

Lemma block_roundtrip f data out :
  sound_format f -> Forall is_byte data -> compress_block f data = Some out -> decompress_block f out = Some data.
Proof.
  intros [S1 S2 S3] Hby. specialize (S3 data Hby). unfold compress_block.
  destruct (decide (length data <= length (deflate f data))%nat) as [Hraw|Hc].
  - destruct (decide _) as [|Hl]; [done|]. intros H%(inj Some). subst out.
    rewrite decompress_pieces by apply le_bytes_length. rewrite !le_value_bytes by lia.
    rewrite Nat2N.id. rewrite decide_False by lia. rewrite decide_True by done.
    rewrite decide_False by lia. rewrite decide_False; [done|]. intros [?|?]; [lia|done].
  - destruct (decide _) as [|Hl]; [done|]. destruct (decide _); [done|]. intros H%(inj Some). subst out.
    rewrite decompress_pieces by apply le_bytes_length. rewrite !le_value_bytes by lia.
    rewrite !Nat2N.id. rewrite decide_False by lia. rewrite decide_False by done. rewrite decide_True by done.
    rewrite S1. rewrite decide_False; [done|]. intros [?|?]; [lia|done].
Qed.
Lemma compress_roundtrip c data out :
  sound_codec c -> Forall is_byte data -> compress c data = Some out -> decompress c out = Some data.
Proof.
  destruct c as [f|]; cbn; intros Hs Hby; [by apply block_roundtrip|]. by intros [= ->].
Qed.

(** What is accepted. *)
Lemma decompress_inv f data out :
  Forall is_byte data -> decompress_block f data = Some out ->
  exists method payload, data = block f method payload out /\
    (method = method_raw /\ payload = out \/
     method = method_compressed f /\ inflate f payload (length out) = Some out).
Proof.
  intros Hb H. pose proof H as H0. unfold decompress_block in H0.
  destruct (decide (_ \/ _)) as [|Hno]; [done|]. clear H0.
  assert (Hlen : (length (magic f) + 13 <= length data)%nat) by lia.
  assert (Hm : take (length (magic f)) data = magic f).
  { destruct (decide (take (length (magic f)) data = magic f)); [done|]. exfalso. apply Hno. by right. }
  assert (exists method a b c payload, data = magic f ++ [method] ++ a ++ b ++ c ++ payload /\
    length a = 4%nat /\ length b = 4%nat /\ length c = 4%nat) as (method & a & b & c & payload & -> & Ha & Hbb & Hc).
  { rewrite <- (take_drop (length (magic f)) data), Hm.
    set (rest := drop (length (magic f)) data).
    assert (Hr : (13 <= length rest)%nat) by (unfold rest; rewrite drop_length; lia).
    destruct rest as [|method rest]; [cbn in Hr; lia|]. cbn in Hr.
    exists method, (take 4 rest), (take 4 (drop 4 rest)), (take 4 (drop 4 (drop 4 rest))), (drop 4 (drop 4 (drop 4 rest))).
    rewrite !take_length, !drop_length. split_and!; try lia. by rewrite !take_drop. }
  rewrite decompress_pieces in H by done.
  assert (Hbytes : Forall is_byte a /\ Forall is_byte b /\ Forall is_byte c).
  { rewrite !Forall_app in Hb. destruct Hb as (_ & _ & ? & ? & ? & _). done. }
  destruct Hbytes as (Ba & Bb & Bc).
  destruct (decide _) as [|E1]; [done|].
  destruct (if decide (method = method_raw) then _ else _) as [o|] eqn:Eo; [|done].
  destruct (decide (length o <> N.to_nat (le_value b) \/ checksum f o <> le_value c)) as [|E2]; [done|].
  injection H as ->.
  assert (E3 : length out = N.to_nat (le_value b)) by lia.
  assert (E4 : checksum f out = le_value c).
  { destruct (decide (checksum f out = le_value c)); [done|]. exfalso. apply E2. by right. }
  exists method, payload. split.
  - unfold block. rewrite E4.
    assert (N.of_nat (length payload) = le_value a) as -> by lia.
    assert (N.of_nat (length out) = le_value b) as -> by lia.
    by rewrite !le_bytes_value.
  - destruct (decide (method = method_raw)) as [->|].
    + destruct (decide _); [done|]. injection Eo as ->. by left.
    + destruct (decide (method = method_compressed f)) as [->|]; [|done]. right. split; [done|]. by rewrite E3.
Qed.

(** Damage of an uncompressed payload. *)
Lemma damaged_payload f data payload1 b c payload2 :
  (forall d, checksum f d = crc32 d) -> method_compressed f <> method_raw ->
  Forall is_byte (payload1 ++ b :: payload2) -> is_byte c -> b <> c ->
  data = block f method_raw (payload1 ++ c :: payload2) (payload1 ++ b :: payload2) ->
  N.of_nat (length data) < 2 ^ 32 ->
  decompress_block f data = None.
Proof.
  intros Hcrc Hm Hb Hc Hne -> Hlen. unfold block in *.
  pose proof (crc32_bound _ Hb) as Hsum. rewrite <- Hcrc in Hsum.
  rewrite decompress_pieces by apply le_bytes_length.
  rewrite !app_length in Hlen. cbn [length] in Hlen.
  assert (E : length (payload1 ++ c :: payload2) = length (payload1 ++ b :: payload2)) by by rewrite !app_length.
  rewrite !le_value_bytes; try exact Hsum; try (rewrite !app_length; cbn [length]; lia).
  rewrite !Nat2N.id. rewrite decide_False by lia. rewrite decide_True by done. rewrite decide_False by lia.
  rewrite decide_True; [done|]. right. rewrite !Hcrc. intros Eq.
  apply Forall_app in Hb as [Hb1 Hb2]. apply Forall_cons in Hb2 as [Hb2 Hb3].
  apply Hne. by apply (crc32_one_byte payload1 b c payload2).
Qed.

(** ** Batches in chunks *)
Lemma take_batch_grow buf x :
  (forall b r, take_batch buf = TakeBatch b r -> take_batch (buf ++ x) = TakeBatch b (r ++ x)) /\
  (take_batch buf = TakeErr -> take_batch (buf ++ x) = TakeErr).
Proof.
  unfold take_batch. destruct (decide (length buf < 16)%nat) as [|Hl]; [done|].
  rewrite app_length. rewrite (decide_False (P := (length buf + length x < 16)%nat)) by lia.
  assert (E : take 4 (drop 12 (buf ++ x)) = take 4 (drop 12 buf)).
  { rewrite drop_app_le by lia. rewrite take_app_le; [done|]. rewrite drop_length. lia. }
  rewrite E. destruct (decide (2 ^ 31 <= be_value (take 4 (drop 12 buf)))); [done|].
  cbn zeta. set (stop := (16 + N.to_nat (be_value (take 4 (drop 12 buf))))%nat).
  destruct (decide (length buf < stop)%nat); [done|].
  rewrite (decide_False (P := (length buf + length x < stop)%nat)) by lia. split; [|done].
  intros b r [= <- <-]. rewrite take_app_le by lia. rewrite drop_app_le by lia. done.
Qed.
Lemma take_batch_length buf b r : take_batch buf = TakeBatch b r -> length buf = (16 + length b + length r)%nat.
Proof.
  unfold take_batch. destruct (decide _); [done|]. destruct (decide _); [done|]. cbn zeta.
  destruct (decide _); [done|]. intros [= <- <-]. rewrite !drop_length, take_length. lia.
Qed.
Lemma drain_fuel c n : forall m buf, (length buf < n)%nat -> (length buf < m)%nat -> drain n c buf = drain m c buf.
Proof.
  induction n as [|n IH]; intros m buf Hn Hm; [lia|]. destruct m as [|m]; [lia|]. cbn [drain].
  destruct (take_batch buf) as [| |b r] eqn:E; try done. destruct (decompress c b); [|done].
  apply take_batch_length in E. rewrite (IH m) by lia. done.
Qed.
Definition drained (c : option format) (buf : text) : list text * option text := drain (S (length buf)) c buf.
Lemma drained_step c buf :
  drained c buf =
  match take_batch buf with
  | TakeErr => ([], None)
  | TakeMore => ([], Some buf)
  | TakeBatch b r =>
    match decompress c b with
    | None => ([], None)
    | Some out => ((out :: (drained c r).1), (drained c r).2)
    end
  end.
Proof.
  unfold drained at 1. cbn [drain]. destruct (take_batch buf) as [| |b r] eqn:E; try done.
  destruct (decompress c b); [|done]. apply take_batch_length in E.
  rewrite (drain_fuel c _ (S (length r))) by lia. fold (drained c r). by destruct (drained c r).
Qed.
Lemma drained_app c n : forall buf x, (length buf < n)%nat ->
  drained c (buf ++ x) =
  match (drained c buf).2 with
  | None => ((drained c buf).1, None)
  | Some rest => ((drained c buf).1 ++ (drained c (rest ++ x)).1, (drained c (rest ++ x)).2)
  end.
Proof.
  induction n as [|n IH]; intros buf x Hn; [lia|].
  destruct (take_batch_grow buf x) as [G1 G2]. rewrite (drained_step c buf).
  destruct (take_batch buf) as [| |b r] eqn:E.
  - rewrite drained_step, G2 by done. done.
  - cbn [fst snd app]. apply surjective_pairing.
  - rewrite drained_step, (G1 b r) by done. destruct (decompress c b) as [out|]; [|done]. cbn [fst snd].
    rewrite IH; [|apply take_batch_length in E; lia].
    destruct ((drained c r).2); done.
Qed.
Definition finish (x : list text * option text) : list text * bool :=
  match x.2 with None => (x.1, false) | Some rest => (x.1, bool_decide (rest = [])) end.
Lemma read_chunks_whole c chunks : forall buf,
  read_chunks c buf chunks = finish (drained c (buf ++ concat chunks)).
Proof.
  induction chunks as [|chunk chunks IH]; intros buf; cbn [read_chunks concat].
  - rewrite app_nil_r. fold (drained c buf). destruct (drained c buf) as [outs [rest|]]; done.
  - fold (drained c buf). rewrite (drained_app c (S (length buf))) by lia.
    destruct (drained c buf) as [outs [rest|]]; cbn [fst snd]; [|done].
    rewrite IH, <- app_assoc. destruct (drained c (rest ++ chunk ++ concat chunks)) as [o [r|]]; done.
Qed.

Lemma take_batch_push m a b data fr x :
  push_bytes m a b data = Some fr -> take_batch (fr ++ x) = TakeBatch data x /\ length fr = (16 + length data)%nat.
Proof.
  unfold push_bytes. destruct (decide _) as [|Hl]; [done|]. intros H%(inj Some). subst fr.
  set (h := be_bytes 4 m ++ be_bytes 4 a ++ be_bytes 4 b).
  set (ln := be_bytes 4 (N.of_nat (length data))).
  assert (Hh : length h = 12%nat) by (unfold h; rewrite !app_length, !be_bytes_length; done).
  assert (Hln : length ln = 4%nat) by apply be_bytes_length.
  assert (E : be_bytes 4 m ++ be_bytes 4 a ++ be_bytes 4 b ++ ln ++ data = h ++ ln ++ data)
    by (unfold h; by rewrite <- !app_assoc).
  rewrite E. clearbody h. split; [|rewrite !app_length; lia].
  unfold take_batch. rewrite decide_False by (rewrite !app_length; lia).
  assert (E1 : drop 12 ((h ++ ln ++ data) ++ x) = ln ++ data ++ x)
    by (rewrite <- !app_assoc, <- Hh; apply drop_app).
  rewrite E1, take4 by done. unfold ln. rewrite be_value_bytes by (change (256 ^ N.of_nat 4) with (2 ^ 32); lia).
  fold ln. rewrite decide_False by lia. cbn zeta. rewrite Nat2N.id.
  assert (Hlen : length (h ++ ln ++ data) = (16 + length data)%nat) by (rewrite !app_length; lia).
  rewrite decide_False by (rewrite (app_length _ x), Hlen; lia).
  rewrite <- Hlen, take_app, drop_app. f_equal.
  change 16%nat with (12 + 4)%nat. rewrite <- drop_drop. rewrite <- Hh, drop_app, <- Hln, drop_app. done.
Qed.
(** A piece of a batch is not taken for a batch. *)
Lemma take_batch_partial m a b data fr n :
  push_bytes m a b data = Some fr -> (n < length fr)%nat -> take_batch (take n fr) = TakeMore.
Proof.
  intros Hp Hn. destruct (take_batch_push _ _ _ _ _ [] Hp) as [Ht Hl]. rewrite app_nil_r in Ht.
  destruct (take_batch (take n fr)) as [| |b' r'] eqn:E; [|done|].
  - destruct (take_batch_grow (take n fr) (drop n fr)) as [_ G]. rewrite take_drop in G. by rewrite G in Ht.
  - destruct (take_batch_grow (take n fr) (drop n fr)) as [G _]. rewrite take_drop in G.
    rewrite (G _ _ E) in Ht. injection Ht as -> Hr. apply app_nil in Hr as [-> Hd].
    apply take_batch_length in E. rewrite take_length in E. cbn [length] in E. lia.
Qed.

(** A file: what was pushed, with the data before compression. *)
Definition pushed (c : option format) (raw fr : text) : Prop :=
  Forall is_byte raw /\ exists m a b data, compress c raw = Some data /\ push_bytes m a b data = Some fr.
Lemma drained_file c raws frs x :
  sound_codec c -> Forall2 (pushed c) raws frs ->
  drained c (concat frs ++ x) = (raws ++ (drained c x).1, (drained c x).2).
Proof.
  intros Hs H. induction H as [|raw fr raws frs (Hby & m & a & b & data & Hc & Hp) H IH]; cbn [concat app].
  - by destruct (drained c x).
  - rewrite <- app_assoc, drained_step. destruct (take_batch_push _ _ _ _ _ (concat frs ++ x) Hp) as [-> _].
    rewrite (compress_roundtrip _ _ _ Hs Hby Hc). rewrite IH. done.
Qed.
Lemma read_file c raws frs chunks :
  sound_codec c -> Forall2 (pushed c) raws frs -> concat chunks = concat frs ->
  read_stream c chunks = (raws, true).
Proof.
  intros Hs H Hc. unfold read_stream. rewrite read_chunks_whole. cbn [app]. rewrite Hc.
  rewrite <- (app_nil_r (concat frs)), (drained_file _ raws) by done. cbn. by rewrite app_nil_r.
Qed.
Lemma read_truncated c raws frs n :
  sound_codec c -> Forall2 (pushed c) raws frs -> (n <= length (concat frs))%nat ->
  exists k rest, drained c (take n (concat frs)) = (take k raws, Some rest) /\
    take n (concat frs) = concat (take k frs) ++ rest.
Proof.
  intros Hs H. revert n. induction H as [|raw fr raws frs Hpu H IH]; intros n Hn.
  - exists 0%nat, []. cbn in *. by rewrite take_nil.
  - cbn [concat] in *. destruct (decide (length fr <= n)%nat) as [Hle|Hlt].
    + destruct (IH (n - length fr)%nat) as (k & rest & E1 & E2); [rewrite app_length in Hn; lia|].
      exists (S k), rest. rewrite take_app_ge by lia. cbn [take concat]. rewrite <- app_assoc, <- E2. split; [|done].
      pose proof (drained_file c [raw] [fr] (take (n - length fr) (concat frs)) Hs) as Hd.
      cbn [concat] in Hd. rewrite app_nil_r in Hd. rewrite Hd by (constructor; [done|constructor]).
      rewrite E1. done.
    + exists 0%nat, (take n fr). rewrite take_app_le by lia. cbn [take concat app]. split; [|done].
      destruct Hpu as (_ & m & a & b & data & Hc & Hp).
      rewrite drained_step, (take_batch_partial m a b data) by (done || lia). done.
Qed.

(** ** Record batches *)
Section ipc.
Context {B : Type} (ipc : B -> text) (of_ipc : text -> option (list B)).
Context (Hipc : forall b, of_ipc (ipc b) = Some [b]) (Hbytes : forall b, Forall is_byte (ipc b)).
Lemma decode_loop_fuel n : forall m data, (length data < n)%nat -> (length data < m)%nat ->
  decode_loop of_ipc n data = decode_loop of_ipc m data.
Proof using.
  induction n as [|n IH]; intros m data Hn Hm; [lia|]. destruct m as [|m]; [lia|]. cbn [decode_loop].
  destruct (decide (data = [])); [done|]. destruct (decide _) as [|Hl]; [done|]. cbn zeta.
  destruct (decide _); [done|]. destruct (of_ipc _); [|done]. f_equal. apply IH; rewrite !drop_length; lia.
Qed.
Lemma decode_frames bs frames :
  Forall2 (fun b fr => encode_frame ipc b = Some fr) bs frames ->
  decode_batches of_ipc (concat frames) = Some bs.
Proof using Hipc.
  clear Hbytes.
  unfold decode_batches. intros H. induction H as [|b fr bs frames Hb H IH]; [done|].
  unfold encode_frame in Hb. destruct (decide _) as [|Hl]; [done|]. apply (inj Some) in Hb. subst fr.
  cbn [concat]. set (ln := be_bytes 4 (N.of_nat (length (ipc b)))).
  assert (Hln : length ln = 4%nat) by apply be_bytes_length.
  set (data := (ln ++ ipc b) ++ concat frames).
  assert (Hlen : length data = (4 + length (ipc b) + length (concat frames))%nat)
    by (unfold data; rewrite !app_length; lia).
  assert (E1 : take 4 data = ln) by (unfold data; rewrite <- app_assoc; by apply take4).
  assert (E2 : drop 4 data = ipc b ++ concat frames)
    by (unfold data; rewrite <- app_assoc; rewrite <- Hln; apply drop_app).
  cbn [decode_loop]. clearbody data. rewrite decide_False by (intros ->; cbn in Hlen; lia).
  rewrite decide_False by lia. cbn zeta.
  rewrite E1, E2. unfold ln. rewrite be_value_bytes by (change (256 ^ N.of_nat 4) with (2 ^ 32); lia).
  rewrite Nat2N.id. rewrite decide_False by (rewrite app_length; lia).
  rewrite take_app, drop_app, Hipc. rewrite (decode_loop_fuel _ (S (length (concat frames)))) by lia.
  by rewrite IH.
Qed.
Lemma decode_all_frames bs raws :
  Forall2 (fun b raw => encode_frame ipc b = Some raw) bs raws ->
  forall ok, decode_all of_ipc raws ok = (bs, ok).
Proof using Hipc.
  clear Hbytes.
  intros H ok. induction H as [|b raw bs raws Hb H IH]; [done|]. cbn [decode_all].
  pose proof (decode_frames [b] [raw]) as Hd. cbn [concat] in Hd. rewrite app_nil_r in Hd.
  rewrite Hd by (constructor; [done|constructor]). by rewrite IH.
Qed.
Lemma written_pushed c bs frs :
  Forall2 (fun b fr => exists m a i, write_batch ipc c m a i b = Some fr) bs frs ->
  exists raws, Forall2 (fun b raw => encode_frame ipc b = Some raw) bs raws /\ Forall2 (pushed c) raws frs.
Proof using Hbytes.
  clear Hipc.
  intros H. induction H as [|b fr bs frs (m & a & i & Hw) H (raws & H1 & H2)]; [by exists []|].
  unfold write_batch in Hw. destruct (encode_frame ipc b) as [raw|] eqn:E; [|done]. cbn in Hw.
  destruct (compress c raw) as [data|] eqn:Ec; [|done]. cbn in Hw.
  exists (raw :: raws). split; constructor; try done. split; [|by exists m, a, i, data].
  unfold encode_frame in E. destruct (decide _); [done|]. apply (inj Some) in E. subst raw.
  apply Forall_app. split; [apply be_bytes_are_bytes|apply Hbytes].
Qed.
Lemma read_written c bs frs chunks :
  sound_codec c ->
  Forall2 (fun b fr => exists m a i, write_batch ipc c m a i b = Some fr) bs frs ->
  concat chunks = concat frs ->
  read_batches of_ipc c chunks = (bs, true).
Proof using Hipc Hbytes.
  intros Hs H Hc. destruct (written_pushed _ _ _ H) as (raws & H1 & H2).
  unfold read_batches. rewrite (read_file _ _ _ _ Hs H2 Hc). by apply decode_all_frames.
Qed.
Lemma read_written_truncated c bs frs chunks n :
  sound_codec c ->
  Forall2 (fun b fr => exists m a i, write_batch ipc c m a i b = Some fr) bs frs ->
  concat chunks = take n (concat frs) -> (n <= length (concat frs))%nat ->
  exists k ok, read_batches of_ipc c chunks = (take k bs, ok) /\
    (ok = true -> take n (concat frs) = concat (take k frs)).
Proof using Hipc Hbytes.
  intros Hs H Hc Hn. destruct (written_pushed _ _ _ H) as (raws & H1 & H2).
  destruct (read_truncated _ _ _ n Hs H2 Hn) as (k & rest & E1 & E2).
  exists k, (bool_decide (rest = [])). unfold read_batches, read_stream. rewrite read_chunks_whole.
  cbn [app]. rewrite Hc, E1. unfold finish. cbn [fst snd]. split.
  - apply decode_all_frames. by apply Forall2_take.
  - intros Hr%bool_decide_eq_true. by rewrite E2, Hr, app_nil_r.
Qed.
End ipc.

(** ** Texts *)
Lemma parse_decimal bound n : n < bound -> parse_nat bound (decimal n) = Some n.
Proof.
  intros Hn. unfold parse_nat. pose proof (decimal_digits n) as Hd. pose proof (decimal_nonempty n) as He.
  pose proof (decimal_value n) as Hv.
  assert (E : match decimal n with 43 :: c :: t => c :: t | _ => decimal n end = decimal n).
  { destruct (decimal n) as [|x l]; [done|]. cbn in Hd. apply andb_true_iff in Hd as [Hx _].
    unfold is_digit in Hx. destruct (decide (x = 43)) as [->|Hne]; [done|].
    destruct x as [|p]; [done|]. do 6 (destruct p as [p|p|]; try done). }
  rewrite E. rewrite decide_False by (intros [?|?]; congruence). rewrite Hv, decide_True by done. done.
Qed.
Lemma parse_port_decimal n : n < 65536 -> parse_port (Some (decimal n)) = Some n.
Proof. intros H. unfold parse_port. cbv beta iota delta [mbind option_bind]. by apply parse_decimal. Qed.
Lemma decimal_no_colon n : 58 ∉ decimal n.
Proof.
  intros H. pose proof (decimal_digits n) as Hd. rewrite forallb_forall in Hd.
  apply elem_of_list_In, Hd in H. done.
Qed.
Lemma rsplit_once_app l r : 58 ∉ r -> rsplit_once (l ++ 58 :: r) = Some (l, r).
Proof.
  intros Hr. unfold rsplit_once.
  assert (E : list_find (fun c => c = 58) (rev (l ++ 58 :: r)) = Some (length r, 58)).
  { apply list_find_Some. rewrite rev_app_distr. cbn [rev]. split_and!; [|done|].
    - rewrite <- app_assoc. cbn [app]. rewrite <- (rev_length r). rewrite lookup_app_r by lia.
      by rewrite Nat.sub_diag.
    - intros j y Hj Hlt Hy. subst y. apply Hr. rewrite <- app_assoc in Hj. rewrite lookup_app_l in Hj by (rewrite rev_length; lia).
      apply elem_of_list_lookup_2 in Hj. rewrite elem_of_list_In, <- in_rev, <- elem_of_list_In in Hj. done. }
  rewrite E, app_length. cbn [length]. f_equal.
  replace (length l + S (length r) - S (length r))%nat with (length l) by lia.
  replace (length l + S (length r) - length r)%nat with (S (length l)) by lia.
  rewrite take_app. change (S (length l)) with (1 + length l)%nat. rewrite Nat.add_comm, <- drop_drop, drop_app.
  done.
Qed.
Lemma parse_print_worker w :
  w_host w <> [] -> w_rpc w < 65536 -> w_push w < 65536 -> w_fetch w < 65536 -> w_replicate w < 65536 ->
  parse_worker (print_worker w) = Some w.
Proof.
  destruct w as [host rpc push fetch repl]. cbn [w_host w_rpc w_push w_fetch w_replicate].
  intros Hh H1 H2 H3 H4. unfold parse_worker, print_worker. cbn [w_host w_rpc w_push w_fetch w_replicate].
  assert (E : rsplitn 5 (host ++ [58] ++ decimal rpc ++ [58] ++ decimal push ++ [58] ++ decimal fetch ++ [58] ++ decimal repl) =
    [decimal repl; decimal fetch; decimal push; decimal rpc; host]).
  { cbn [rsplitn].
    replace (host ++ [58] ++ decimal rpc ++ [58] ++ decimal push ++ [58] ++ decimal fetch ++ [58] ++ decimal repl)
      with ((((host ++ 58 :: decimal rpc) ++ 58 :: decimal push) ++ 58 :: decimal fetch) ++ 58 :: decimal repl)
      by (rewrite <- !app_assoc; done).
    rewrite !rsplit_once_app by apply decimal_no_colon. done. }
  rewrite E. cbv beta iota zeta delta [lookup list_lookup].
  rewrite !parse_port_decimal by done. cbv beta iota zeta delta [mbind option_bind]. by rewrite decide_False.
Qed.
Lemma parse_worker_valid s w :
  parse_worker s = Some w ->
  w_host w <> [] /\ w_rpc w < 65536 /\ w_push w < 65536 /\ w_fetch w < 65536 /\ w_replicate w < 65536.
Proof.
  assert (Hp : forall o n, parse_port o = Some n -> n < 65536).
  { intros [o|] n; cbn; [|done]. unfold parse_nat. destruct (decide _); [done|]. destruct (decide _) as [H|]; [|done].
    by intros [= <-]. }
  unfold parse_worker. intros H.
  apply bind_Some in H as (a & Ha & H). apply bind_Some in H as (b & Hb & H). apply bind_Some in H as (c & Hc & H).
  apply bind_Some in H as (d & Hd & H). apply bind_Some in H as (h & Hh & H).
  destruct (decide (h = [])); [done|]. injection H as <-. cbn. split_and!; try done; by eapply Hp.
Qed.
Lemma parse_print_codec c :
  (forall level, c = CZstd level -> (-5 <= level <= 22)%Z) -> parse_codec (print_codec c) = Some c.
Proof.
  intros H. destruct c as [| |level]; [by vm_compute|by vm_compute|].
  specialize (H level eq_refl).
  assert (Hall : forallb (fun i => match parse_codec (print_codec (CZstd (Z.of_nat i - 5))) with
      | Some (CZstd l) => (l =? Z.of_nat i - 5)%Z | _ => false end) (seq 0 28) = true) by by vm_compute.
  rewrite forallb_forall in Hall. specialize (Hall (Z.to_nat (level + 5))).
  assert (Hin : In (Z.to_nat (level + 5)) (seq 0 28)) by (apply in_seq; lia). specialize (Hall Hin).
  replace (Z.of_nat (Z.to_nat (level + 5)) - 5)%Z with level in Hall by lia.
  destruct (parse_codec _) as [[| |l]|]; try done. apply Z.eqb_eq in Hall. by subst.
Qed.
Lemma parse_codec_valid s level : parse_codec s = Some (CZstd level) -> (-5 <= level <= 22)%Z.
Proof.
  unfold parse_codec. destruct (decide _); [done|]. destruct (decide _); [done|]. intros H.
  apply bind_Some in H as (a & _ & H). apply bind_Some in H as (b & _ & H). apply bind_Some in H as (l & _ & H).
  destruct (decide _); [|done]. by injection H as ->.
Qed.
