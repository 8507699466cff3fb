(** What the state of a Delta table is, after a list of actions: for each file,
    transaction and domain the last action about it counts. *)
From Coq Require Import NArith ZArith.
From stdpp Require Import prelude list gmap.
From Verif.Lib Require Import Text.
From Verif.Delta Require Import ActionModel.
Local Open Scope Z_scope.

(** What an action says about one file, transaction, domain, the protocol and the
    metadata: [None] is nothing. *)
Definition file_event (k : fkey) (a : action) : option (add + remove) :=
  match a with
  | AAdd x => if decide (add_key x = k) then Some (inl x) else None
  | ARemove x => if decide (rm_key x = k) then Some (inr x) else None
  | _ => None
  end.
Definition txn_event (app : text) (a : action) : option txn :=
  match a with ATxn x => if decide (txn_app x = app) then Some x else None | _ => None end.
Definition domain_event (name : text) (a : action) : option domain :=
  match a with ADomain x => if decide (dom_name x = name) then Some x else None | _ => None end.
Definition protocol_event (a : action) : option protocol :=
  match a with AProtocol p => Some p | _ => None end.
Definition metadata_event (a : action) : option metadata :=
  match a with AMetadata m => Some m | _ => None end.

(** The file [k] is live with this [Add]; it is a tombstone with this [Remove]. *)
Definition live_file (acts : list action) (k : fkey) : option add :=
  match last (omap (file_event k) acts) with Some (inl x) => Some x | _ => None end.
Definition tombstone (acts : list action) (k : fkey) : option remove :=
  match last (omap (file_event k) acts) with Some (inr x) => Some x | _ => None end.
Definition live_txn (acts : list action) (app : text) : option txn := last (omap (txn_event app) acts).
Definition live_domain (acts : list action) (name : text) : option domain :=
  match last (omap (domain_event name) acts) with
  | Some d => if dom_removed d then None else Some d
  | None => None
  end.
Definition table_protocol (acts : list action) : option protocol := last (omap protocol_event acts).
Definition table_metadata (acts : list action) : option metadata := last (omap metadata_event acts).

(** [st] is the table after [acts]. *)
Definition is_table (acts : list action) (st : rstate) : Prop :=
  rs_protocol st = table_protocol acts /\
  rs_metadata st = table_metadata acts /\
  (forall k, rs_adds st !! k = live_file acts k) /\
  (forall k, rs_removes st !! k = tombstone acts k) /\
  (forall n, rs_domains st !! n = live_domain acts n) /\
  (forall a, rs_txns st !! a = live_txn acts a).

(** [st] is the table after [acts], except that tombstones and transactions not newer
    than one of the cut-offs may be gone. *)
Definition expired_remove (cuts : list (Z * Z)) (r : remove) : Prop :=
  exists ts c, rm_ts r = Some ts /\ c ∈ cuts /\ ts <= c.1.
Definition expired_txn (cuts : list (Z * Z)) (t : txn) : Prop :=
  exists ts c, txn_updated t = Some ts /\ c ∈ cuts /\ ts <= c.2.
Definition is_table_upto (cuts : list (Z * Z)) (acts : list action) (st : rstate) : Prop :=
  rs_protocol st = table_protocol acts /\
  rs_metadata st = table_metadata acts /\
  (forall k, rs_adds st !! k = live_file acts k) /\
  (forall k, rs_removes st !! k = tombstone acts k \/
             rs_removes st !! k = None /\ exists r, tombstone acts k = Some r /\ expired_remove cuts r) /\
  (forall n, rs_domains st !! n = live_domain acts n) /\
  (forall a, rs_txns st !! a = live_txn acts a \/
             rs_txns st !! a = None /\ exists t, live_txn acts a = Some t /\ expired_txn cuts t).
