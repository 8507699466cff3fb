(** Model of the stream a client reads the result of a job from.
    Source: crates/sail-execution/src/driver/output.rs. *)
From stdpp Require Import prelude list.
From Verif.Exec Require Import JobModel.

Section output.
Context {A : Type}. (* rows *)

(** What polling one task stream yields, in order; the end of the list is the end
    of the stream.  A batch is its list of rows. *)
Inductive item := Batch (rows : list A) | Fault.

(** output.rs:214-228 [TaskStreamWrapper]: key, the stream unless muted, and the
    number of rows it has delivered. *)
Record wrapper := Wrapper { wr_key : stream_key; wr_inner : option (list item); wr_count : nat }.

(** output.rs:124-136 [JobOutputState]; [Modifying] is only a placeholder inside one
    poll.  The members of a [SelectAll] are listed in the order they were pushed. *)
Inductive out_state :=
| OActive (inner : list wrapper)
| ODraining (inner : list wrapper)
| OCompleted
| OFailed.

(** The test of output.rs:230-236 and 239-244, without the row count: same task and
    channel, any attempt.  The job id is the same for all streams of one job. *)
Definition same_slot (k k' : stream_key) : bool :=
  bool_decide (tk_stage (sk_task k) = tk_stage (sk_task k')) &&
  bool_decide (tk_partition (sk_task k) = tk_partition (sk_task k')) &&
  bool_decide (sk_channel k = sk_channel k').
(** output.rs:230-236 *)
Definition conflicts_with (k : stream_key) (w : wrapper) : bool :=
  same_slot (wr_key w) k && (0 <? wr_count w).
(** output.rs:238-246 *)
Definition mute_if_needed (k : stream_key) (w : wrapper) : wrapper :=
  if same_slot (wr_key w) k then Wrapper (wr_key w) None (wr_count w) else w.

(** What the client receives; the key of a batch is kept for the specification, the
    code only passes the rows on. *)
Inductive received := Rows (k : stream_key) (rows : list A) | RError | REnd.

(** The things that can happen: an item is received by output.rs:152-183, the sender
    is gone (output.rs:180-182), or the [SelectAll] polls its member [i] and that
    member is ready (output.rs:189-211).  Which ready member is polled is up to the
    executor. *)
Inductive out_event :=
| EStream (k : stream_key) (content : list item)
| EError
| EClose
| EPoll (i : nat)
| EFinish. (* the drained [SelectAll] is empty: output.rs:205-208 *)

(** output.rs:251-263 [TaskStreamWrapper::poll_next]: [None] is the end, upon which
    [SelectAll] drops the member. *)
Definition poll_wrapper (w : wrapper) : option (item * wrapper) :=
  match wr_inner w with
  | None => None
  | Some [] => None
  | Some (Batch rows :: rest) =>
      Some (Batch rows, Wrapper (wr_key w) (Some rest) (wr_count w + length rows))
  | Some (Fault :: rest) => Some (Fault, Wrapper (wr_key w) (Some rest) (wr_count w))
  end.
Definition poll_inner (i : nat) (inner : list wrapper) : list wrapper * list received :=
  match inner !! i with
  | None => (inner, [])
  | Some w =>
      match poll_wrapper w with
      | None => (delete i inner, [])
      | Some (Batch rows, w') => (<[i := w']> inner, [Rows (wr_key w) rows])
      | Some (Fault, w') => (<[i := w']> inner, [RError])
      end
  end.

Definition out_step (s : out_state) (e : out_event) : out_state * list received :=
  match s, e with
  | OActive inner, EStream k content =>
      if existsb (conflicts_with k) inner then (OFailed, [RError])
      else (OActive (map (mute_if_needed k) inner ++ [Wrapper k (Some content) 0]), [])
  | OActive _, EError => (OFailed, [RError])
  | OActive inner, EClose => (ODraining inner, [])
  | OActive inner, EPoll i =>
      let '(inner', out) := poll_inner i inner in (OActive inner', out)
  | ODraining inner, EPoll i =>
      let '(inner', out) := poll_inner i inner in (ODraining inner', out)
  | ODraining [], EFinish => (OCompleted, [REnd])
  | _, _ => (s, [])
  end.

Definition out_init : out_state := OActive [].
Fixpoint out_run (s : out_state) (es : list out_event) : out_state * list received :=
  match es with
  | [] => (s, [])
  | e :: es' =>
      let '(s1, o1) := out_step s e in
      let '(s2, o2) := out_run s1 es' in (s2, o1 ++ o2)
  end.
End output.
Arguments item : clear implicits.
Arguments wrapper : clear implicits.
Arguments out_state : clear implicits.
Arguments received : clear implicits.
Arguments out_event : clear implicits.
