(** C78: repartition(n) deals every row to exactly one output.  C79: it comes to an end
    whatever the order of its steps, unless its outputs are read one after the other. *)
From stdpp Require Import prelude list numbers.
From Verif.Plan Require Import CoalesceModel RoundRobinModel RoundRobinSpec RoundRobinProofs RoundRobinLiveProofs.

(** For the examples: take the first action of [acts] that is possible, again and again. *)
Fixpoint drive {A} (fuel : nat) (acts : list action) (w : world A) : list action * world A :=
  match fuel with
  | 0 => ([], w)
  | S fuel =>
      match list_find (fun a => is_Some (step w a)) acts with
      | Some (_, a) => match step w a with
                       | Some w' => let '(l, v) := drive fuel acts w' in (a :: l, v)
                       | None => ([], w)
                       end
      | None => ([], w)
      end
  end.
Definition two_inputs : list (list (item nat)) := [[Rows [1; 2; 3; 4]; Rows []; Rows [5; 6]]; [Rows [10]; Rows [20; 30]]].
Definition the_end := drive 100 [Produce 0; Produce 1; Receive 2; Receive 1; Receive 0] (start 1 3 two_inputs).

(** Whatever the order in which tasks and readers take their steps, and whichever readers go
    away: a reader that is told that there is nothing more was given of every input, in order,
    the rows that dealing one by one gives to it, and after them the error if the input fails. *)
Theorem C78_dealt {A} cap n (inputs : list (list (item A))) l w i k input :
  run (start cap n inputs) l = Some w -> k < n -> ended w k = true -> inputs !! i = Some input ->
  exists bs, given w i k = map Batch bs ++ (if fails input then [Error] else []) /\
    concat bs = dealt n (i * n / length inputs) k (rows_of input).
Proof.
  intros Hr Hk He Hi. rewrite (given_all _ _ _ _ _ _ _ _ Hr Hi He).
  destruct (messages_shape n (first_output n i (length inputs)) input k) as [bs Hbs]. exists bs. split; [done|].
  pose proof (messages_dealt n (first_output n i (length inputs)) input k ltac:(lia)) as Hd.
  change (i * n / length inputs) with (first_output n i (length inputs)). rewrite <- Hd; [|apply first_output_lt; [lia|by eapply lookup_lt_Some]|done]. rewrite Hbs.
  rewrite flat_map_app. replace (flat_map message_rows (if fails input then [Error] else [])) with (@nil A) by (by destruct (fails input)).
  rewrite app_nil_r. clear -bs. induction bs as [|b bs IH]; [done|]. cbn. by rewrite IH.
Qed.
Print Assumptions C78_dealt.
Example C78_dealt_example :
  run (start 1 3 two_inputs) the_end.1 = Some the_end.2 /\ ended the_end.2 1 = true /\
  given the_end.2 0 1 = [Batch [2]; Batch [5]] /\ given the_end.2 1 1 = [Batch [10]].
Proof. vm_compute. by split_and!. Qed.
Example C78_error_example :
  let w := (drive 100 [Produce 0; Receive 1; Receive 0] (start 1 2 [[Rows [1; 2; 3]; Fail; Rows [4]]])).2 in
  ended w 0 = true /\ given w 0 0 = [Batch [1; 3]; Error] /\ given w 0 1 = [Batch [2]; Error].
Proof. vm_compute. by split_and!. Qed.

(** At every moment, what a reader was given so far is a beginning of that. *)
Theorem C78_prefix {A} cap n (inputs : list (list (item A))) l w i k input :
  run (start cap n inputs) l = Some w -> k < n -> chan_open w k = true -> inputs !! i = Some input ->
  exists rest, flat_map message_rows (given w i k) ++ rest = dealt n (i * n / length inputs) k (rows_of input).
Proof.
  intros Hr Hk Ho Hi. destruct (given_prefix _ _ _ _ _ _ _ _ Hr Hi Ho) as [rest Hrest].
  exists (flat_map message_rows rest). rewrite <- flat_map_app, Hrest.
  apply messages_dealt; [lia| |done]. apply first_output_lt; [lia|by eapply lookup_lt_Some].
Qed.
Print Assumptions C78_prefix.
Example C78_prefix_example :
  let w := (drive 8 [Receive 2; Receive 1; Receive 0; Produce 0; Produce 1] (start 1 3 two_inputs)).2 in
  chan_open w 0 = true /\ given w 0 0 = [Batch [1; 4]] /\ given w 0 2 = [Batch [3]] /\ ended w 0 = false.
Proof. vm_compute. by split_and!. Qed.

(** When all readers were told that there is nothing more, every row of every input was given
    to one of them, once. *)
Theorem C78_each_once {A} cap n (inputs : list (list (item A))) l w :
  0 < n -> run (start cap n inputs) l = Some w -> (forall k, k < n -> ended w k = true) ->
  flat_map (all_given w) (seq 0 n) ≡ₚ flat_map rows_of inputs.
Proof. intros Hn. apply every_row. lia. Qed.
Print Assumptions C78_each_once.
Example C78_each_once_example :
  forallb (ended the_end.2) (seq 0 3) = true /\ map (all_given the_end.2) (seq 0 3) = [[1; 4; 30]; [2; 5; 10]; [3; 6; 20]].
Proof. vm_compute. by split. Qed.

(** The outputs share the rows of each input evenly. *)
Theorem C78_balanced {A} cap n (inputs : list (list (item A))) l w i input k k' :
  run (start cap n inputs) l = Some w -> k < n -> k' < n -> ended w k = true -> ended w k' = true -> inputs !! i = Some input ->
  length (flat_map message_rows (given w i k)) <= S (length (flat_map message_rows (given w i k'))).
Proof.
  intros Hr Hk Hk' He He' Hi. rewrite (given_all _ _ _ _ _ _ _ _ Hr Hi He), (given_all _ _ _ _ _ _ _ _ Hr Hi He').
  assert (first_output n i (length inputs) < n) by (apply first_output_lt; [lia|by eapply lookup_lt_Some]).
  rewrite !messages_dealt by (try done; lia). by apply dealt_balanced.
Qed.
Print Assumptions C78_balanced.
Example C78_balanced_example :
  map (fun k => length (flat_map message_rows (given the_end.2 0 k))) [0; 1; 2] = [2; 2; 2] /\
  map (fun k => length (flat_map message_rows (given the_end.2 1 k))) [0; 1; 2] = [1; 1; 1].
Proof. vm_compute. by split. Qed.

(** When neither a task nor a reader can take a step, every reader that is still there was told
    that there is nothing more. *)
Theorem C79_nothing_hangs {A} cap n (inputs : list (list (item A))) l w :
  0 < cap -> run (start cap n inputs) l = Some w ->
  (forall i, produce w i = None) -> (forall k, receive w k = None) ->
  forall k, chan_open w k = true -> ended w k = true.
Proof. intros Hcap Hr. apply stuck_ended. by rewrite (run_cap _ _ _ Hr). Qed.
Print Assumptions C79_nothing_hangs.
Example C79_nothing_hangs_example :
  let w := the_end.2 in
  map (produce w) [0; 1; 2] = [None; None; None] /\ map (receive w) [0; 1; 2; 3] = [None; None; None; None] /\ chan_open w 2 = true.
Proof. vm_compute. by split_and!. Qed.

(** And that is so after a number of steps that depends only on the inputs. *)
Theorem C79_bounded {A} cap n (inputs : list (list (item A))) l w :
  run (start cap n inputs) l = Some w ->
  length l <= sum_list (map (fun input => (2 * n + 3) * length input + 1) inputs) + n.
Proof. intros Hr. apply run_weight in Hr. rewrite weight_start in Hr. lia. Qed.
Print Assumptions C79_bounded.
Example C79_bounded_example : length the_end.1 = 35.
Proof. done. Qed.

(** repartition(n).coalesce(m) reads some outputs one after the other.  Whatever the size of
    the channels, there is an input without errors with which it never comes to an end: in
    every run, some output is never told that there is nothing more. *)
Theorem C79_in_turn_refuted cap n m : 1 <= m -> m < n -> exists (input : list (item nat)) p first last,
  p < m /\ input_range p n m = (first, last + 1) /\ first < last /\ fails input = false /\
  forall l w, run_in_turn n m (start cap n [input]) l = Some w -> ended w last = false.
Proof. apply never_ends. exact 0. Qed.
Print Assumptions C79_in_turn_refuted.
(** repartition(3).coalesce(2) with room for two batches and three batches: everything that can
    happen has happened, and the second range has one of its two outputs to read. *)
Example C79_in_turn_example :
  let w := (drive 100 [Produce 0; Receive 0; Receive 1] (start 2 3 [replicate 3 (Rows [1; 2; 3])])).2 in
  input_range 1 3 2 = (1, 3) /\ produce w 0 = None /\ receive w 0 = None /\ receive w 1 = None /\
  map (ended w) [0; 1; 2] = [false; false; false] /\ in_turn 3 2 w (Receive 2) = false.
Proof. vm_compute. by split_and!. Qed.
