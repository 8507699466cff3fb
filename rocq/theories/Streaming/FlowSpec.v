(** What a query returns, regardless of streaming. *)
From stdpp Require Import prelude list.
From Verif.Streaming Require Import FlowModel.

Section spec.
Context {R M : Type}.

(** The rows an event adds ([false]) or takes back ([true]). *)
Definition event_rows (ret : bool) (e : event R M) : list R :=
  match e with
  | Data rows => omap (fun '(b, r) => if Bool.eqb b ret then Some r else None) rows
  | Marker _ => []
  end.
Definition source_rows (ret : bool) (parts : list (list (event R M))) : list R :=
  concat (map (event_rows ret) (concat parts)).

(** The rows with their flags and the markers in the order of their events. *)
Definition event_items (e : event R M) : list ((bool * R) + M) :=
  match e with Data rows => map inl rows | Marker m => [inr m] end.

Definition keeps (c : R -> option (option bool)) (o : option R) : option (option R) :=
  match o with
  | None => Some None
  | Some r => match c r with
              | None => Some None
              | Some (Some true) => Some (Some r)
              | Some _ => None
              end
  end.

(** Rows of a query in some order; [None] is a row on which an expression fails. *)
Inductive result : plan R M -> list (option R) -> Prop :=
| res_source ph parts rows :
    source_rows false parts ≡ₚ source_rows true parts ++ rows ->
    result (Source ph parts) (map Some rows)
| res_project f p rows : result p rows -> result (Project f p) (map (fun o => r ← o; f r) rows)
| res_filter c p rows : result p rows -> result (Filter c p) (omap (keeps c) rows)
| res_union p q rows1 rows2 rows :
    result p rows1 -> result q rows2 -> rows ≡ₚ rows1 ++ rows2 -> result (Union p q) rows
| res_limit ph skip fetch p rows :
    result p rows ->
    result (Limit ph skip fetch p)
      (match fetch with Some n => take n (drop skip rows) | None => drop skip rows end)
| res_regroup p rows : result p rows -> result (Regroup p) rows.

(** No source retracts rows. *)
Fixpoint append_only (p : plan R M) : Prop :=
  match p with
  | Source _ parts =>
      Forall (Forall (fun e => match e with
                               | Data rows => Forall (fun r => r.1 = false) rows
                               | Marker _ => True
                               end)) parts
  | Project _ q | Filter _ q | Limit _ _ _ q | Regroup q => append_only q
  | Union q r => append_only q /\ append_only r
  end.

(** The data part of the marker rows that leave a plan. *)
Fixpoint placeholders (p : plan R M) (r : R) : Prop :=
  match p with
  | Source ph _ => r = ph
  | Project f q => exists r', placeholders q r' /\ f r' = Some r
  | Filter _ q | Regroup q => placeholders q r
  | Limit ph _ _ _ => r = ph
  | Union q q' => placeholders q r \/ placeholders q' r
  end.

(** No expression fails on a row it can be given: [data] for data rows, [marks] for the
    placeholder rows of markers. *)
Fixpoint data_safe (p : plan R M) : Prop :=
  match p with
  | Source _ _ => True
  | Project f q => data_safe q /\ forall rows r, result q rows -> Some r ∈ rows -> is_Some (f r)
  | Filter c q => data_safe q /\ forall rows r, result q rows -> Some r ∈ rows -> is_Some (c r)
  | Limit _ _ _ q | Regroup q => data_safe q
  | Union q r => data_safe q /\ data_safe r
  end.
Fixpoint marker_safe (p : plan R M) : Prop :=
  match p with
  | Source _ _ => True
  | Project f q => marker_safe q /\ forall r, placeholders q r -> is_Some (f r)
  | Filter c q => marker_safe q /\ forall r, placeholders q r -> is_Some (c r)
  | Limit _ _ _ q | Regroup q => marker_safe q
  | Union q r => marker_safe q /\ marker_safe r
  end.

(** The markers of the sources of a plan without limit. *)
Fixpoint source_markers (p : plan R M) : list M :=
  match p with
  | Source _ parts =>
      omap (fun e => match e with Marker m => Some m | Data _ => None end) (concat parts)
  | Project _ q | Filter _ q | Limit _ _ _ q | Regroup q => source_markers q
  | Union q r => source_markers q ++ source_markers r
  end.
Fixpoint no_limit (p : plan R M) : Prop :=
  match p with
  | Source _ _ => True
  | Project _ q | Filter _ q | Regroup q => no_limit q
  | Union q r => no_limit q /\ no_limit r
  | Limit _ _ _ _ => False
  end.
End spec.
