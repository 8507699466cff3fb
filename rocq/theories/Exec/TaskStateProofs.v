From stdpp Require Import prelude list.
From Verif.Exec Require Import TaskStateModel TaskStateSpec.

Lemma finished_terminal s : finished s <-> is_terminal s = true.
Proof. unfold finished. destruct s; simpl; naive_solver. Qed.

Lemma consolidate_progress a b : progress a <= progress (consolidate a b).
Proof. destruct a, b; simpl; lia. Qed.

Lemma consolidate_progress_r a b : progress b <= progress (consolidate a b).
Proof. destruct a, b; simpl; lia. Qed.

Lemma consolidate_terminal a b : is_terminal a = true -> consolidate a b = a.
Proof. destruct a; simpl; done. Qed.

Lemma consolidate_id a : consolidate a a = a.
Proof. by destruct a. Qed.

Lemma after_reports_app i l m : after_reports i (l ++ m) = after_reports (after_reports i l) m.
Proof. apply foldl_app. Qed.

Lemma after_reports_progress i l : progress i <= progress (after_reports i l).
Proof.
  revert i. induction l as [|x l IH]; intros i; simpl; [lia|].
  pose proof (IH (consolidate i x)). pose proof (consolidate_progress i x). unfold after_reports in *. lia.
Qed.

Lemma after_reports_monotone i l m :
  progress (after_reports i l) <= progress (after_reports i (l ++ m)).
Proof. rewrite after_reports_app. apply after_reports_progress. Qed.

Lemma after_reports_terminal i l : is_terminal i = true -> after_reports i l = i.
Proof.
  revert i. induction l as [|x l IH]; intros i Hi; [done|].
  simpl. rewrite consolidate_terminal by done. by apply IH.
Qed.

Lemma after_reports_sticky i l m :
  finished (after_reports i l) -> after_reports i (l ++ m) = after_reports i l.
Proof.
  intros Hf%finished_terminal. rewrite after_reports_app. by apply after_reports_terminal.
Qed.

Lemma consolidate_max a b :
  ~ finished a -> ~ finished b ->
  ~ finished (consolidate a b) /\ (consolidate a b = a \/ consolidate a b = b) /\
  progress a <= progress (consolidate a b) /\ progress b <= progress (consolidate a b).
Proof. unfold finished. destruct a, b; simpl; naive_solver lia. Qed.

Lemma consolidate_finishes a b : ~ finished a -> finished b -> consolidate a b = b.
Proof. unfold finished. destruct a, b; simpl; naive_solver. Qed.

Lemma after_reports_final i l : final_status i l (after_reports i l).
Proof.
  revert i. induction l as [|x l IH]; intros i.
  - simpl. destruct (decide (is_terminal i = true)) as [Ht|Ht].
    + eapply (fs_finished _ _ [] i []); [done|by apply finished_terminal|set_solver].
    + apply fs_advanced; [set_solver| |].
      * intros y Hy. assert (y = i) as -> by set_solver. by rewrite finished_terminal.
      * intros y Hy. assert (y = i) as -> by set_solver. lia.
  - simpl. destruct (decide (is_terminal i = true)) as [Ht|Ht].
    + rewrite consolidate_terminal by done.
      change (foldl consolidate i l) with (after_reports i l).
      rewrite after_reports_terminal by done.
      eapply (fs_finished _ _ [] i (x :: l)); [done|by apply finished_terminal|set_solver].
    + rewrite <- finished_terminal in Ht.
      destruct (decide (is_terminal x = true)) as [Hx|Hx].
      * rewrite <- finished_terminal in Hx. rewrite consolidate_finishes by done.
        change (foldl consolidate x l) with (after_reports x l).
        rewrite after_reports_terminal by by apply finished_terminal.
        eapply (fs_finished _ _ [i] x l); [done|done|].
        intros y Hy. assert (y = i) as -> by set_solver. done.
      * rewrite <- finished_terminal in Hx.
        destruct (consolidate_max i x Ht Hx) as (Hn & Heq & Hp1 & Hp2).
        specialize (IH (consolidate i x)).
        change (foldl consolidate (consolidate i x) l) with (after_reports (consolidate i x) l).
        revert IH. generalize (after_reports (consolidate i x) l). intros res IH.
        destruct IH as [pre s post Heq' Hf Hpre|s Hs Hnf Hmax].
        -- destruct pre as [|c pre].
           { simplify_eq/=. done. }
           simplify_eq/=.
           eapply (fs_finished _ _ (i :: x :: pre) s post); [done|done|].
           intros y Hy. apply elem_of_cons in Hy as [->|Hy]; [done|].
           apply elem_of_cons in Hy as [->|Hy]; [done|]. apply Hpre. set_solver.
        -- apply fs_advanced.
           ++ apply elem_of_cons in Hs as [->|Hs]; [|set_solver].
              destruct Heq as [->| ->]; set_solver.
           ++ intros y Hy. apply elem_of_cons in Hy as [->|Hy]; [done|].
              apply elem_of_cons in Hy as [->|Hy]; [done|]. apply Hnf. set_solver.
           ++ intros y Hy.
              assert (progress (consolidate i x) <= progress s) by (apply Hmax; set_solver).
              apply elem_of_cons in Hy as [->|Hy]; [lia|].
              apply elem_of_cons in Hy as [->|Hy]; [lia|]. apply Hmax. set_solver.
Qed.

Lemma final_status_unique_progress i l s s' :
  final_status i l s -> final_status i l s' -> s = s'.
Proof.
  intros H1 H2. destruct H1 as [pre s post Heq Hf Hpre|s Hs Hnf Hmax].
  - destruct H2 as [pre' s' post' Heq' Hf' Hpre'|s' Hs' Hnf' Hmax'].
    + rewrite Heq in Heq'. clear Heq. revert pre' Heq' Hpre'. induction pre as [|a pre IH]; intros [|b pre'] Heq' Hpre'; simplify_eq/=; try done.
      * exfalso. eapply Hpre'; [|exact Hf]. set_solver.
      * exfalso. eapply Hpre; [|exact Hf']. set_solver.
      * eapply IH; eauto; intros; [apply Hpre|apply Hpre']; set_solver.
    + exfalso. eapply Hnf'; [|exact Hf]. rewrite Heq. set_solver.
  - destruct H2 as [pre' s' post' Heq' Hf' Hpre'|s' Hs' Hnf' Hmax'].
    + exfalso. eapply Hnf; [|exact Hf']. rewrite Heq'. set_solver.
    + pose proof (Hmax _ Hs'). pose proof (Hmax' _ Hs).
      pose proof (Hnf _ Hs). pose proof (Hnf' _ Hs').
      unfold finished in *. destruct s, s'; simpl in *; naive_solver lia.
Qed.
