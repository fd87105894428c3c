(** Proofs about the callables that the thread pool owns. *)
From Coq Require Import List Bool Arith ZArith Lia Permutation.
From Verif Require Import ListUpdate PoolModel PoolHoldModel PoolSpec PoolProofs PoolLive PoolStop PoolWait PoolDue PoolExamples.
Import ListNotations.

Local Arguments Nat.ltb : simpl never.
Local Arguments workers_size : simpl never.

Definition after_task (w : wpc) : list nat := match w with WAfter t => [t] | _ => [] end.
Definition afters (x : nat) (w : wpc) : nat := cnt (after_task w) x.
Lemma wake_afters x l : sum_of (afters x) (map wake_worker l) = sum_of (afters x) l.
Proof. induction l as [|w l IH]; [reflexivity|]. cbn [map sum_of]. rewrite IH. destruct w; reflexivity. Qed.
Lemma local_cnt x l : cnt (flat_map local_task l) x = sum_of (runs x) l + sum_of (afters x) l.
Proof.
  induction l as [|w l IH]; [reflexivity|]. cbn [flat_map sum_of]. rewrite cnt_app, IH. unfold runs, afters.
  destruct w; cbn [local_task running_task after_task]; rewrite ?cnt_nil; lia.
Qed.

Section Proofs.
Variable throws : nat -> bool.
Variable deps : nat -> list nat.
Notation step := (step throws deps).
Notation exec := (exec throws deps).

Ltac rs' := unfold runs, afters in *; cbn [running_task after_task] in *; rewrite ?cnt_cons, ?cnt_nil in *.
Lemma step_afters s e s' x : step s e s' -> sum_of (afters x) (workers s) <= cnt (completed s) x -> sum_of (afters x) (workers s') <= cnt (completed s') x.
Proof.
  intros H L. cases H; unfold goto, sgoto, submit; cbn; rewrite ?wake_afters; try assumption;
    try (upd (afters x); destruct w; try contradiction; rs'; cbn in *; lia);
    try (upd (afters x); rs'; cbn in *; lia).
  - destruct (sched_obj s); [dif|]; cbn; assumption.
  - destruct (stopping s); [assumption|]. dif; cbn; rewrite sum_app, sum_repeat; rs'; lia.
  - upd (afters x). destruct (stopping s); destruct w; try contradiction; rs'; cbn in *; lia.
  - destruct (sched_obj s); cbn; assumption.
Qed.
Lemma exec_afters n clock tr s x : exec (initial n clock) tr s -> sum_of (afters x) (workers s) <= cnt (completed s) x.
Proof.
  induction 1 as [|tr s e s' H IH S]; [|eapply step_afters; eauto]. cbn [initial workers completed]. rewrite sum_repeat. unfold afters. cbn [after_task]. rewrite !cnt_nil, Nat.mul_0_r. apply Nat.le_0_l.
Qed.
Lemma owned_cnt s x : cnt (owned s) x = cnt (map id_of (scheduled s)) x + cnt (map snd (waiting s)) x + sum_of (runs x) (workers s) + sum_of (afters x) (workers s).
Proof. unfold owned. rewrite !cnt_app, local_cnt. change (cnt (map id_of (scheduled s)) x + (cnt (map snd (waiting s)) x + (sum_of (runs x) (workers s) + sum_of (afters x) (workers s))) = cnt (map id_of (scheduled s)) x + cnt (map snd (waiting s)) x + sum_of (runs x) (workers s) + sum_of (afters x) (workers s)). lia. Qed.

(** one callable for each task at most; it exists until the task has finished *)
Lemma owned_proof n clock tr s : exec (initial n clock) tr s ->
  NoDup (owned s) /\ incl (owned s) (givens tr) /\ (forall t, In t (givens tr) -> ~ In t (finishes tr) -> In t (owned s)) /\
  (forall t, In t (owned s) -> In t (finishes tr) -> exists i, nth_error (workers s) i = Some (WAfter t)).
Proof.
  intros H. pose proof (exec_invA _ _ _ _ _ _ H) as [_ P _ _]. destruct (exec_invT _ _ _ _ _ _ H) as [_ TF TG _ _ _ _ _ _ _ _].
  pose proof (fun x => exec_afters _ _ _ _ x H) as A. unfold total in P.
  assert (B : forall x, (if x <? next s then 1 else 0) <= 1) by (intros x; destruct (x <? next s); lia).
  split; [apply nodup_of_cnt; intros x; rewrite owned_cnt; specialize (P x); specialize (A x); specialize (B x); lia|].
  split; [intros x I; apply cnt_in in I; apply cnt_in; rewrite owned_cnt in I; specialize (P x); specialize (A x); specialize (TG x); lia|].
  split.
  - intros x I N. apply cnt_in. apply cnt_in in I. rewrite owned_cnt. rewrite cnt_in in N. specialize (P x). specialize (TG x). specialize (TF x). lia.
  - intros x I F. apply cnt_in in I. apply cnt_in in F. rewrite owned_cnt in I. specialize (P x). specialize (TF x). specialize (B x).
    assert (G : 0 < sum_of (afters x) (workers s)) by lia. clear - G. induction (workers s) as [|w l IH]; cbn in G; [lia|].
    destruct (Nat.eq_dec (sum_of (afters x) l) 0) as [Z|Z].
    + exists 0. unfold afters in G at 1. destruct w; cbn in G; rewrite ?cnt_nil in G; try lia. rewrite cnt_cons, cnt_nil in G.
      destruct (Nat.eq_dec t x) as [->|N]; [reflexivity|]. rewrite one_other in G by congruence. lia.
    + destruct IH as (i & E); [lia|]. exists (S i). exact E.
Qed.
Lemma no_busy_local l : filter busy l = [] -> flat_map local_task l = [].
Proof. induction l as [|w l IH]; [reflexivity|]. destruct w; cbn; intros E; try discriminate; auto. Qed.
Lemma wait_all_owned n clock tr s k s' : exec (initial n clock) tr s -> step s (EAllReturned k) s' -> owned s' = scheduled_tasks s'.
Proof.
  intros H S. destruct (all_returns_idle_proof _ _ _ _ _ _ _ _ H S) as (W & _ & B).
  assert (E : workers s' = workers s /\ waiting s' = waiting s).
  { destruct S as [_ [X|[X|[X|X]]]]; inversion X; subst; cbn; auto.
    - destruct (work_cases i w s) as [(_ & _ & V)|[(p & t0 & rest & _ & _ & V)|(_ & V)]]; rewrite V in *; discriminate.
    - destruct (sched_move_frame j e s) as [(_ & V)|(_ & c & o & st & V)]; rewrite V in *; discriminate. }
  destruct E as [E1 E2]. unfold owned. rewrite E1, E2, (no_busy_local _ B). unfold waiting_tasks in W. rewrite W. apply app_nil_r.
Qed.
Lemma quiescent_owned n clock tr s : exec (initial n clock) tr s -> quiescent throws deps s -> forall t, In t (finishes tr) -> ~ In t (owned s).
Proof.
  intros H Q t F I. destruct (owned_proof _ _ _ _ H) as (_ & _ & _ & A). destruct (A t I F) as (i & E).
  exact (Q _ _ (i_work throws deps s i (WAfter t) E Logic.I)).
Qed.
(** the next critical section of the worker destroys it *)
Lemma released_proof n clock tr s i t s' : exec (initial n clock) tr s -> nth_error (workers s) i = Some (WAfter t) ->
  s' = snd (work_from i (WAfter t) s) -> status s = Alive -> In t (owned s) /\ ~ In t (owned s').
Proof.
  intros H E -> AL. assert (St : step s (fst (work_from i (WAfter t) s)) (snd (work_from i (WAfter t) s))) by (split; [exact AL|right; left; constructor; [exact E|exact Logic.I]]).
  pose proof (exec_snoc _ _ _ _ _ _ _ H St) as H'.
  assert (I : In t (owned s)).
  { unfold owned. rewrite !in_app_iff. right. right. apply in_flat_map. exists (WAfter t). split; [eapply nth_error_In; eauto|left; reflexivity]. }
  split; [exact I|]. pose proof (exec_afters _ _ _ _ t H) as A. pose proof (exec_invA _ _ _ _ _ _ H) as [_ P _ _]. specialize (P t). unfold total in P.
  pose proof (exec_invA _ _ _ _ _ _ H') as [_ P' _ _]. specialize (P' t). unfold total in P'.
  assert (B : forall n, (if t <? n then 1 else 0) <= 1) by (intros m; destruct (t <? m); lia). pose proof (B (next s)). pose proof (B (next (snd (work_from i (WAfter t) s)))).
  pose proof (sum_ge (afters t) i _ _ E) as G. assert (G1 : afters t (WAfter t) = 1) by (unfold afters; cbn; rewrite cnt_cons, cnt_nil, one_self; reflexivity).
  rewrite cnt_in, owned_cnt.
  assert (K : completed (snd (work_from i (WAfter t) s)) = completed s /\ S (sum_of (afters t) (workers (snd (work_from i (WAfter t) s)))) = sum_of (afters t) (workers s)).
  { destruct (work_cases i (WAfter t) s) as [(_ & _ & V)|[(p & t0 & rest & _ & _ & V)|(_ & V)]]; rewrite V; unfold goto; cbn; split; try reflexivity; try (dif; reflexivity);
      upd (afters t); try (destruct (stopping s)); rs'; cbn in *; rewrite ?one_self in *; try lia. }
  destruct K as [K1 K2]. rewrite K1 in P'. lia.
Qed.
Lemma destroyed_owned n clock tr s : exec (initial n clock) tr s -> dtor s = DDone -> owned s = scheduled_tasks s ++ waiting_tasks s /\
  forall t, In t (starts tr) -> ~ In t (owned s).
Proof.
  intros H D. pose proof (done_ended _ _ _ _ _ _ H D) as F.
  assert (E : flat_map local_task (workers s) = []).
  { revert F. clear. induction (workers s) as [|w l IH]; intros F; [reflexivity|]. inversion F as [|? ? W F']; subst. destruct W as [-> | ->]; exact (IH F'). }
  assert (O : owned s = scheduled_tasks s ++ waiting_tasks s) by (unfold owned; rewrite E, app_nil_r; reflexivity). split; [exact O|].
  intros t T I. rewrite O in I. destruct (exec_invA _ _ _ _ _ _ H) as [_ P _ _]. destruct (exec_invT _ _ _ _ _ _ H) as [TS _ _ _ _ _ _ _ _ _ _].
  specialize (P t). specialize (TS t). unfold total in P. apply cnt_in in T. apply cnt_in in I. rewrite cnt_app in I.
  change (scheduled_tasks s) with (map id_of (scheduled s)) in I. unfold waiting_tasks in I. destruct (t <? next s); lia.
Qed.
End Proofs.
