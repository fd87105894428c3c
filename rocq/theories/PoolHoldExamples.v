(** Concrete executions of the thread pool with the callables it owns. *)
From Coq Require Import List Bool Arith ZArith Lia.
From Verif Require Import ListUpdate PoolModel PoolHoldModel PoolSpec PoolProofs PoolLive PoolStop PoolWait PoolDue PoolExamples PoolHoldProofs.
Import ListNotations.

Local Ltac side := first [reflexivity | exact I | left; reflexivity | right; exists 0; eexists; reflexivity | solve [cbv; tauto]
  | intros [|[|[|i]]]; discriminate | solve [repeat constructor]].
Local Ltac compute_it := match goal with |- ?a = ?b => let x := eval vm_compute in a in unify b x; vm_cast_no_check (@eq_refl _ x) end.
Local Tactic Notation "cli" hyp(E) uconstr(c) :=
  eapply exec_go in E; [|split; [reflexivity|left; eapply c; side]|compute_it|compute_it].
Local Tactic Notation "int" hyp(E) uconstr(c) :=
  eapply exec_go in E; [|split; [reflexivity|right; left; eapply c; side]|compute_it|compute_it].

(** run_sync has returned, the worker has not locked the mutex again *)
Lemma sync_still_owned : exists tr s, exec no_throw no_deps (initial 1 0) tr s /\ In (ESyncReturned 0) tr /\ finishes tr = [0] /\
  In 0 (owned s) /\ active_tasks_size s = 1 /\ tasks_size s = 1 /\ nth_error (workers s) 0 = Some (WAfter 0) /\ status s = Alive.
Proof.
  pose proof (exec_nil no_throw no_deps (initial 1 0)) as E.
  cli E (c_run_sync _ 32%Z). int E (i_work _ _ _ 0). int E (i_finish _ _ _ 0).
  eapply exec_go in E; [|split; [reflexivity|right; left; eapply (i_sync_return _ _ _ [] []); [reflexivity|cbn; tauto]]|compute_it|compute_it].
  do 2 eexists. split; [exact E|]. repeat split; cbn; tauto.
Qed.
(** one task scheduled, one waiting, one running *)
Lemma three_owned : exists tr s, exec no_throw no_deps (initial 1 0) tr s /\ givens tr = [0; 1; 2] /\ starts tr = [0] /\ owned s = [2; 1; 0].
Proof.
  pose proof (exec_nil no_throw no_deps (initial 1 0)) as E.
  cli E (c_run_async _ 0%Z). int E (i_work _ _ _ 0). cli E (c_run_async _ 0%Z). cli E (c_run_at _ 9%Z 0%Z).
  do 2 eexists. split; [exact E|]. repeat split.
Qed.
(** wait_until_all_tasks_complete returns while a task is scheduled *)
Lemma wait_all_case : exists tr s s', exec no_throw no_deps (initial 1 0) tr s /\ step no_throw no_deps s (EAllReturned 0) s' /\ finishes tr = [0] /\ owned s' = [1].
Proof.
  pose proof (exec_nil no_throw no_deps (initial 1 0)) as E.
  cli E (c_run_async _ 0%Z). cli E (c_run_at _ 9%Z 0%Z). cli E c_wait_all. int E (i_work _ _ _ 0). int E (i_finish _ _ _ 0). int E (i_work _ _ _ 0).
  do 3 eexists. split; [exact E|]. split; [split; [reflexivity|]; right; left;
    match goal with |- internal _ _ ?s _ _ => exact (i_check_all no_throw no_deps s 0 eq_refl) end|]. repeat split.
Qed.
Lemma destroyed_case : exists tr s, exec no_throw no_deps (initial 1 0) tr s /\ dtor s = DDone /\ starts tr = [0] /\ owned s = [1].
Proof.
  pose proof (exec_nil no_throw no_deps (initial 1 0)) as E.
  cli E (c_run_async _ 0%Z). int E (i_work _ _ _ 0). cli E (c_run_async _ 0%Z). cli E c_destroy. int E (i_finish _ _ _ 0). int E (i_work _ _ _ 0).
  int E d_notify_workers. int E d_notify_scheds. int E d_join_workers. int E d_join_none.
  do 2 eexists. split; [exact E|]. repeat split.
Qed.
