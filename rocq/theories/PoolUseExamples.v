(** Concrete executions for PoolUseProps.v. *)
From Coq Require Import List Bool Arith ZArith Lia.
From Verif Require Import Base ListUpdate PoolModel PoolSpec PoolProofs PoolLive PoolStop PoolExamples PoolUseModel PoolUseProofs.
Import ListNotations.

Local Ltac side := first [reflexivity | exact I | left; reflexivity | right; exists 0; eexists; reflexivity | solve [cbv; tauto]
  | intros [|[|[|i]]]; discriminate | solve [repeat constructor] | solve [vm_compute; discriminate]].
Local Ltac compute_it := match goal with |- ?a = ?b => let x := eval vm_compute in a in unify b x; vm_cast_no_check (@eq_refl _ x) end.
Local Tactic Notation "cli" hyp(E) uconstr(c) :=
  eapply exec_go in E; [|split; [reflexivity|left; eapply c; side]|compute_it|compute_it].
Local Tactic Notation "int" hyp(E) uconstr(c) :=
  eapply exec_go in E; [|split; [reflexivity|right; left; eapply c; side]|compute_it|compute_it].
Local Tactic Notation "tik" hyp(E) constr(z) :=
  eapply exec_go in E; [|split; [reflexivity|right; right; right; exact (tk _ z)]|compute_it|compute_it].

(** with two workers, the task of the lower priority finishes first *)
Lemma completed_out_of_order : exists tr s, exec no_throw no_deps (initial 2 0) tr s /\
  tr = [ESubmit 0 0; ESubmit 1 5; EStart 0 1; EStart 1 0; EFinish 0; EFinish 1].
Proof.
  pose proof (exec_nil no_throw no_deps (initial 2 0)) as E.
  cli E (c_run_async _ 0%Z). cli E (c_run_async _ 5%Z). int E (i_work _ _ _ 0). int E (i_work _ _ _ 1). int E (i_finish _ _ _ 1). int E (i_finish _ _ _ 0).
  do 2 eexists. split; [exact E|reflexivity].
Qed.
Lemma completed_in_order : exists s s', exec no_throw no_deps (initial 1 0) [ESubmit 0 0; ESubmit 1 5; EStart 0 1; EFinish 1] s /\
  step no_throw no_deps s (EStart 0 0) s'.
Proof.
  pose proof (exec_nil no_throw no_deps (initial 1 0)) as E.
  cli E (c_run_async _ 0%Z). cli E (c_run_async _ 5%Z). int E (i_work _ _ _ 0). int E (i_finish _ _ _ 0).
  match type of E with exec _ _ _ _ ?s => pose proof (i_work no_throw no_deps s 0 (WAfter 1) eq_refl I) as S end.
  do 2 eexists. split; [exact E|]. split; [reflexivity|]. right. left. exact S.
Qed.
(** three workers at most *)
Lemma bounded_execution : exists tr s, exec no_throw no_deps (initial 1 0) tr s /\ tr = [ETarget 3; ETarget 2] /\ workers_size s = 3 /\
  forall m, In (ETarget m) tr -> m <= 3.
Proof.
  pose proof (exec_nil no_throw no_deps (initial 1 0)) as E. cli E (c_target _ 3). cli E (c_target _ 2).
  do 2 eexists. split; [exact E|]. split; [reflexivity|]. split; [reflexivity|].
  intros m [X|[X|[]]]; injection X as <-; lia.
Qed.

(** task 0 waits for something that does not happen (99 is no task): here, for the return of its call of a wait function *)
Definition waits_all : nat -> list nat := fun t => match t with 0 => [99] | _ => [] end.
(** task 0 calls wait_until_all_tasks_complete: nothing can happen any more *)
Lemma wait_all_in_task : exists tr s, exec no_throw waits_all (initial 2 0) tr s /\ quiescent no_throw waits_all s /\ stopping s = false /\
  running s = [0] /\ nth_error (all_waiters s) 0 = Some CBlocked.
Proof.
  pose proof (exec_nil no_throw waits_all (initial 2 0)) as E.
  cli E (c_run_async _ 0%Z). int E (i_work _ _ _ 0). int E (i_work _ _ _ 1). cli E c_wait_all. int E (i_check_all _ _ _ 0).
  int E (i_notify_one _ _ _ 1). int E (i_work _ _ _ 1).
  do 2 eexists. split; [exact E|]. split; [apply idle_quiescent; reflexivity|]. repeat split.
Qed.
(** the only worker's task calls wait_until_no_tasks_waiting while another task waits *)
Lemma wait_none_in_task : exists tr s, exec no_throw waits_all (initial 1 0) tr s /\ quiescent no_throw waits_all s /\ stopping s = false /\
  running s = [0] /\ waiting_tasks s = [1] /\ workers_size s = 1 /\ nth_error (none_waiters s) 0 = Some CBlocked.
Proof.
  pose proof (exec_nil no_throw waits_all (initial 1 0)) as E.
  cli E (c_run_async _ 0%Z). int E (i_work _ _ _ 0). cli E (c_run_async _ 0%Z). cli E c_wait_none. int E (i_check_none _ _ _ 0).
  int E i_notify_none. int E i_notify_none.
  do 2 eexists. split; [exact E|]. split; [apply idle_quiescent; reflexivity|]. repeat split.
Qed.

(** a call of run_sync from another thread; the pool is destroyed with join_all before the task starts *)
Lemma sync_lost : exists tr s, exec no_throw no_deps (initial 1 0) tr s /\ quiescent no_throw no_deps s /\ dtor s = DDone /\
  givens tr = [0] /\ starts tr = [] /\ syncs s = [(0, false)].
Proof.
  pose proof (exec_nil no_throw no_deps (initial 1 0)) as E.
  cli E (c_run_sync _ 0%Z). cli E c_destroy. int E (i_work _ _ _ 0). int E i_notify_none. int E d_notify_workers. int E d_notify_scheds.
  int E d_join_workers. int E d_join_none.
  do 2 eexists. split; [exact E|]. split; [apply idle_quiescent; reflexivity|]. repeat split.
Qed.
(** task 0 calls run_sync while the pool is being destroyed, with either action; a second worker has already returned.
    The destructor waits for task 0, and task 0 for a task that nobody runs. *)
Lemma destructor_blocked a : exists tr s, exec no_throw calls_sync (initial 2 0) tr s /\ quiescent no_throw calls_sync s /\
  onStop s = a /\ dtor s = DJoining /\ running s = [0] /\ waiting_tasks s = [1] /\ syncs s = [(1, false)] /\ workers s = [WRun 0; WExited].
Proof.
  pose proof (exec_nil no_throw calls_sync (initial 2 0)) as E.
  cli E (c_on_stop _ a). cli E (c_run_async _ 0%Z). int E (i_work _ _ _ 0). cli E c_destroy.
  destruct a; (int E (i_work _ _ _ 1); cli E (c_run_sync _ 0%Z); int E i_notify_none; int E i_notify_none; int E d_notify_workers;
  int E d_notify_scheds; do 2 eexists; split; [exact E|]; split; [apply idle_quiescent; reflexivity|]; repeat split).
Qed.

(** run_after(duration::max()) at any time after the epoch *)
Lemma after_overflow : forall now, (0 < now < 2 ^ 63)%Z -> after_time now (2 ^ 63 - 1) = Ub.
Proof. intros now H. apply (after_time_proof now (2 ^ 63 - 1)). lia. Qed.
Lemma run_after_execution : exists tr s s' tr' s'', exec no_throw no_deps (initial 1 0) tr s /\ after_time (now s) 5 = Ret 8%Z /\
  step no_throw no_deps s (ERunAt 0 8 0) s' /\ exec no_throw no_deps s' tr' s'' /\ In 0 (entries tr') /\ (0 <= now s)%Z /\
  forall z, In (ETick z) tr -> (z <= now s)%Z.
Proof.
  pose proof (exec_nil no_throw no_deps (initial 1 0)) as E. tik E 3%Z.
  match type of E with exec _ _ _ _ ?s => pose proof (c_run_at s 8%Z 0%Z (or_introl eq_refl)) as S end. cbn in S.
  match type of S with client _ _ ?s => pose proof (exec_nil no_throw no_deps s) as F end.
  int F i_spawn. int F (i_assign _ _ _ 0 [] []). int F (i_sched_loop _ _ _ 0). tik F 9%Z. int F (i_sched_timeout _ _ _ 0). int F (i_sched_move _ _ _ 0).
  do 5 eexists. split; [exact E|]. split; [reflexivity|]. split; [split; [reflexivity|left; exact S]|]. split; [exact F|].
  split; [left; reflexivity|]. split; [vm_compute; discriminate|]. intros z [X|[]]. injection X as <-. vm_compute. discriminate.
Qed.
