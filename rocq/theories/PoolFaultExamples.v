(** Concrete executions in which calls of the thread pool fail. *)
From Coq Require Import List Bool Arith ZArith Lia.
From Verif Require Import ListUpdate PoolModel PoolSpec PoolProofs PoolExamples PoolFaultModel PoolFaultSpec PoolFaultProofs.
Import ListNotations.

(** operation number [k] fails *)
Definition all_but (k : nat) : nat -> bool := fun i => negb (i =? k).

Local Ltac side := first [reflexivity | exact I | left; reflexivity | right; exists 0; eexists; reflexivity | solve [cbv; tauto]
  | intros [|[|[|i]]]; discriminate | solve [repeat constructor] | solve [vm_compute; discriminate]].
Lemma exec_f_go throws deps s0 tr s e s' tr' s'' : exec_f throws deps s0 tr s -> step throws deps s e s' ->
  s' = s'' -> tr ++ [inl e] = tr' -> exec_f throws deps s0 tr' s''.
Proof. intros H1 H2 <- <-. econstructor; eauto. Qed.
Lemma exec_f_go_fail throws deps s0 tr s f s' tr' s'' : exec_f throws deps s0 tr s -> status s = Alive -> fails s f s' ->
  s' = s'' -> tr ++ [inr f] = tr' -> exec_f throws deps s0 tr' s''.
Proof. intros H1 H2 H3 <- <-. exact (ef_fail _ _ _ _ _ _ _ H1 H2 H3). Qed.
Local Ltac compute_it := match goal with |- ?a = ?b => let x := eval vm_compute in a in unify b x; vm_cast_no_check (@eq_refl _ x) end.
Local Tactic Notation "cli" hyp(E) uconstr(c) :=
  eapply exec_f_go in E; [|split; [reflexivity|left; eapply c; side]|compute_it|compute_it].
Local Tactic Notation "int" hyp(E) uconstr(c) :=
  eapply exec_f_go in E; [|split; [reflexivity|right; left; eapply c; side]|compute_it|compute_it].
Local Tactic Notation "tik" hyp(E) constr(z) :=
  eapply exec_f_go in E; [|split; [reflexivity|right; right; right; exact (tk _ z)]|compute_it|compute_it].
Local Tactic Notation "flt" hyp(E) uconstr(c) :=
  eapply exec_f_go_fail in E; [|reflexivity|eapply c; side|compute_it|compute_it].
Local Tactic Notation "fail_target" hyp(E) constr(ok) constr(n) :=
  match type of E with exec_f _ _ _ _ ?s =>
    eapply exec_f_go_fail in E; [|reflexivity|eapply (f_target s ok n); [left; reflexivity|apply surjective_pairing|vm_compute; discriminate]|compute_it|compute_it] end.

(** a call of run_at throws, because the scheduler thread cannot be created; its task runs later all the same, because of
    another call *)
Lemma thrown_task_runs : exists tr s, exec_f no_throw no_deps (initial 1 0) tr s /\ status s = Alive /\
  hd_error tr = Some (inl (ERunAt 0 5 0)) /\ nth_error tr 1 = Some (inr FSpawn) /\ finishes (happened tr) = [0].
Proof.
  pose proof (ef_nil no_throw no_deps (initial 1 0)) as E.
  cli E (c_run_at _ 5%Z 0%Z). flt E f_spawn. cli E (c_run_at _ 100%Z 0%Z). int E i_spawn. int E (i_assign _ _ _ 0 [] []).
  int E (i_sched_loop _ _ _ 0). tik E 7%Z. int E (i_sched_timeout _ _ _ 0). int E (i_sched_move _ _ _ 0).
  int E (i_work _ _ _ 0). int E (i_finish _ _ _ 0).
  do 2 eexists. split; [exact E|]. repeat split.
Qed.
(** or stays scheduled although it is due *)
Lemma thrown_task_stays : exists tr s, exec_f no_throw no_deps (initial 1 0) tr s /\ status s = Alive /\ quiescent no_throw no_deps s /\
  stopping s = false /\ hd_error tr = Some (inl (ERunAt 0 5 0)) /\ nth_error tr 1 = Some (inr FSpawn) /\
  scheduled s = [(5%Z, (0%Z, 0))] /\ now s = 7%Z.
Proof.
  pose proof (ef_nil no_throw no_deps (initial 1 0)) as E.
  cli E (c_run_at _ 5%Z 0%Z). flt E f_spawn. tik E 7%Z. int E (i_work _ _ _ 0).
  do 2 eexists. split; [exact E|]. split; [reflexivity|]. split; [apply idle_quiescent; reflexivity|]. repeat split.
Qed.
(** target_workers_size throws; the target is 2, there is no worker, and a task never runs *)
Lemma target_without_workers : exists tr s, exec_f no_throw no_deps (initial 0 0) tr s /\ status s = Alive /\ quiescent no_throw no_deps s /\
  stopping s = false /\ hd_error tr = Some (inr (FTarget 2)) /\ target_workers_size s = 2 /\ workers_size s = 0 /\ waiting_tasks s = [0].
Proof.
  pose proof (ef_nil no_throw no_deps (initial 0 0)) as E.
  fail_target E (all_but 0) 2. cli E (c_run_async _ 0%Z). int E i_notify_none.
  do 2 eexists. split; [exact E|]. split; [reflexivity|]. split; [apply idle_quiescent; reflexivity|]. repeat split.
Qed.
(** target_workers_size creates one of three workers and throws; tasks, callers and the destructor get on with it *)
Lemma target_part : exists tr s, exec_f no_throw no_deps (initial 0 0) tr s /\ status s = Alive /\ quiescent no_throw no_deps s /\
  stopping s = false /\ In (inr FRun) tr /\ In (inr FRunAt) tr /\ In (inr (FTarget 3)) tr /\ target_workers_size s = 3 /\ workers_size s = 1 /\
  starts (happened tr) = [1; 0] /\ finishes (happened tr) = [1; 0] /\ all_waiters s = [CReturned] /\ none_waiters s = [CReturned] /\ syncs s = [(1, true)] /\
  scheduled s = [].
Proof.
  pose proof (ef_nil no_throw no_deps (initial 0 0)) as E.
  cli E (c_run_async _ 0%Z). flt E f_run. flt E f_run_at. cli E (c_run_sync _ 5%Z). cli E c_wait_all. cli E c_wait_none.
  int E (i_check_all _ _ _ 0). int E (i_check_none _ _ _ 0). int E i_notify_none. int E i_notify_none.
  fail_target E (all_but 2) 3.
  int E (i_work _ _ _ 0). int E (i_finish _ _ _ 0). int E (i_work _ _ _ 0). int E (i_finish _ _ _ 0). int E (i_work _ _ _ 0).
  int E (i_check_all _ _ _ 0). int E (i_check_none _ _ _ 0). int E (i_sync_return _ _ _ [] []).
  do 2 eexists. split; [exact E|]. split; [reflexivity|]. split; [apply idle_quiescent; reflexivity|]. repeat split; cbn; tauto.
Qed.
Lemma target_terminates : exists tr s, exec_f no_throw no_deps (initial 1 0) tr s /\ tr = [inr (FTarget 2)] /\ status s = Terminated.
Proof.
  pose proof (ef_nil no_throw no_deps (initial 1 0)) as E. fail_target E (all_but 1) 2.
  do 2 eexists. split; [exact E|]. repeat split.
Qed.
Lemma move_terminates : exists tr s, exec_f no_throw no_deps (initial 1 0) tr s /\ last tr (inl ETau) = inr FMove /\
  failures tr = [FMove] /\ givens (happened tr) = [0] /\ status s = Terminated.
Proof.
  pose proof (ef_nil no_throw no_deps (initial 1 0)) as E.
  cli E (c_run_at _ 5%Z 0%Z). int E i_spawn. int E (i_assign _ _ _ 0 [] []).
  int E (i_sched_loop _ _ _ 0). tik E 7%Z. int E (i_sched_timeout _ _ _ 0). flt E (f_move _ 0).
  do 2 eexists. split; [exact E|]. repeat split.
Qed.
Lemma target_endings : fst (set_target_size (all_but 3) 4 (initial 1 0)) = Terminate /\ fst (set_target_size (all_but 4) 4 (initial 1 0)) = Exception /\
  fst (set_target_size (all_but 6) 4 (initial 1 0)) = Normal /\ workers_size (snd (set_target_size (all_but 4) 4 (initial 1 0))) = 3.
Proof. repeat split. Qed.
Lemma construct_terminates : construct (all_but 2) 4 0 = (Terminate, None) /\ construct (all_but 1) 4 0 = (Terminate, None) /\
  construct (all_but 0) 4 0 = (Exception, None) /\ construct (all_but 8) 4 0 = (Normal, Some (initial 4 0)).
Proof. repeat split. Qed.
(** the destructor after a failure *)
Lemma f_destroyed_execution : exists tr s, exec_f no_throw no_deps (initial 1 0) tr s /\ quiescent no_throw no_deps s /\
  In (inr FSpawn) tr /\ In (inr (FTarget 3)) tr /\ dtor s = DDone.
Proof.
  pose proof (ef_nil no_throw no_deps (initial 1 0)) as E.
  cli E (c_run_at _ 5%Z 0%Z). flt E f_spawn. fail_target E (all_but 0) 3. cli E c_destroy. int E (i_work _ _ _ 0).
  int E d_notify_workers. int E d_notify_scheds. int E d_join_workers. int E d_join_none.
  do 2 eexists. split; [exact E|]. split; [apply idle_quiescent; reflexivity|]. repeat split; cbn; tauto.
Qed.
(** tasks that were due are queued, after a failure of another kind *)
Lemma f_due_execution : exists tr s, exec_f no_throw no_deps (initial 1 0) tr s /\ status s = Alive /\ quiescent no_throw no_deps s /\
  stopping s = false /\ ~ In FSpawn (failures tr) /\ failures tr = [FRunAt] /\ finishes (happened tr) = [0] /\ scheduled s = [(100%Z, (0%Z, 1))].
Proof.
  pose proof (ef_nil no_throw no_deps (initial 1 0)) as E.
  flt E f_run_at. cli E (c_run_at _ 5%Z 0%Z). int E i_spawn. int E (i_assign _ _ _ 0 [] []). cli E (c_run_at _ 100%Z 0%Z).
  int E (i_sched_loop _ _ _ 0). tik E 7%Z. int E (i_sched_timeout _ _ _ 0). int E (i_sched_move _ _ _ 0).
  int E (i_work _ _ _ 0). int E (i_finish _ _ _ 0). int E (i_work _ _ _ 0). int E (i_notify_one _ _ _ 0). int E (i_work _ _ _ 0).
  do 2 eexists. split; [exact E|]. split; [reflexivity|]. split; [apply idle_quiescent; reflexivity|]. repeat split.
  intros [X|[]]. discriminate.
Qed.
