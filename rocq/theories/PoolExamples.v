(** Concrete executions of the thread pool: counterexamples to the claims that fail, and executions that meet
    the hypotheses of the theorems. *)
From Coq Require Import List Bool Arith ZArith Lia.
From Verif Require Import ListUpdate PoolModel PoolSpec PoolProofs PoolLive PoolStop PoolWait PoolDue.
Import ListNotations.

Definition no_throw : nat -> bool := fun _ => false.
Definition no_deps : nat -> list nat := fun _ => [].
Lemma plain_tasks : plain no_throw no_deps.
Proof. intros t. split; reflexivity. Qed.

Local Ltac side := first [reflexivity | exact I | left; reflexivity | right; exists 0; eexists; reflexivity | solve [cbv; tauto]
  | intros [|[|[|i]]]; discriminate | solve [repeat constructor]].
Lemma exec_go throws deps s0 tr s e s' tr' s'' : exec throws deps s0 tr s -> step throws deps s e s' ->
  s' = s'' -> tr ++ [e] = tr' -> exec throws deps s0 tr' s''.
Proof. intros H1 H2 <- <-. econstructor; eauto. Qed.
Local Ltac compute_it := match goal with |- ?a = ?b => let x := eval vm_compute in a in unify b x; vm_cast_no_check (@eq_refl _ x) end.
Local Tactic Notation "cli" hyp(E) uconstr(c) :=
  eapply exec_go in E; [|split; [reflexivity|left; eapply c; side]|compute_it|compute_it].
Local Tactic Notation "int" hyp(E) uconstr(c) :=
  eapply exec_go in E; [|split; [reflexivity|right; left; eapply c; side]|compute_it|compute_it].
Local Tactic Notation "tik" hyp(E) constr(z) :=
  eapply exec_go in E; [|split; [reflexivity|right; right; right; exact (tk _ z)]|compute_it|compute_it].

Local Ltac notin := cbn; try intros ?b; let H := fresh in intros H; repeat (destruct H as [H|H]; [discriminate H|]); exact H.

(** a test for quiescence *)
Definition idle_worker (deps : nat -> list nat) (throws : nat -> bool) (s : pool) (w : wpc) : bool :=
  match w with
  | WWait | WExited | WGone => true
  | WRun t => negb (throws t) && existsb (fun d => negb (existsb (Nat.eqb d) (completed s))) (deps t)
  | _ => false
  end.
Definition idle_sched (s : pool) (c : spc) : bool :=
  match c with SWait e => (now s <? fst e)%Z | SDone => true | _ => false end.
Definition idle_caller (c : cpc) : bool := match c with CCheck => false | _ => true end.
Definition idle (throws : nat -> bool) (deps : nat -> list nat) (s : pool) : bool :=
  forallb (idle_worker deps throws s) (workers s) && forallb (idle_sched s) (schedulers s) &&
  (pend_one s =? 0) && (pend_all s =? 0) && (pend_sched s =? 0) && (pend_spawn s =? 0) && is_empty (pend_assign s) &&
  forallb idle_caller (all_waiters s) && forallb idle_caller (none_waiters s) &&
  forallb (fun x => snd x || negb (existsb (Nat.eqb (fst x)) (completed s))) (syncs s) &&
  match dtor s with
  | DNone | DDone => true
  | DJoining => existsb (fun w => match w with WExited | WGone => false | _ => true end) (workers s)
  | _ => false
  end.

Lemma existsb_nat d l : existsb (Nat.eqb d) l = true <-> In d l.
Proof.
  rewrite existsb_exists. split; [intros (x & H & E); apply Nat.eqb_eq in E; congruence|]. intros H. exists d. auto using Nat.eqb_refl.
Qed.
Lemma idle_quiescent throws deps s : idle throws deps s = true -> quiescent throws deps s.
Proof.
  unfold idle. rewrite !andb_true_iff. intros ((((((((((W & C) & P1) & P2) & P3) & P4) & P5) & A) & O) & Y) & D).
  rewrite forallb_forall in W, C, A, O, Y. apply Nat.eqb_eq in P1, P2, P3, P4. intros e s' H.
  destruct H as [i w Hi Hw|i t Hi Ht Hd|i t Hi Ht|i n Hn Hi|n Hn Hi|n Hn|j e n Hn Hj|j Hn Hj|n Hn|j l1 l2 Hj|j Hj|j e Hj Hnow|j e Hj
                  |k Hk|k Hk|l1 l2 t Hs Hc|D'|D'|D' Hex|D' Hso|j D' Hso Hj]; try congruence; try (rewrite D' in D; discriminate);
    try (rewrite D' in D; apply existsb_exists in D; destruct D as (w & Iw & Dw); rewrite Forall_forall in Hex; destruct (Hex w Iw); subst w; discriminate).
  - apply nth_error_In, W in Hi. destruct w; try contradiction; discriminate.
  - apply nth_error_In, W in Hi. cbn in Hi. rewrite Ht in Hi. cbn in Hi. apply existsb_exists in Hi. destruct Hi as (d & I1 & I2).
    apply Hd in I1. apply existsb_nat in I1. rewrite I1 in I2. discriminate.
  - apply nth_error_In, W in Hi. cbn in Hi. rewrite Ht in Hi. discriminate.
  - rewrite Hj in P5. destruct l1; discriminate.
  - apply nth_error_In, C in Hj. discriminate.
  - apply nth_error_In, C in Hj. cbn in Hj. apply Z.ltb_lt in Hj. lia.
  - apply nth_error_In, C in Hj. discriminate.
  - apply nth_error_In, A in Hk. discriminate.
  - apply nth_error_In, O in Hk. discriminate.
  - assert (I1 : In (t, false) (syncs s)) by (rewrite Hs; apply in_elt). apply Y in I1. cbn in I1. apply existsb_nat in Hc. rewrite Hc in I1. discriminate.
Qed.

(** * Counterexamples *)
(** C53: the last worker leaves because the target became 0; nobody tells the blocked caller *)
Lemma all_stuck : exists tr s, exec no_throw no_deps (initial 1 0) tr s /\ quiescent no_throw no_deps s /\ stopping s = false /\
  starts tr = [0] /\ finishes tr = [0] /\ waiting_tasks s = [] /\ running s = [] /\ nth_error (all_waiters s) 0 = Some CBlocked.
Proof.
  pose proof (exec_nil no_throw no_deps (initial 1 0)) as E.
  cli E (c_run_async _ 0%Z). int E (i_work _ _ _ 0). cli E c_wait_all. int E (i_check_all _ _ _ 0). cli E (c_target _ 0).
  int E (i_finish _ _ _ 0). int E (i_work _ _ _ 0). int E i_notify_all. int E i_notify_none.
  do 2 eexists. split; [exact E|]. split; [apply idle_quiescent; reflexivity|]. repeat split.
Qed.

(** C57: two workers, the target is lowered to 1, and the pool is destroyed before a worker has left *)
Lemma not_completed_shrinking : exists tr1 s1 s2 tr2 s,
  exec no_throw no_deps (initial 2 0) tr1 s1 /\ step no_throw no_deps s1 EStop s2 /\ exec no_throw no_deps s2 tr2 s /\
  onStop s1 = CompleteTasks /\ target s1 = 1 /\ (forall b, ~ In (EOnStop b) tr2) /\ dtor s = DDone /\
  In (ESubmit 0 0) tr1 /\ waiting_tasks s = [0] /\ ~ In 0 (starts (tr1 ++ EStop :: tr2)).
Proof.
  pose proof (exec_nil no_throw no_deps (initial 2 0)) as E.
  cli E (c_on_stop _ CompleteTasks). cli E (c_run_async _ 0%Z). cli E (c_target _ 1).
  do 2 eexists.
  match type of E with exec _ _ _ _ ?s => assert (S : step no_throw no_deps s EStop (set_dtor DStopped (set_stopping true s))) by
    (split; [reflexivity|left; constructor; reflexivity]) end.
  cbn in S. match type of S with step _ _ _ _ ?s => pose proof (exec_nil no_throw no_deps s) as F end.
  int F (i_work _ _ _ 0). int F (i_work _ _ _ 1). int F d_notify_workers. int F d_notify_scheds. int F d_join_workers. int F d_join_none.
  do 3 eexists. split; [exact E|]. split; [exact S|]. split; [exact F|]. cbn.
  split; [reflexivity|]. split; [reflexivity|]. split; [notin|]. repeat split; try notin; tauto.
Qed.
Lemma not_completed_no_workers : exists tr1 s1 s2 tr2 s,
  exec no_throw no_deps (initial 0 0) tr1 s1 /\ step no_throw no_deps s1 EStop s2 /\ exec no_throw no_deps s2 tr2 s /\
  onStop s1 = CompleteTasks /\ workers_size s1 = target s1 /\ (forall b, ~ In (EOnStop b) tr2) /\ dtor s = DDone /\
  In (ESubmit 0 0) tr1 /\ waiting_tasks s = [0] /\ ~ In 0 (starts (tr1 ++ EStop :: tr2)).
Proof.
  pose proof (exec_nil no_throw no_deps (initial 0 0)) as E.
  cli E (c_on_stop _ CompleteTasks). cli E (c_run_async _ 0%Z).
  do 2 eexists.
  match type of E with exec _ _ _ _ ?s => assert (S : step no_throw no_deps s EStop (set_dtor DStopped (set_stopping true s))) by
    (split; [reflexivity|left; constructor; reflexivity]) end.
  cbn in S. match type of S with step _ _ _ _ ?s => pose proof (exec_nil no_throw no_deps s) as F end.
  int F d_notify_workers. int F d_notify_scheds. int F d_join_workers. int F d_join_none.
  do 3 eexists. split; [exact E|]. split; [exact S|]. split; [exact F|]. cbn.
  split; [reflexivity|]. split; [reflexivity|]. split; [notin|]. repeat split; try notin; tauto.
Qed.

(** C56: one call of run_at for a time that has passed; the new thread detaches m_scheduler before the caller
    has assigned it *)
Lemma run_at_terminates : exists tr s, exec no_throw no_deps (initial 1 0) tr s /\ status s = Terminated /\
  tr = [ERunAt 0 0 0; ETau; ETau; ETau; EEnqueue 0].
Proof.
  pose proof (exec_nil no_throw no_deps (initial 1 0)) as E.
  cli E (c_run_at _ 0%Z 0%Z). int E i_spawn. int E (i_sched_loop _ _ _ 0).
  eapply exec_go in E; [|split; [reflexivity|right; left; eapply (i_sched_timeout _ _ _ 0); [reflexivity|cbn; lia]]|compute_it|compute_it].
  int E (i_sched_move _ _ _ 0).
  do 2 eexists. split; [exact E|]. repeat split.
Qed.
(** two calls at the same time, for times far ahead: the second assignment finds a joinable thread object *)
Lemma run_at_twice_terminates : exists tr s, exec no_throw no_deps (initial 1 0) tr s /\ status s = Terminated /\
  tr = [ERunAt 0 100 0; ERunAt 1 200 0; ETau; ETau; ETau; ETau].
Proof.
  pose proof (exec_nil no_throw no_deps (initial 1 0)) as E.
  cli E (c_run_at _ 100%Z 0%Z). cli E (c_run_at _ 200%Z 0%Z). int E i_spawn. int E i_spawn.
  int E (i_assign _ _ _ 0 [1] []). int E (i_assign _ _ _ 1 [] []).
  do 2 eexists. split; [exact E|]. repeat split.
Qed.
(** and two scheduler threads may both erase the same entry, which is undefined *)
Lemma run_at_twice_undefined : exists tr s, exec no_throw no_deps (initial 1 0) tr s /\ status s = Undefined.
Proof.
  pose proof (exec_nil no_throw no_deps (initial 1 0)) as E.
  cli E (c_run_at _ 0%Z 0%Z). cli E (c_run_at _ 100%Z 0%Z). int E i_spawn. int E i_spawn.
  int E (i_sched_loop _ _ _ 0). int E (i_sched_loop _ _ _ 1).
  eapply exec_go in E; [|split; [reflexivity|right; left; eapply (i_sched_timeout _ _ _ 0); [reflexivity|cbn; lia]]|compute_it|compute_it].
  eapply exec_go in E; [|split; [reflexivity|right; left; eapply (i_sched_timeout _ _ _ 1); [reflexivity|cbn; lia]]|compute_it|compute_it].
  int E (i_sched_move _ _ _ 0). int E (i_sched_move _ _ _ 1).
  do 2 eexists. split; [exact E|]. repeat split.
Qed.

(** a task that throws *)
Lemma throwing_terminates : exists tr s, exec (fun _ => true) no_deps (initial 1 0) tr s /\ status s = Terminated /\
  tr = [ESubmit 0 0; EStart 0 0; ETau].
Proof.
  pose proof (exec_nil (fun _ => true) no_deps (initial 1 0)) as E.
  cli E (c_run_async _ 0%Z). int E (i_work _ _ _ 0). int E (i_throw _ _ _ 0).
  do 2 eexists. split; [exact E|]. repeat split.
Qed.

(** task 0 waits for task 1, which it gives to the pool with run_sync *)
Definition calls_sync (t : nat) : list nat := if t =? 0 then [1] else [].
Lemma sync_deadlock : exists tr s, exec no_throw calls_sync (initial 1 0) tr s /\ quiescent no_throw calls_sync s /\
  stopping s = false /\ target s = 1 /\ running s = [0] /\ waiting_tasks s = [1] /\ syncs s = [(1, false)].
Proof.
  pose proof (exec_nil no_throw calls_sync (initial 1 0)) as E.
  cli E (c_run_async _ 0%Z). int E (i_work _ _ _ 0). cli E (c_run_sync _ 32%Z). int E i_notify_none. int E i_notify_none.
  do 2 eexists. split; [exact E|]. split; [apply idle_quiescent; reflexivity|]. repeat split.
Qed.

(** complete_tasks does not wait for tasks scheduled for later *)
Lemma scheduled_dropped : exists tr1 s1 s2 tr2 s,
  exec no_throw no_deps (initial 1 0) tr1 s1 /\ step no_throw no_deps s1 EStop s2 /\ exec no_throw no_deps s2 tr2 s /\
  onStop s1 = CompleteTasks /\ workers_size s1 = target s1 /\ target s1 = 1 /\ (forall b, ~ In (EOnStop b) tr2) /\ dtor s = DDone /\
  In (ERunAt 0 5 0) tr1 /\ scheduled_tasks s = [0] /\ ~ In 0 (starts (tr1 ++ EStop :: tr2)).
Proof.
  pose proof (exec_nil no_throw no_deps (initial 1 0)) as E.
  cli E (c_on_stop _ CompleteTasks). cli E (c_run_at _ 5%Z 0%Z). int E i_spawn. int E (i_assign _ _ _ 0 [] []). int E (i_sched_loop _ _ _ 0).
  do 2 eexists.
  match type of E with exec _ _ _ _ ?s => assert (S : step no_throw no_deps s EStop (set_dtor DStopped (set_stopping true s))) by
    (split; [reflexivity|left; constructor; reflexivity]) end.
  cbn in S. match type of S with step _ _ _ _ ?s => pose proof (exec_nil no_throw no_deps s) as F end.
  int F (i_work _ _ _ 0). int F d_notify_workers. int F d_notify_scheds. int F (i_sched_loop _ _ _ 0). int F d_join_workers.
  eapply exec_go in F; [|split; [reflexivity|right; left; eapply (d_join_sched _ _ _ 0); reflexivity]|compute_it|compute_it].
  do 3 eexists. split; [exact E|]. split; [exact S|]. split; [exact F|]. cbn.
  split; [reflexivity|]. split; [reflexivity|]. split; [reflexivity|]. split; [notin|]. repeat split; try notin; tauto.
Qed.

(** * Executions that meet the hypotheses *)
Lemma ordered_execution : exists s s', exec no_throw no_deps (initial 1 0) [ESubmit 0 0; ESubmit 1 5; ESubmit 2 5] s /\
  step no_throw no_deps s (EStart 0 1) s'.
Proof.
  pose proof (exec_nil no_throw no_deps (initial 1 0)) as E.
  cli E (c_run_async _ 0%Z). cli E (c_run_async _ 5%Z). cli E (c_run_async _ 5%Z).
  do 2 eexists. split; [exact E|]. split; [reflexivity|]. right. left.
  match goal with |- internal _ _ ?s _ _ => exact (i_work no_throw no_deps s 0 WReady eq_refl I) end.
Qed.

Lemma busy_execution : exists tr s, exec no_throw no_deps (initial 1 0) tr s /\ quiescent no_throw no_deps s /\
  stopping s = false /\ target s = 1 /\ starts tr = [1; 0] /\ finishes tr = [1; 0] /\ completed s = [0; 1] /\
  all_waiters s = [CReturned] /\ none_waiters s = [CReturned] /\ syncs s = [(1, true)] /\
  In (EAllReturned 0) tr /\ In (ENoneReturned 0) tr /\ In (ESyncReturned 1) tr.
Proof.
  pose proof (exec_nil no_throw no_deps (initial 1 0)) as E.
  cli E (c_run_async _ 0%Z). cli E (c_run_sync _ 32%Z). cli E c_wait_all. cli E c_wait_none.
  int E (i_check_all _ _ _ 0). int E (i_check_none _ _ _ 0).
  int E (i_work _ _ _ 0). int E (i_finish _ _ _ 0). int E (i_work _ _ _ 0). int E (i_finish _ _ _ 0). int E (i_work _ _ _ 0).
  int E (i_check_all _ _ _ 0). int E (i_check_none _ _ _ 0).
  eapply exec_go in E; [|split; [reflexivity|right; left; eapply (i_sync_return _ _ _ [] []); [reflexivity|cbn; tauto]]|compute_it|compute_it].
  int E (i_notify_one _ _ _ 0). int E (i_work _ _ _ 0). int E (i_notify_one _ _ _ 0). int E (i_work _ _ _ 0).
  do 2 eexists. split; [exact E|]. split; [apply idle_quiescent; reflexivity|]. repeat split; cbn; tauto.
Qed.

Lemma shrunk_execution : exists tr s, exec no_throw no_deps (initial 3 0) tr s /\ quiescent no_throw no_deps s /\
  stopping s = false /\ target s = 1 /\ workers_size s = 1 /\ workers s = [WGone; WWait; WGone].
Proof.
  pose proof (exec_nil no_throw no_deps (initial 3 0)) as E.
  int E (i_work _ _ _ 0). int E (i_work _ _ _ 1). cli E (c_target _ 1). int E (i_work _ _ _ 2). int E i_notify_all.
  int E (i_work _ _ _ 0). int E (i_work _ _ _ 1).
  do 2 eexists. split; [exact E|]. split; [apply idle_quiescent; reflexivity|]. repeat split.
Qed.

Lemma destroyed_execution (a : action) : exists tr1 s1 s2 tr2 s,
  exec no_throw no_deps (initial 1 0) tr1 s1 /\ step no_throw no_deps s1 EStop s2 /\ exec no_throw no_deps s2 tr2 s /\
  onStop s1 = a /\ workers_size s1 = target s1 /\ target s1 = 1 /\ (forall b, ~ In (EOnStop b) tr2) /\
  dtor s = DDone /\ waiting_tasks s1 = [1] /\ running s1 = [0] /\ In (ESubmit 1 0) tr1 /\
  finishes (tr1 ++ EStop :: tr2) = match a with JoinAll => [0] | CompleteTasks => [0; 1] end.
Proof.
  pose proof (exec_nil no_throw no_deps (initial 1 0)) as E.
  cli E (c_on_stop _ a). cli E (c_run_async _ 0%Z). cli E (c_run_async _ 0%Z). int E (i_work _ _ _ 0). int E i_notify_none. int E i_notify_none.
  do 2 eexists.
  match type of E with exec _ _ _ _ ?s => assert (S : step no_throw no_deps s EStop (set_dtor DStopped (set_stopping true s))) by
    (split; [reflexivity|left; constructor; reflexivity]) end.
  cbn in S. match type of S with step _ _ _ _ ?s => pose proof (exec_nil no_throw no_deps s) as F end.
  int F d_notify_workers. int F d_notify_scheds. int F (i_finish _ _ _ 0). destruct a.
  - int F (i_work _ _ _ 0). int F d_join_workers. int F d_join_none.
    do 3 eexists. split; [exact E|]. split; [exact S|]. split; [exact F|]. cbn.
    split; [reflexivity|]. split; [reflexivity|]. split; [reflexivity|]. split; [notin|]. repeat split; tauto.
  - int F (i_work _ _ _ 0). int F (i_finish _ _ _ 0). int F (i_work _ _ _ 0). int F d_join_workers. int F d_join_none.
    do 3 eexists. split; [exact E|]. split; [exact S|]. split; [exact F|]. cbn.
    split; [reflexivity|]. split; [reflexivity|]. split; [reflexivity|]. split; [notin|]. repeat split; tauto.
Qed.

Lemma calm_go throws deps s0 tr s e s' tr' s'' : exec_calm throws deps s0 tr s -> step throws deps s e s' ->
  s' = s'' -> tr ++ [e] = tr' -> orderly s e s'' -> exec_calm throws deps s0 tr' s''.
Proof. intros H1 H2 <- <- H3. econstructor; eauto. Qed.
Local Ltac hand := first [exact I | reflexivity | left; reflexivity | right; right; discriminate].
Local Tactic Notation "ccli" hyp(E) uconstr(c) :=
  eapply calm_go in E; [|split; [reflexivity|left; eapply c; side]|compute_it|compute_it|hand].
Local Tactic Notation "cint" hyp(E) uconstr(c) :=
  eapply calm_go in E; [|split; [reflexivity|right; left; eapply c; side]|compute_it|compute_it|hand].

(** task 0 for time 5, and task 1 for time 20; the clock shows 7 in the end.  While the second call of run_at
    creates a scheduler thread, that thread begins to wait, and a worker runs a task (2) submitted by another
    thread. *)
Lemma calm_execution : exists tr s, exec_calm no_throw no_deps (initial 1 0) tr s /\ quiescent no_throw no_deps s /\
  stopping s = false /\ target s = 1 /\ now s = 7%Z /\ scheduled s = [(20%Z, (0%Z, 1))] /\ In (ERunAt 0 5 0) tr /\
  In (EEnqueue 0) tr /\ In 0 (entries tr) /\ finishes tr = [0; 2].
Proof.
  pose proof (calm_nil no_throw no_deps (initial 1 0)) as E.
  ccli E (c_run_at _ 5%Z 0%Z). cint E i_spawn. cint E (i_assign _ _ _ 0 [] []). cint E (i_sched_loop _ _ _ 0).
  eapply calm_go in E; [|split; [reflexivity|right; right; right; exact (tk _ 7%Z)]|compute_it|compute_it|hand].
  eapply calm_go in E; [|split; [reflexivity|right; left; eapply (i_sched_timeout _ _ _ 0); [reflexivity|cbn; lia]]|compute_it|compute_it|hand].
  cint E (i_sched_move _ _ _ 0). cint E (i_work _ _ _ 0). cint E (i_finish _ _ _ 0). cint E (i_work _ _ _ 0).
  ccli E (c_run_at _ 20%Z 0%Z). cint E i_spawn. cint E (i_sched_loop _ _ _ 1). ccli E (c_run_async _ 0%Z).
  cint E (i_notify_one _ _ _ 0). cint E (i_work _ _ _ 0). cint E (i_finish _ _ _ 0). cint E (i_assign _ _ _ 1 [] []).
  cint E (i_work _ _ _ 0). cint E (i_notify_one _ _ _ 0). cint E (i_work _ _ _ 0).
  do 2 eexists. split; [exact E|]. split; [apply idle_quiescent; reflexivity|]. repeat split; cbn; tauto.
Qed.

(** destroying the pool while its scheduler thread waits for a task *)
Lemma calm_destroyed_execution : exists tr s s', exec_calm no_throw no_deps (initial 1 0) tr s /\
  step no_throw no_deps s EDestroyed s' /\ handoff s = 0 /\ schedulers s = [SDone] /\ scheduled_tasks s = [0].
Proof.
  pose proof (calm_nil no_throw no_deps (initial 1 0)) as E.
  ccli E (c_run_at _ 5%Z 0%Z). cint E i_spawn. cint E (i_assign _ _ _ 0 [] []). cint E (i_sched_loop _ _ _ 0).
  ccli E c_destroy. cint E d_notify_workers. cint E d_notify_scheds. cint E (i_work _ _ _ 0). cint E (i_sched_loop _ _ _ 0). cint E d_join_workers.
  do 3 eexists. split; [exact E|]. split.
  - split; [reflexivity|]. right. left. eapply (d_join_sched _ _ _ 0); reflexivity.
  - repeat split.
Qed.

(** two calls of run_at create two scheduler threads; thread 1 moves both tasks and detaches the object of
    thread 0, and then the object of thread 1, which has ended, is assigned: the destructor joins thread 1 and
    returns, and thread 0 is about to lock the mutex of the pool *)
Lemma scheduler_outlives : exists tr s s', exec no_throw no_deps (initial 1 0) tr s /\ step no_throw no_deps s EDestroyed s' /\
  handoff s = 0 /\ status s' = Alive /\ dtor s' = DDone /\ schedulers s' = [SReady; SDone].
Proof.
  pose proof (exec_nil no_throw no_deps (initial 1 0)) as E.
  cli E (c_run_at _ 0%Z 0%Z). cli E (c_run_at _ 0%Z 0%Z). int E i_spawn. int E i_spawn. int E (i_assign _ _ _ 0 [1] []).
  int E (i_sched_loop _ _ _ 1).
  eapply exec_go in E; [|split; [reflexivity|right; left; eapply (i_sched_timeout _ _ _ 1); [reflexivity|cbn; lia]]|compute_it|compute_it].
  int E (i_sched_move _ _ _ 1).
  eapply exec_go in E; [|split; [reflexivity|right; left; eapply (i_sched_timeout _ _ _ 1); [reflexivity|cbn; lia]]|compute_it|compute_it].
  int E (i_sched_move _ _ _ 1). int E (i_assign _ _ _ 1 [] []).
  cli E c_destroy. int E d_notify_workers. int E d_notify_scheds. int E (i_work _ _ _ 0). int E d_join_workers.
  do 3 eexists. split; [exact E|]. split.
  - split; [reflexivity|]. right. left. eapply (d_join_sched _ _ _ 1); reflexivity.
  - repeat split.
Qed.

(** two calls of run_at create two scheduler threads; thread 1 moves both tasks and ends, and its object is the one
    that stays; thread 0 waits for the task of a third call *)
Lemma two_schedulers_execution : exists tr s, exec no_throw no_deps (initial 1 0) tr s /\ quiescent no_throw no_deps s /\
  status s = Alive /\ stopping s = false /\ scheduled s = [(9%Z, (0%Z, 2))] /\ In (EEnqueue 0) tr /\ In (EEnqueue 1) tr /\
  schedulers s = [SWait (9%Z, (0%Z, 2)); SDone] /\ sched_obj s = Some 1.
Proof.
  pose proof (exec_nil no_throw no_deps (initial 1 0)) as E.
  cli E (c_run_at _ 0%Z 0%Z). cli E (c_run_at _ 0%Z 0%Z). int E i_spawn. int E i_spawn. int E (i_assign _ _ _ 0 [1] []).
  int E (i_sched_loop _ _ _ 1).
  eapply exec_go in E; [|split; [reflexivity|right; left; eapply (i_sched_timeout _ _ _ 1); [reflexivity|cbn; lia]]|compute_it|compute_it].
  int E (i_sched_move _ _ _ 1).
  eapply exec_go in E; [|split; [reflexivity|right; left; eapply (i_sched_timeout _ _ _ 1); [reflexivity|cbn; lia]]|compute_it|compute_it].
  int E (i_sched_move _ _ _ 1). int E (i_assign _ _ _ 1 [] []). cli E (c_run_at _ 9%Z 0%Z). int E i_notify_no_sched.
  int E (i_sched_loop _ _ _ 0). int E i_notify_none. int E i_notify_none.
  int E (i_work _ _ _ 0). int E (i_finish _ _ _ 0). int E (i_work _ _ _ 0). int E (i_finish _ _ _ 0). int E (i_work _ _ _ 0).
  do 2 eexists. split; [exact E|]. split; [apply idle_quiescent; reflexivity|]. repeat split; cbn; tauto.
Qed.

(** the scheduler thread begins to wait for the earlier of two tasks *)
Lemma earliest_execution : exists tr s s' x, exec no_throw no_deps (initial 1 0) tr s /\ step no_throw no_deps s ETau s' /\
  nth_error (schedulers s') 0 = Some (SWait x) /\ nth_error (schedulers s) 0 <> Some (SWait x) /\
  length (scheduled s') = 2 /\ fst x = 5%Z.
Proof.
  pose proof (exec_nil no_throw no_deps (initial 1 0)) as E.
  cli E (c_run_at _ 9%Z 0%Z). int E i_spawn. int E (i_assign _ _ _ 0 [] []). cli E (c_run_at _ 5%Z 0%Z).
  do 4 eexists. split; [exact E|]. split; [|split].
  - split; [reflexivity|]. right. left. eapply (i_sched_loop _ _ _ 0); reflexivity.
  - reflexivity.
  - repeat split. discriminate.
Qed.
Lemma settings_execution : exists tr s, exec no_throw no_deps (initial 1 0) tr s /\
  tr = [ETarget 3; EOnStop CompleteTasks; ETarget 2] /\ on_stop s = CompleteTasks /\ target_workers_size s = 2.
Proof.
  pose proof (exec_nil no_throw no_deps (initial 1 0)) as E.
  cli E (c_target _ 3). cli E (c_on_stop _ CompleteTasks). cli E (c_target _ 2).
  do 2 eexists. split; [exact E|]. repeat split.
Qed.

(** task 0 of a pool of two workers calls run_sync *)
Lemma sync_in_task_execution : exists tr s, exec no_throw calls_sync (initial 2 0) tr s /\ quiescent no_throw calls_sync s /\
  stopping s = false /\ length (filter (fun t => negb (is_empty (calls_sync t))) (givens tr)) < target s /\
  (forall t d, In t (givens tr) -> In d (calls_sync t) -> In d (givens tr) /\ 2 - d < 2 - t) /\
  scheduled_tasks s = [] /\ finishes tr = [1; 0] /\ syncs s = [(1, true)].
Proof.
  pose proof (exec_nil no_throw calls_sync (initial 2 0)) as E.
  cli E (c_run_async _ 0%Z). int E (i_work _ _ _ 0). cli E (c_run_sync _ 32%Z). int E i_notify_none. int E i_notify_none.
  int E (i_work _ _ _ 1). int E (i_finish _ _ _ 1).
  eapply exec_go in E; [|split; [reflexivity|right; left; eapply (i_sync_return _ _ _ [] []); [reflexivity|cbn; tauto]]|compute_it|compute_it].
  eapply exec_go in E; [|split; [reflexivity|right; left; eapply (i_finish _ _ _ 0); [reflexivity|reflexivity|intros x Hx; exact Hx]]|compute_it|compute_it].
  int E (i_work _ _ _ 0). int E (i_work _ _ _ 1).
  do 2 eexists. split; [exact E|]. split; [apply idle_quiescent; reflexivity|]. split; [reflexivity|]. split; [cbn; lia|].
  split; [|repeat split]. intros t d Ht Hd. cbn in Ht. destruct Ht as [<-|[<-|[]]]; [|destruct Hd]. destruct Hd as [<-|[]]. cbn. split; [tauto|lia].
Qed.

(** complete_tasks completes a scheduled task that has become due *)
Lemma due_completed_execution : exists tr1 s1 s2 tr2 s,
  exec no_throw no_deps (initial 1 0) tr1 s1 /\ step no_throw no_deps s1 EStop s2 /\ exec no_throw no_deps s2 tr2 s /\
  onStop s1 = CompleteTasks /\ workers_size s1 = target s1 /\ target s1 = 1 /\ (forall b, ~ In (EOnStop b) tr2) /\ dtor s = DDone /\
  In (ERunAt 0 5 0) tr1 /\ entries tr1 = [0] /\ starts tr1 = [] /\ finishes tr2 = [0].
Proof.
  pose proof (exec_nil no_throw no_deps (initial 1 0)) as E.
  cli E (c_on_stop _ CompleteTasks). cli E (c_run_at _ 5%Z 0%Z). int E i_spawn. int E (i_assign _ _ _ 0 [] []). int E (i_sched_loop _ _ _ 0).
  tik E 5%Z.
  eapply exec_go in E; [|split; [reflexivity|right; left; eapply (i_sched_timeout _ _ _ 0); [reflexivity|cbn; lia]]|compute_it|compute_it].
  int E (i_sched_move _ _ _ 0). int E i_notify_none.
  do 2 eexists.
  match type of E with exec _ _ _ _ ?s => assert (S : step no_throw no_deps s EStop (set_dtor DStopped (set_stopping true s))) by
    (split; [reflexivity|left; constructor; reflexivity]) end.
  cbn in S. match type of S with step _ _ _ _ ?s => pose proof (exec_nil no_throw no_deps s) as F end.
  int F (i_work _ _ _ 0). int F d_notify_workers. int F d_notify_scheds. int F (i_finish _ _ _ 0). int F (i_work _ _ _ 0). int F d_join_workers. int F d_join_none.
  do 3 eexists. split; [exact E|]. split; [exact S|]. split; [exact F|]. cbn.
  split; [reflexivity|]. split; [reflexivity|]. split; [reflexivity|]. split; [notin|]. repeat split; try notin; tauto.
Qed.
