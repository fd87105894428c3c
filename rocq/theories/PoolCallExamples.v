(** Concrete executions for PoolCallProps.v. *)
From Coq Require Import List Bool Arith ZArith Lia.
From Verif Require Import Base ListUpdate PoolModel PoolSpec PoolProofs PoolLive PoolStop PoolExamples PoolCallModel PoolCallSpec PoolCallProofs.
Import ListNotations.

Local Ltac side := first [reflexivity | exact I | left; reflexivity | right; exists 0; eexists; reflexivity | solve [cbv; tauto]
  | intros [|[|[|i]]]; discriminate | solve [repeat constructor] | solve [vm_compute; discriminate]].
Local Ltac compute_it := match goal with |- ?a = ?b => let x := eval vm_compute in a in unify b x; vm_cast_no_check (@eq_refl _ x) end.
Local Tactic Notation "cli" hyp(E) uconstr(c) :=
  eapply exec_go in E; [|split; [reflexivity|left; eapply c; side]|compute_it|compute_it].
Local Tactic Notation "int" hyp(E) uconstr(c) :=
  eapply exec_go in E; [|split; [reflexivity|right; left; eapply c; side]|compute_it|compute_it].

(** a call of run_sync and one of each wait function in a pool without workers *)
Lemma empty_execution : exists tr s, exec no_throw no_deps (default_pool 0 0) tr s /\ quiescent no_throw no_deps s /\ stopping s = false /\
  (forall m, ~ In (ETarget m) tr) /\ entries tr = [0; 1] /\ starts tr = [] /\ syncs s = [(1, false)] /\
  all_waiters s = [CBlocked] /\ none_waiters s = [CBlocked].
Proof.
  pose proof (exec_nil no_throw no_deps (default_pool 0 0)) as E.
  cli E (c_run_async _ 0%Z). cli E (c_run_sync _ 0%Z). cli E c_wait_all. cli E c_wait_none. int E i_notify_none. int E i_notify_none.
  int E (i_check_all _ _ _ 0). int E (i_check_none _ _ _ 0).
  do 2 eexists. split; [exact E|]. split; [apply idle_quiescent; reflexivity|]. split; [reflexivity|].
  split; [intros m I; cbn in I; repeat (destruct I as [I|I]; [discriminate I|]); exact I|]. repeat split.
Qed.
(** the same calls of run_async and run_sync with one worker *)
Lemma default_execution : exists tr s, exec no_throw no_deps (default_pool 1 0) tr s /\ quiescent no_throw no_deps s /\ stopping s = false /\
  (forall m, ~ In (ETarget m) tr) /\ entries tr = [0; 1] /\ finishes tr = [0; 1] /\ syncs s = [(1, true)].
Proof.
  pose proof (exec_nil no_throw no_deps (default_pool 1 0)) as E.
  cli E (c_run_async _ 0%Z). cli E (c_run_sync _ 0%Z). int E i_notify_none. int E i_notify_none.
  int E (i_work _ _ _ 0). int E (i_finish _ _ _ 0). int E (i_work _ _ _ 0). int E (i_finish _ _ _ 0). int E (i_work _ _ _ 0).
  int E (i_sync_return _ _ _ []).
  do 2 eexists. split; [exact E|]. split; [apply idle_quiescent; reflexivity|]. split; [reflexivity|].
  split; [intros m I; cbn in I; repeat (destruct I as [I|I]; [discriminate I|]); exact I|]. repeat split.
Qed.

(** * The promise *)
Local Ltac go H c := eapply crun_snoc in H; [|eapply c; (reflexivity || discriminate || (left; reflexivity) || (right; reflexivity))]; cbn [app] in H.
(** the task runs before the caller asks for the future, and set_value returns before the caller goes on *)
Lemma promise_in_order : crun false [PMake; PGive; PStart; PTaskDone; PSetBegin; PReady; PSetEnd; PFuture; PWaited; PDestroy] (KGone, JDone) /\
  ended_before_destroyed [PMake; PGive; PStart; PTaskDone; PSetBegin; PReady; PSetEnd; PFuture; PWaited; PDestroy].
Proof.
  split.
  - pose proof (crun_nil false) as H. go H k_make. go H k_give. go H j_start. go H j_return. go H j_begin. go H j_ready. go H j_end.
    go H k_future. go H k_wait. go H k_destroy. exact H.
  - intros l l' D _. do 9 (destruct l as [|? l]; [discriminate|injection D as <- D]). cbn. tauto.
Qed.
(** the caller waits; once the future is ready it returns and destroys the promise, and only then does set_value return *)
Lemma promise_overlap : exists tr s, crun false tr s /\ tr = [PMake; PGive; PFuture; PStart; PTaskDone; PSetBegin; PReady; PWaited; PDestroy; PSetEnd] /\
  ~ ended_before_destroyed tr.
Proof.
  do 2 eexists. split.
  - pose proof (crun_nil false) as H. go H k_make. go H k_give. go H k_future. go H j_start. go H j_return. go H j_begin. go H j_ready.
    go H k_wait. go H k_destroy. go H j_end. exact H.
  - split; [reflexivity|]. intros E. specialize (E [PMake; PGive; PFuture; PStart; PTaskDone; PSetBegin; PReady; PWaited] [PSetEnd] eq_refl).
    assert (X : In PSetBegin [PMake; PGive; PFuture; PStart; PTaskDone; PSetBegin; PReady; PWaited]) by (cbn; tauto).
    specialize (E X). cbn in E. repeat (destruct E as [E|E]; [discriminate E|]). exact E.
Qed.
(** the task throws while the caller waits *)
Lemma promise_throws : crun true [PMake; PGive; PFuture; PStart] (KFuture, JThrew).
Proof.
  pose proof (crun_nil true) as H. go H k_make. go H k_give. go H k_future. go H j_start. go H j_throw. exact H.
Qed.
