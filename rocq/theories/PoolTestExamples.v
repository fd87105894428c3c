(** Runs that meet the hypotheses of the theorems about the tests of the thread pool. *)
From Coq Require Import List Bool Arith ZArith Lia.
From Verif Require Import ListUpdate PoolModel PoolSpec PoolProofs PoolExamples PoolTestModel PoolTestSpec PoolTestProofs PoolTestRuns.
Import ListNotations.

Notation no_sleep := (fun _ : pool => False).
Local Ltac ret0 := constructor; [reflexivity|reflexivity|reflexivity|reflexivity|reflexivity
  |intros ? X; repeat (destruct X as [<-|X]; [reflexivity|]); destruct X|intros ? ? X; repeat (destruct X as [X|X]; [injection X as <- <-; reflexivity|]); destruct X|auto].
Local Ltac norm := match goal with
  | |- can _ _ _ ?s ?p ?q => let x := eval vm_compute in s in let E := fresh in assert (E : s = x) by (vm_cast_no_check (eq_refl x)); rewrite E; clear E
  | |- run _ _ _ ?s ?p ?tr ?s' ?r ?l => let x := eval vm_compute in s in let E := fresh in assert (E : s = x) by (vm_cast_no_check (eq_refl x)); rewrite E; clear E
  end.
Local Ltac call := eapply can_call; [reflexivity|ret0|reflexivity|split; reflexivity|]; norm.
Local Ltac rd := apply can_read; [reflexivity|ret0|].
Local Tactic Notation "int" uconstr(c) := eapply can_other; [split; [reflexivity|left; eapply c; try reflexivity]|try norm].
Local Ltac work i := eapply can_other; [split; [reflexivity|left; eapply (i_work _ _ _ i); [reflexivity|exact I]]|]; norm.
Local Ltac fin i := eapply can_other; [split; [reflexivity|left; eapply (i_finish _ _ _ i); [reflexivity|reflexivity|intros ? []]]|]; norm.
Local Ltac unwoken := eapply can_other; [split; [reflexivity|left; eapply i_notify_none; [reflexivity|intros [|[|?]]; discriminate]]|]; norm.
Local Ltac stop := apply can_end; reflexivity.

(** one worker, two tasks *)
Lemma wait_all_run : exists tr s seen, run no_throw no_deps no_sleep (initial 1 0) (wait_all_test 2) tr s [] seen /\ seen = [1; 0; 0; 0; 0; 2]%Z.
Proof.
  apply (can_read no_throw no_deps no_sleep); [reflexivity|ret0|]. rd. rd. call. unwoken. call. work 0. unwoken. fin 0. call. int (i_check_all _ _ _ 0).
  work 0. fin 0. work 0. int (i_check_all _ _ _ 0). rd. rd. rd. stop.
Qed.
Lemma wait_none_run : exists tr s seen, run no_throw no_deps no_sleep (initial 1 0) (wait_none_test false 2) tr s [] seen /\ seen = [1; 0; 0; 1; 2; 0]%Z.
Proof.
  apply (can_read no_throw no_deps no_sleep); [reflexivity|ret0|]. rd. rd. call. unwoken. call. work 0. unwoken. fin 0. call. int (i_check_none _ _ _ 0).
  work 0. int (i_check_none _ _ _ 0). rd. fin 0. rd. rd. stop.
Qed.
Lemma complete_tasks_run : exists tr s seen, run no_throw no_deps no_sleep (initial 1 0) (on_stop_test CompleteTasks 2) tr s [] seen /\ seen = [1; 0; 0; 2]%Z.
Proof.
  apply (can_read no_throw no_deps no_sleep); [reflexivity|ret0|]. rd. rd. call. call. unwoken. call. unwoken. call.
  int d_notify_workers. int d_notify_scheds. work 0. fin 0. work 0. fin 0. work 0. eapply can_other; [split; [reflexivity|left; eapply d_join_workers; [reflexivity|constructor; [left; reflexivity|constructor]]]|]; norm. int d_join_none. rd. stop.
Qed.
(** a wait that is over although the test has not noticed: the rest of the program is still to be run *)
Lemma not_blocked_run : exists tr s seen, run no_throw no_deps no_sleep (initial 1 0) (wait_all_test 1) tr s [Read Active; Read Waiting; Read (Counter 1)] seen /\
  quiescent no_throw no_deps s.
Proof.
  do 3 eexists. split.
  { unfold wait_all_test, start. cbn [app repeat]. do 3 (apply run_read; [reflexivity|ret0|]).
    eapply run_call; [reflexivity|ret0|reflexivity|split; reflexivity|]; norm.
    eapply run_other; [split; [reflexivity|left; eapply i_notify_none; [reflexivity|intros [|[|?]]; discriminate]]|]; norm.
    eapply run_call; [reflexivity|ret0|reflexivity|split; reflexivity|]; norm.
    eapply run_other; [split; [reflexivity|left; eapply (i_check_all _ _ _ 0); reflexivity]|]; norm.
    eapply run_other; [split; [reflexivity|left; eapply (i_work _ _ _ 0); [reflexivity|exact I]]|]; norm.
    eapply run_other; [split; [reflexivity|left; eapply (i_finish _ _ _ 0); [reflexivity|reflexivity|intros ? []]]|]; norm.
    eapply run_other; [split; [reflexivity|left; eapply (i_work _ _ _ 0); [reflexivity|exact I]]|]; norm.
    eapply run_other; [split; [reflexivity|left; eapply (i_check_all _ _ _ 0); reflexivity]|]; norm. apply run_here. }
  apply idle_quiescent. reflexivity.
Qed.
Local Ltac slp := apply can_sleep; [reflexivity|ret0|split; [apply idle_quiescent; reflexivity|intros ? []]|].
Lemma sanity_run : exists tr s seen, run no_throw no_deps (settled no_throw no_deps) (initial 0 0) sanity tr s [] seen.
Proof.
  assert (C : can no_throw no_deps (settled no_throw no_deps) (initial 0 0) sanity (fun _ => True)).
  { unfold sanity. do 8 rd. call. unwoken. do 3 rd. call. work 0. fin 0. work 0. slp. do 9 rd. apply can_end. exact I. }
  destruct C as (tr & s & seen & R & _). eauto.
Qed.
Lemma restart_run : exists tr s seen, run no_throw no_deps (settled no_throw no_deps) (initial 1 0) restart_test tr s [] seen.
Proof.
  assert (C : can no_throw no_deps (settled no_throw no_deps) (initial 1 0) restart_test (fun _ => True)).
  { unfold restart_test, start. cbn [app]. do 3 rd. call. int i_spawn. int (i_assign _ _ _ 0 [] []). int (i_sched_loop _ _ _ 0).
    eapply can_other; [split; [reflexivity|right; right; exact (tk _ 1%Z)]|]; norm.
    eapply can_other; [split; [reflexivity|left; eapply (i_sched_timeout _ _ _ 0); [reflexivity|apply Z.leb_le; reflexivity]]|]; norm.
    int (i_sched_move _ _ _ 0). unwoken. work 0. fin 0. work 0. slp. do 4 rd.
    call. int i_spawn. int (i_assign _ _ _ 1 [] []). int (i_sched_loop _ _ _ 1).
    eapply can_other; [split; [reflexivity|right; right; exact (tk _ 2%Z)]|]; norm.
    eapply can_other; [split; [reflexivity|left; eapply (i_sched_timeout _ _ _ 1); [reflexivity|apply Z.leb_le; reflexivity]]|]; norm.
    int (i_sched_move _ _ _ 1).
    eapply can_other; [split; [reflexivity|left; eapply (i_notify_one _ _ _ 0); reflexivity]|]; norm. work 0. fin 0. work 0. slp. do 4 rd. apply can_end. exact I. }
  destruct C as (tr & s & seen & R & _). eauto.
Qed.
Lemma run_after_run : exists tr s seen, run no_throw no_deps (settled no_throw no_deps) (initial 1 0) run_after_test tr s [] seen.
Proof.
  assert (C : can no_throw no_deps (settled no_throw no_deps) (initial 1 0) run_after_test (fun _ => True)).
  { unfold run_after_test, start. cbn [app]. do 3 rd. call. int i_spawn. int (i_assign _ _ _ 0 [] []). int (i_sched_loop _ _ _ 0).
    eapply can_other; [split; [reflexivity|right; right; exact (tk _ 1%Z)]|]; norm.
    eapply can_other; [split; [reflexivity|left; eapply (i_sched_timeout _ _ _ 0); [reflexivity|apply Z.leb_le; reflexivity]]|]; norm.
    int (i_sched_move _ _ _ 0). unwoken. work 0. fin 0. work 0. slp. do 4 rd. apply can_end. exact I. }
  destruct C as (tr & s & seen & R & _). eauto.
Qed.
(** the exact condition for test_run_sync *)
Lemma run_sync_iff throws deps sleeps n N clock : plain throws deps -> 1 <= n ->
  ((forall tr s seen, run throws deps sleeps (initial n clock) (run_sync_test N) tr s [] seen -> run_sync_passes N seen) <-> n = 1 \/ N <= 1).
Proof.
  intros P L. split.
  - intros H. destruct (le_lt_dec n 1); [lia|]. destruct (le_lt_dec N 1); [lia|exfalso].
    destruct (run_sync_fails throws deps sleeps P n N clock) as (tr & s & seen & R & Q); [lia|lia|].
    destruct (H _ _ _ R) as (a & (w & l1 & E & _ & El) & La). destruct Q as (w' & l' & E' & _ & El'). subst l1 l'. rewrite E in E'. injection E' as _ E'.
    apply app_inv_head in E'. injection E' as ->. lia.
  - intros D tr s seen R. eapply run_sync_passes_proof; eauto.
Qed.
(** the failing runs violate what the tests assert *)
Lemma wait_none_fails' throws deps sleeps : plain throws deps -> forall n N clock, 1 <= n -> 1 <= N ->
  exists tr s seen, run throws deps sleeps (initial n clock) (wait_none_test true N) tr s [] seen /\
    after_start (fun l => l = [Z.of_nat N - 1; 0; 0]%Z) seen /\ ~ wait_none_passes true N seen.
Proof.
  intros P n N clock Ln LN. destruct (wait_none_fails throws deps sleeps P n N clock Ln LN) as (tr & s & seen & R & A). exists tr, s, seen.
  split; [exact R|]. split; [exact A|]. apply (fails _ _ _ A). intros l -> (a & c & E & L). injection E as <- <-. lia.
Qed.
Lemma high_priority_fails' throws deps sleeps : plain throws deps -> forall n N clock, 1 <= n -> 1 <= N ->
  exists tr s seen, run throws deps sleeps (initial n clock) (high_priority_test N) tr s [] seen /\
    after_start (fun l => l = [Z.of_nat N; 1%Z]) seen /\ ~ high_priority_passes N seen.
Proof.
  intros P n N clock Ln LN. destruct (high_priority_fails throws deps sleeps P n N clock Ln LN) as (tr & s & seen & R & A). exists tr, s, seen.
  split; [exact R|]. split; [exact A|]. apply (fails _ _ _ A). intros l -> (c & E & L). injection E as <-. lia.
Qed.
Lemma join_all_fails' throws deps sleeps : plain throws deps -> forall n N clock, 1 <= n ->
  exists tr s seen, run throws deps sleeps (initial n clock) (on_stop_test JoinAll N) tr s [] seen /\
    after_start (fun l => l = [Z.of_nat N]) seen /\ ~ join_all_passes N seen.
Proof.
  intros P n N clock Ln. destruct (join_all_fails throws deps sleeps P n N clock Ln) as (tr & s & seen & R & A). exists tr, s, seen.
  split; [exact R|]. split; [exact A|]. apply (fails _ _ _ A). intros l -> (c & E & L). injection E as <-. lia.
Qed.
Lemma run_async_fails' throws deps : plain throws deps -> forall n N clock time, 1 <= n -> 1 <= N ->
  exists tr s seen, run throws deps (until time) (initial n clock) (run_async_test N) tr s [] seen /\
    after_start (fun l => l = [0; 0; Z.of_nat N]%Z) seen /\ ~ run_async_passes N seen.
Proof.
  intros P n N clock time Ln LN. destruct (run_async_fails throws deps (until time) P n N clock time Ln LN (fun _ H => H)) as (tr & s & seen & R & A). exists tr, s, seen.
  split; [exact R|]. split; [exact A|]. apply (fails _ _ _ A). intros l -> (a & q & c & E & L & _). injection E as <- <- <-. lia.
Qed.
Lemma sanity_fails' throws deps : forall clock time,
  exists tr s seen, run throws deps (until time) (initial 0 clock) sanity tr s [] seen /\ ~ sanity_passes seen.
Proof.
  intros clock time. destruct (sanity_fails throws deps (until time) clock time (fun _ H => H)) as (tr & s & seen & R & ->). exists tr, s.
  eexists. split; [exact R|]. discriminate.
Qed.
Lemma run_after_fails' throws deps : forall n clock time, 1 <= n ->
  exists tr s seen, run throws deps (until time) (initial n clock) run_after_test tr s [] seen /\
    after_start (fun l => l = [0; 0; 1; 0]%Z) seen /\ ~ run_after_passes seen.
Proof.
  intros n clock time Ln. destruct (run_after_fails throws deps (until time) n clock time Ln (fun _ H => H)) as (tr & s & seen & R & A). exists tr, s, seen.
  split; [exact R|]. split; [exact A|]. apply (fails _ _ _ A). intros l -> E. discriminate E.
Qed.
