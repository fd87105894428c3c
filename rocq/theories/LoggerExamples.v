(** Concrete executions of the logger: counterexamples to the claims that fail, and executions that meet the
    hypotheses of the theorems.  File names and messages are numbers. *)
From Coq Require Import List Bool Arith ZArith Lia.
From Verif Require Import Base ListUpdate LoggerModel LoggerSpec LoggerProofs LoggerAccount LoggerLive.
Import ListNotations.

Lemma nat_order : strict_total_order Nat.ltb.
Proof.
  split.
  - intros x. apply Nat.ltb_irrefl.
  - intros x y z A B. apply Nat.ltb_lt in A, B. apply Nat.ltb_lt. lia.
  - intros x y A B. apply Nat.ltb_ge in A, B. lia.
Qed.

Notation exec_nat := (@exec nat nat Nat.ltb).
Notation step_nat := (@step nat nat Nat.ltb).
Notation start := (@initial nat nat).
Lemma exec_go (s0 : @logger nat nat) tr s e s' tr' s'' : exec_nat s0 tr s -> step_nat s e s' -> s' = s'' -> tr ++ [e] = tr' -> exec_nat s0 tr' s''.
Proof. intros H1 H2 <- <-. econstructor; eauto. Qed.
Lemma calm_go (s0 : @logger nat nat) tr s e s' tr' s'' : exec_calm Nat.ltb s0 tr s -> step_nat s e s' -> calm_flush s e -> s' = s'' -> tr ++ [e] = tr' ->
  exec_calm Nat.ltb s0 tr' s''.
Proof. intros H1 H2 H3 <- <-. econstructor; eauto. Qed.
Local Ltac compute_it := match goal with |- ?a = ?b => let x := eval vm_compute in a in unify b x; vm_cast_no_check (@eq_refl _ x) end.
Local Ltac side := first [reflexivity | solve [cbv; intuition discriminate]].
Local Tactic Notation "cli" hyp(E) uconstr(c) := eapply exec_go in E; [|left; eapply c; side|compute_it|compute_it].
Local Tactic Notation "int" hyp(E) uconstr(c) := eapply exec_go in E; [|right; left; eapply c; side|compute_it|compute_it].
Local Tactic Notation "flt" hyp(E) uconstr(c) := eapply exec_go in E; [|right; right; left; eapply c; side|compute_it|compute_it].
Local Tactic Notation "oth" hyp(E) uconstr(c) := eapply exec_go in E; [|right; right; right; eapply c; side|compute_it|compute_it].
Local Tactic Notation "ccli" hyp(E) uconstr(c) := eapply calm_go in E; [|left; eapply c; side|cbv; auto|compute_it|compute_it].
Local Tactic Notation "cint" hyp(E) uconstr(c) := eapply calm_go in E; [|right; left; eapply c; side|cbv; auto|compute_it|compute_it].


(** a test for quiescence *)
Definition idle (s : @logger nat nat) : bool :=
  match pc s with LWaiting | LExited => true | _ => false end && (length (calls s) =? 0) && (pend s =? 0) &&
  match dtor s with DNone | DDone => true | DNotified => match pc s with LExited => false | _ => true end | _ => false end.
Lemma idle_quiescent s : idle s = true -> quiescent Nat.ltb s.
Proof.
  unfold idle. rewrite !andb_true_iff. intros (((P & C) & Q) & D) e s' H. apply Nat.eqb_eq in C, Q.
  destruct H as [x l1 l2 Hc|x l1 l2 Hc|x l1 l2 Hc Hh|x l1 l2 Hc|n Hn|P'|sw P'|P'|P'|sw p P'|k todo P'|k x todo n P'|k n P'|k n P'
                  |D'|D' P'|p D'|k todo D'|k x todo D'|k D']; try (rewrite P' in P; discriminate); try congruence;
    try (rewrite D' in D; discriminate); try (rewrite Hc, app_length in C; cbn in C; lia).
  rewrite D', P' in D. discriminate.
Qed.

(** ** A whole life: two threads log to two files, the logging thread writes one of them, the destructor the rest *)
Lemma whole_life : exists tr1 s1 s2 tr2 s,
  exec_nat (start 0 0 2 100) tr1 s1 /\ step_nat s1 EDestroy s2 /\ exec_nat s2 tr2 s /\ dtor s = DDone /\
  (forall k, ~ In (EFail k) tr2) /\ quiescent Nat.ltb s1 /\
  map e_msg (accepted_for Nat.ltb 7 tr1) = [1; 2] /\ map e_msg (written_to Nat.ltb 7 tr1) = [1; 2] /\
  map e_msg (accepted_for Nat.ltb 5 tr1) = [3] /\ written_to Nat.ltb 5 tr1 = [] /\
  map e_msg (written_to Nat.ltb 5 (tr1 ++ EDestroy :: tr2)) = [3] /\ (exists e, In (EAccept e) tr1 /\ e_level e = 5%Z).
Proof.
  pose proof (exec_nil Nat.ltb (start 0 0 2 100)) as E.
  cli E (c_call _ 0 7 5%Z 1). cli E (c_call _ 1 5 3%Z 3). int E (p_check _ _ _ []). int E (p_time _ _ _ []). oth E (tk _ 101%Z).
  int E (p_check _ _ _ [_]). int E (p_time _ _ _ [_]). int E (p_add _ _ _ []). int E (p_add _ _ _ []).
  cli E (c_call _ 0 7 5%Z 2). int E l_start. int E l_check. int E (p_check _ _ _ []). int E l_scan. int E l_scan. int E (p_time _ _ _ []).
  int E l_scan. int E l_check. int E l_wait. int E (p_add _ _ _ []). int E (p_notify _ _ _ []). int E l_woken. int E l_check.
  int E l_scan. int E l_scan. int E l_open. int E l_write. int E l_write. int E l_written. int E l_erase. int E l_scan. int E l_check.
  int E l_scan. int E l_scan. int E l_scan. int E l_check. int E l_wait.
  do 2 eexists.
  match type of E with exec _ _ _ ?s => assert (S : step_nat s EDestroy (set_dtor DStopped (set_logging false s))) by (left; constructor; reflexivity) end.
  cbn in S. match type of S with step _ _ _ ?s => pose proof (exec_nil Nat.ltb s) as F end.
  int F d_notify. int F l_woken. int F l_check. int F d_join. int F d_flush. int F d_open. int F d_write. int F d_written. int F d_flush. int F d_flush.
  do 3 eexists. split; [exact E|]. split; [exact S|]. split; [exact F|]. split; [reflexivity|]. split; [cbn; intuition discriminate|].
  split; [apply idle_quiescent; reflexivity|]. repeat split. eexists. split; [cbn; right; right; right; right; right; right; right; left; reflexivity|reflexivity].
Qed.

(** ** C60 *)
Lemma discarding_execution : exists tr s, exec_nat (start 0 1 5 0) tr s /\ max_size s = 1 /\ (forall m, ~ In (EMax m) tr) /\
  passes tr = [0; 1; 2] /\ acceptances tr = [0] /\ discards tr = [1] /\ flat_map undecided (calls s) = [2] /\ discarded s = 1 /\
  length (buffer Nat.ltb 7 (lfiles s)) = 1.
Proof.
  pose proof (exec_nil Nat.ltb (start 0 1 5 0)) as E.
  cli E (c_call _ 0 7 5%Z 1). int E (p_check _ _ _ []). int E (p_time _ _ _ []). int E (p_add _ _ _ []).
  cli E (c_call _ 0 7 5%Z 2). int E (p_check _ _ _ []). int E (p_time _ _ _ []). int E (p_add _ _ _ []).
  cli E (c_call _ 0 7 5%Z 3). int E (p_check _ _ _ []).
  do 2 eexists. split; [exact E|]. split; [reflexivity|]. split; [cbn; intuition discriminate|]. repeat split.
Qed.
(** two entries are discarded, then the number is reset, then another is *)
Lemma reset_execution : exists tr s, exec_nat (start 0 1 5 0) tr s /\ discards tr = [1; 2; 3] /\ In EReset tr /\ discarded s = 1.
Proof.
  pose proof (exec_nil Nat.ltb (start 0 1 5 0)) as E.
  cli E (c_call _ 0 7 5%Z 1). int E (p_check _ _ _ []). int E (p_time _ _ _ []). int E (p_add _ _ _ []).
  cli E (c_call _ 0 7 5%Z 2). int E (p_check _ _ _ []). int E (p_time _ _ _ []). int E (p_add _ _ _ []).
  cli E (c_call _ 0 7 5%Z 3). int E (p_check _ _ _ []). int E (p_time _ _ _ []). int E (p_add _ _ _ []). cli E c_reset.
  cli E (c_call _ 0 7 5%Z 4). int E (p_check _ _ _ []). int E (p_time _ _ _ []). int E (p_add _ _ _ []).
  do 2 eexists. split; [exact E|]. split; [reflexivity|]. split; [cbn; tauto|reflexivity].
Qed.

(** ** C61: at level off (9) a fatal entry (8) is rejected, and accepted at level 8 *)
Lemma level_execution : exists tr s e1 e2, exec_nat (start 9 0 5 0) tr s /\ In (EReject e1) tr /\ e_level e1 = 8%Z /\
  In (EAccept e2) tr /\ e_level e2 = 8%Z.
Proof.
  pose proof (exec_nil Nat.ltb (start 9 0 5 0)) as E.
  cli E (c_call _ 0 7 8%Z 1). int E (p_check _ _ _ []). cli E (c_level _ 8%Z).
  cli E (c_call _ 0 7 8%Z 2). int E (p_check _ _ _ []). int E (p_time _ _ _ []). int E (p_add _ _ _ []).
  do 4 eexists. split; [exact E|]. split; [cbn; right; left; reflexivity|]. split; [reflexivity|].
  split; [cbn; do 6 right; left; reflexivity|reflexivity].
Qed.

(** ** Two entries of one thread *)
Lemma ordered_execution : exists tr s e1 e2, exec_nat (start 0 0 5 100) tr s /\ forward 100 tr /\ before (accepted_entries tr) e1 e2 /\
  e_thread e1 = e_thread e2 /\ e_id e1 = 0 /\ e_id e2 = 1 /\ e_time e1 = 100%Z /\ e_time e2 = 105%Z.
Proof.
  pose proof (exec_nil Nat.ltb (start 0 0 5 100)) as E.
  cli E (c_call _ 0 7 8%Z 1). int E (p_check _ _ _ []). int E (p_time _ _ _ []). int E (p_add _ _ _ []). oth E (tk _ 105%Z).
  cli E (c_call _ 0 7 8%Z 2). int E (p_check _ _ _ []). int E (p_time _ _ _ []). int E (p_add _ _ _ []).
  do 4 eexists. split; [exact E|]. split; [cbn; lia|]. split; [exists [], [], []; reflexivity|]. repeat split.
Qed.
(** two threads: the later time stamp is first in the file *)
Lemma times_out_of_order : exists tr s e1 e2, exec_nat (start 0 0 5 100) tr s /\ forward 100 tr /\
  before (accepted_for Nat.ltb 7 tr) e1 e2 /\ (e_time e2 < e_time e1)%Z.
Proof.
  pose proof (exec_nil Nat.ltb (start 0 0 5 100)) as E.
  cli E (c_call _ 0 7 8%Z 1). cli E (c_call _ 1 7 8%Z 2). int E (p_check _ _ _ []). int E (p_time _ _ _ []). oth E (tk _ 105%Z).
  int E (p_check _ _ _ [_]). int E (p_time _ _ _ [_]). int E (p_add _ _ _ [_]). int E (p_add _ _ _ []).
  do 4 eexists. split; [exact E|]. split; [cbn; lia|]. split; [exists [], [], []; reflexivity|]. reflexivity.
Qed.

(** ** C62 *)
Lemma asleep_execution : exists tr s, exec_calm Nat.ltb (start 0 0 1 0) tr s /\ pc s = LWaiting /\
  due (flush_size s) (buffer Nat.ltb 7 (lfiles s)) /\ (exists e, calls s = [CNotify e]).
Proof.
  pose proof (calm_nil Nat.ltb (start 0 0 1 0)) as E.
  cint E l_start. cint E l_check. cint E l_scan. cint E l_check. cint E l_wait.
  ccli E (c_call _ 0 7 8%Z 1). cint E (p_check _ _ _ []). cint E (p_time _ _ _ []). cint E (p_add _ _ _ []).
  do 2 eexists. split; [exact E|]. split; [reflexivity|]. split; [split; [discriminate|cbn; lia]|eexists; reflexivity].
Qed.
Lemma flushed_execution : exists tr s, exec_calm Nat.ltb (start 0 0 1 0) tr s /\ quiescent Nat.ltb s /\ dtor s = DNone /\
  length (written_to Nat.ltb 7 tr) = 1 /\ buffer Nat.ltb 7 (lfiles s) = [].
Proof.
  pose proof (calm_nil Nat.ltb (start 0 0 1 0)) as E.
  cint E l_start. cint E l_check. cint E l_scan. cint E l_check. cint E l_wait.
  ccli E (c_call _ 0 7 8%Z 1). cint E (p_check _ _ _ []). cint E (p_time _ _ _ []). cint E (p_add _ _ _ []). cint E (p_notify _ _ _ []).
  cint E l_woken. cint E l_check. cint E l_scan. cint E l_open. cint E l_write. cint E l_written. cint E l_erase. cint E l_scan.
  cint E l_check. cint E l_scan. cint E l_scan. cint E l_check. cint E l_wait.
  do 2 eexists. split; [exact E|]. split; [apply idle_quiescent; reflexivity|]. repeat split.
Qed.
(** buffer_flush_size(1) while the logging thread is past the file in its scan: its notification comes too early *)
Lemma flush_size_race : exists tr s, exec_nat (start 0 0 2 0) tr s /\ quiescent Nat.ltb s /\ dtor s = DNone /\
  flush_size s = 1 /\ due (flush_size s) (buffer Nat.ltb 7 (lfiles s)).
Proof.
  pose proof (exec_nil Nat.ltb (start 0 0 2 0)) as E.
  cli E (c_call _ 0 7 8%Z 1). int E (p_check _ _ _ []). int E (p_time _ _ _ []). int E (p_add _ _ _ []).
  int E l_start. int E l_check. int E l_scan. cli E (c_flush _ 1). int E f_notify. int E l_scan. int E l_check. int E l_wait.
  do 2 eexists. split; [exact E|]. split; [apply idle_quiescent; reflexivity|]. split; [reflexivity|]. split; [reflexivity|].
  split; [discriminate|cbn; lia].
Qed.

(** ** C63 *)
Lemma lost_stop : exists tr s, exec_nat (start 0 0 1 0) tr s /\ quiescent Nat.ltb s /\ In EDestroy tr /\ dtor s <> DDone /\ pc s = LWaiting.
Proof.
  pose proof (exec_nil Nat.ltb (start 0 0 1 0)) as E.
  int E l_start. int E l_check. int E l_scan. int E l_check. cli E c_destroy. int E d_notify. int E l_wait.
  do 2 eexists. split; [exact E|]. split; [apply idle_quiescent; reflexivity|]. split; [cbn; auto 10|]. split; [discriminate|reflexivity].
Qed.
Lemma good_stop : exists tr1 s1 s2 tr2 s, exec_nat (start 0 0 1 0) tr1 s1 /\ step_nat s1 EWakeAll s2 /\ pc s1 <> LWaitEnter /\
  exec_nat s2 tr2 s /\ quiescent Nat.ltb s.
Proof.
  pose proof (exec_nil Nat.ltb (start 0 0 1 0)) as E.
  int E l_start. int E l_check. int E l_scan. int E l_check. int E l_wait. cli E c_destroy.
  do 2 eexists.
  match type of E with exec _ _ _ ?s => assert (S : step_nat s EWakeAll (set_dtor DNotified (set_pc (wake (pc s)) s))) by (right; left; apply d_notify; reflexivity) end.
  cbn in S. match type of S with step _ _ _ ?s => pose proof (exec_nil Nat.ltb s) as F end.
  int F l_woken. int F l_check. int F d_join. int F d_flush.
  do 3 eexists. split; [exact E|]. split; [exact S|]. split; [discriminate|]. split; [exact F|]. apply idle_quiescent; reflexivity.
Qed.

(** ** A file that cannot be opened keeps the logging thread running *)
Definition own_step (ev : @event nat nat) : bool := match ev with ETau | EErase _ _ | EFail _ => true | _ => false end.
Lemma busy_loop : exists tr1 s tr2, exec_nat (start 0 0 1 0) tr1 s /\ exec_nat s tr2 s /\ tr2 <> [] /\ forallb own_step tr2 = true /\
  calls s = [] /\ pend s = 0 /\ dtor s = DNone.
Proof.
  pose proof (exec_nil Nat.ltb (start 0 0 1 0)) as E.
  cli E (c_call _ 0 7 8%Z 1). int E (p_check _ _ _ []). int E (p_time _ _ _ []). int E (p_add _ _ _ []). int E (p_notify _ _ _ []).
  int E l_start. int E l_check. int E l_scan.
  match type of E with exec _ _ _ ?s => pose proof (exec_nil Nat.ltb s) as F end.
  flt F l_fail_open. int F l_erase. int F l_scan. int F l_check. int F l_scan.
  do 3 eexists. split; [exact E|]. split; [exact F|]. split; [discriminate|]. repeat split.
Qed.

(** ** A maximum below the flush size *)
Lemma starved_execution : exists tr s, exec_nat (start 0 1 2 0) tr s /\ quiescent Nat.ltb s /\ dtor s = DNone /\
  (forall n, ~ In (EMax n) tr) /\ (forall n, ~ In (EFlush n) tr) /\ ~ In EDestroy tr /\
  length (buffer Nat.ltb 7 (lfiles s)) = max_size s /\ discarded s = 1 /\ written_to Nat.ltb 7 tr = [].
Proof.
  pose proof (exec_nil Nat.ltb (start 0 1 2 0)) as E.
  cli E (c_call _ 0 7 5%Z 1). int E (p_check _ _ _ []). int E (p_time _ _ _ []). int E (p_add _ _ _ []).
  cli E (c_call _ 0 7 5%Z 2). int E (p_check _ _ _ []). int E (p_time _ _ _ []). int E (p_add _ _ _ []).
  int E l_start. int E l_check. int E l_scan. int E l_scan. int E l_check. int E l_wait.
  do 2 eexists. split; [exact E|]. split; [apply idle_quiescent; reflexivity|]. split; [reflexivity|].
  split; [cbn; intuition discriminate|]. split; [cbn; intuition discriminate|]. split; [cbn; intuition discriminate|]. repeat split.
Qed.

Lemma settling : exists s, internals Nat.ltb 5 (start 0 0 1 0) s /\ quiescent Nat.ltb s.
Proof.
  eexists. split.
  - eapply internals_S; [apply l_start; reflexivity|]. eapply internals_S; [eapply l_check; reflexivity|].
    eapply internals_S; [eapply l_scan; reflexivity|]. eapply internals_S; [eapply l_check; reflexivity|].
    eapply internals_S; [eapply l_wait; reflexivity|]. apply internals_0.
  - apply idle_quiescent. reflexivity.
Qed.

(** ** C100 *)
Lemma settings_execution : exists tr s, exec_nat (start 1 2 3 0) tr s /\
  tr = [ELevel 5; EMax 6; ELevel 7; EFlush 8] /\ level s = 7%Z /\ max_size s = 6 /\ flush_size s = 8.
Proof.
  pose proof (exec_nil Nat.ltb (start 1 2 3 0)) as E.
  cli E (c_level _ 5%Z). cli E (c_max _ 6). cli E (c_level _ 7%Z). cli E (c_flush _ 8).
  do 2 eexists. split; [exact E|]. repeat split.
Qed.

(** two threads that log one after the other *)
Lemma separate_execution : exists a e1 b e2 c s e0, exec_nat (start 0 0 5 100) (a ++ EAccept e1 :: b ++ EAccept e2 :: c) s /\
  forward 100 (a ++ EAccept e1 :: b ++ EAccept e2 :: c) /\ In (ECall e0) b /\ e_id e0 = e_id e2 /\
  e_thread e1 <> e_thread e2 /\ e_time e1 = 100%Z /\ e_time e2 = 105%Z.
Proof.
  pose proof (exec_nil Nat.ltb (start 0 0 5 100)) as E.
  cli E (c_call _ 0 7 8%Z 1). int E (p_check _ _ _ []). int E (p_time _ _ _ []). int E (p_add _ _ _ []). oth E (tk _ 105%Z).
  cli E (c_call _ 1 7 8%Z 2). int E (p_check _ _ _ []). int E (p_time _ _ _ []). int E (p_add _ _ _ []).
  match type of E with exec _ _ [?x1; ?x2; ?x3; EAccept ?y1; ?z1; ?z2; ?z3; ?z4; EAccept ?y2] ?s =>
    match z2 with ECall ?e0 => exists [x1; x2; x3], y1, [z1; z2; z3; z4], y2, [], s, e0 end end.
  split; [exact E|]. split; [cbn; lia|]. split; [cbn; auto|]. repeat split. discriminate.
Qed.
(** a buffer of at most one entry, flushed at one entry *)
Lemma not_full_execution : exists tr s, exec_calm Nat.ltb (start 0 1 1 0) tr s /\ quiescent Nat.ltb s /\ dtor s = DNone /\
  0 < max_size s /\ flush_size s <= max_size s /\ length (accepted_for Nat.ltb 7 tr) = 1.
Proof.
  pose proof (calm_nil Nat.ltb (start 0 1 1 0)) as E.
  cint E l_start. cint E l_check. cint E l_scan. cint E l_check. cint E l_wait.
  ccli E (c_call _ 0 7 8%Z 1). cint E (p_check _ _ _ []). cint E (p_time _ _ _ []). cint E (p_add _ _ _ []). cint E (p_notify _ _ _ []).
  cint E l_woken. cint E l_check. cint E l_scan. cint E l_open. cint E l_write. cint E l_written. cint E l_erase. cint E l_scan.
  cint E l_check. cint E l_scan. cint E l_scan. cint E l_check. cint E l_wait.
  do 2 eexists. split; [exact E|]. split; [apply idle_quiescent; reflexivity|]. split; [reflexivity|]. cbn. repeat split; lia.
Qed.
(** a write fails once; afterwards the logging thread writes the entry and sleeps *)
Lemma sleeps_execution : exists tr s, exec_nat (start 0 0 1 0) tr s /\ quiescent Nat.ltb s /\ dtor s = DNone /\ In (EFail 7) tr /\
  length (written_to Nat.ltb 7 tr) = 1.
Proof.
  pose proof (exec_nil Nat.ltb (start 0 0 1 0)) as E.
  cli E (c_call _ 0 7 8%Z 1). int E (p_check _ _ _ []). int E (p_time _ _ _ []). int E (p_add _ _ _ []). int E (p_notify _ _ _ []).
  int E l_start. int E l_check. int E l_scan. flt E l_fail_open. int E l_erase. int E l_scan. int E l_check. int E l_scan.
  int E l_open. int E l_write. int E l_written. int E l_erase. int E l_scan. int E l_check. int E l_scan. int E l_scan. int E l_check. int E l_wait.
  do 2 eexists. split; [exact E|]. split; [apply idle_quiescent; reflexivity|]. split; [reflexivity|]. split; [cbn; tauto|reflexivity].
Qed.
