(** Executions for LoggerUseProps.v. *)
From Coq Require Import List Bool Arith ZArith Lia.
From Verif Require Import Base ListUpdate LoggerModel LoggerSpec LoggerProofs LoggerExamples LoggerUseModel LoggerUseSpec.
Import ListNotations.

Local Ltac compute_it := match goal with |- ?a = ?b => let x := eval vm_compute in a in unify b x; vm_cast_no_check (@eq_refl _ x) end.
Local Ltac side := first [reflexivity | solve [cbv; intuition discriminate]].
Local Tactic Notation "cli" hyp(E) uconstr(c) := eapply exec_go in E; [|left; eapply c; side|compute_it|compute_it].
Local Tactic Notation "int" hyp(E) uconstr(c) := eapply exec_go in E; [|right; left; eapply c; side|compute_it|compute_it].

(** the destructor has begun while the logging thread is writing *)
Lemma writing_not_logging : exists tr s, exec_nat (start 0 0 1 100) tr s /\ is_logging s = false /\ thread_runs s /\
  exists k todo n, pc s = LWrite k todo n /\ todo <> [].
Proof.
  pose proof (exec_nil Nat.ltb (start 0 0 1 100)) as E.
  cli E (c_call _ 0 7 5%Z 1). int E (p_check _ _ _ []). int E (p_time _ _ _ []). int E (p_add _ _ _ []). int E (p_notify _ _ _ []).
  int E l_start. int E l_check. int E l_scan. int E l_open. cli E c_destroy.
  do 2 eexists. split; [exact E|]. split; [reflexivity|]. split; [intros Q; discriminate Q|]. do 3 eexists. split; [reflexivity|discriminate].
Qed.
(** and a logger that is logging: its thread sleeps *)
Lemma sleeping_logging : exists tr s, exec_nat (start 0 0 1 100) tr s /\ is_logging s = true /\ pc s = LWaiting.
Proof.
  pose proof (exec_nil Nat.ltb (start 0 0 1 100)) as E. int E l_start. int E l_check. int E l_scan. int E l_check. int E l_wait.
  do 2 eexists. split; [exact E|]. split; reflexivity.
Qed.

(** the strings of call 0 live as long as the call *)
Lemma released_after_return : exists h a b s1 s, h = a ++ Release 0 :: b /\
  exec_nat (start 0 0 1 100) (events a) s1 /\ returned 0 s1 /\ exec_nat s1 (events b) s /\ reads_released h.
Proof.
  pose proof (exec_nil Nat.ltb (start 0 0 1 100)) as E.
  cli E (c_call _ 0 7 5%Z 1). int E (p_check _ _ _ []). int E (p_time _ _ _ []). int E (p_add _ _ _ []). int E (p_notify _ _ _ []).
  match type of E with exec _ _ ?tr ?s1 => pose proof (exec_nil Nat.ltb s1) as F end.
  int F l_start. int F l_check. int F l_scan. int F l_open. int F l_write.
  match type of E with exec _ _ ?tr ?s1 => match type of F with exec _ _ ?tr2 ?s2 =>
    exists (map Do tr ++ Release 0 :: map Do tr2), (map Do tr), (map Do tr2), s1, s2 end end.
  split; [reflexivity|]. split; [exact E|]. split; [split; [cbn; lia|intros c []]|]. split; [exact F|].
  match goal with |- reads_released (?a ++ Release 0 :: ?b) => exists a, 0, (removelast b), (last (events b) ETau), [] end.
  split; [reflexivity|left; reflexivity].
Qed.
(** strings released when the call is over: call 0 is written, call 1 is rejected *)
Lemma patient_history : exists h s, exec_nat (start 4 0 1 100) (events h) s /\ patient h /\ In (Release 0) h /\ In (Release 1) h.
Proof.
  pose proof (exec_nil Nat.ltb (start 4 0 1 100)) as E.
  cli E (c_call _ 0 7 5%Z 1). int E (p_check _ _ _ []). int E (p_time _ _ _ []). int E (p_add _ _ _ []). int E (p_notify _ _ _ []).
  cli E (c_call _ 0 7 3%Z 2). int E (p_check _ _ _ []).
  int E l_start. int E l_check. int E l_scan. int E l_open. int E l_write. int E l_written.
  match type of E with exec _ _ ?tr ?s1 => exists (map Do tr ++ [Release 0; Release 1]), s1 end.
  split; [exact E|]. split; [|cbn; intuition].
  intros a i b H. do 13 (destruct a as [|? a]; [discriminate H|injection H as <- H]).
  destruct a as [|? a].
  { injection H as <- <-. right. right. left. do 2 eexists. split; [cbn; do 11 right; left; reflexivity|reflexivity]. }
  injection H as <- H. destruct a as [|? a]; [|injection H as _ H; destruct a; discriminate].
  injection H as <- <-. left. cbn. auto.
Qed.
(** an entry that is accepted and not yet written, in a logger that sleeps *)
Lemma unwritten_entry : exists tr s e, exec_nat (start 0 0 5 100) tr s /\ dtor s = DNone /\ In (EAccept e) tr /\
  ~ written_call (e_id e) tr /\ returned (e_id e) s.
Proof.
  pose proof (exec_nil Nat.ltb (start 0 0 5 100)) as E.
  cli E (c_call _ 0 7 5%Z 1). int E (p_check _ _ _ []). int E (p_time _ _ _ []). int E (p_add _ _ _ []).
  do 3 eexists. split; [exact E|]. split; [reflexivity|]. split; [cbn; do 3 right; left; reflexivity|].
  split; [intros (k & e & H & _); cbn in H; intuition discriminate|]. split; [cbn; lia|intros c []].
Qed.
