(** Executions of the logger whose two reads are separate. *)
From Coq Require Import List Bool Arith ZArith Lia.
From Verif Require Import Base ListUpdate LoggerModel LoggerSpec LoggerExamples LoggerSplitModel LoggerSplitSpec.
Import ListNotations.

Notation sstart := (@sinitial nat nat).
Lemma scalm_go (s0 : @split nat nat) tr s e s' tr' s'' : sexec_calm Nat.ltb s0 tr s -> sstep Nat.ltb s e s' -> calm_flush (base s) e -> s' = s'' -> tr ++ [e] = tr' ->
  sexec_calm Nat.ltb s0 tr' s''.
Proof. intros H1 H2 H3 <- <-. econstructor; eauto. Qed.
Local Ltac compute_it := match goal with |- ?a = ?b => let x := eval vm_compute in a in unify b x; vm_cast_no_check (@eq_refl _ x) end.
Local Ltac side := first [reflexivity | solve [cbv; intuition discriminate]].
Local Tactic Notation "cli" hyp(E) uconstr(c) := eapply scalm_go in E; [|right; eexists; split; [left; eapply c; side|reflexivity]|cbv; auto|compute_it|compute_it].
Local Tactic Notation "int" hyp(E) uconstr(c) := eapply scalm_go in E; [|left; eapply s_inner; [eapply c; side|exact I|first [left; reflexivity|right; reflexivity]]|cbv; auto|compute_it|compute_it].
Local Tactic Notation "own" hyp(E) uconstr(c) := eapply scalm_go in E; [|left; eapply c; side|cbv; auto|compute_it|compute_it].

(** the maximum size is set to 1 after it was read as unlimited: the entry is accepted, although its buffer already has one *)
Lemma gap_execution : exists tr s, sexec_calm Nat.ltb (sstart 0 0 5 0) tr s /\ adding s = None /\ max_size (base s) = 1 /\
  length (buffer Nat.ltb 7 (lfiles (base s))) = 2 /\ exists l1 e l2, tr = l1 ++ EMax 1 :: EAccept e :: l2 /\ acceptances l1 = [0].
Proof.
  pose proof (scalm_nil Nat.ltb (sstart 0 0 5 0)) as E.
  cli E (c_call _ 0 7 5%Z 1). int E (p_check _ _ _ []). int E (p_time _ _ _ []). own E (s_read _ _ _ []). own E (s_add _ _ _ _ []).
  cli E (c_call _ 0 7 5%Z 1). int E (p_check _ _ _ []). int E (p_time _ _ _ []). own E (s_read _ _ _ []). cli E (c_max _ 1). own E (s_add _ _ _ _ []).
  do 2 eexists. split; [exact E|]. split; [reflexivity|]. split; [reflexivity|]. split; [reflexivity|].
  match goal with |- exists l1 e l2, ?tr = _ /\ _ => exists (firstn 9 tr) end. do 2 eexists. split; reflexivity.
Qed.
Lemma idle_squiescent (b : @logger nat nat) : quiescent Nat.ltb b -> calls b = [] -> squiescent Nat.ltb (Split b None).
Proof.
  intros Q C ev s' H. inversion H as [e l1 l2 A E Hd|e m l1 l2 A E|ev' b' S N F]; subst; cbn in *.
  - rewrite C in E. destruct l1; discriminate.
  - discriminate.
  - exact (Q _ _ S).
Qed.
(** the flush size is set to 1 between the two reads *)
Lemma gap_flush : exists tr s, sexec_calm Nat.ltb (sstart 0 0 5 0) tr s /\ squiescent Nat.ltb s /\ dtor (base s) = DNone /\
  length (written_to Nat.ltb 7 tr) = 1 /\ buffer Nat.ltb 7 (lfiles (base s)) = [].
Proof.
  pose proof (scalm_nil Nat.ltb (sstart 0 0 5 0)) as E.
  int E l_start. int E l_check. int E l_scan. int E l_check. int E l_wait.
  cli E (c_call _ 0 7 8%Z 1). int E (p_check _ _ _ []). int E (p_time _ _ _ []). own E (s_read _ _ _ []). cli E (c_flush _ 1). int E f_notify.
  own E (s_add _ _ _ _ []). int E (p_notify _ _ _ []).
  int E l_woken. int E l_check. int E l_scan. int E l_open. int E l_write. int E l_written. int E l_erase. int E l_scan.
  int E l_check. int E l_scan. int E l_scan. int E l_check. int E l_wait.
  do 2 eexists. split; [exact E|]. split; [apply idle_squiescent; [apply idle_quiescent; reflexivity|reflexivity]|]. repeat split.
Qed.
