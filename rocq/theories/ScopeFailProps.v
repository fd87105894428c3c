(** C161. *)
From Coq Require Import List Bool Arith.
From Verif Require Import ScopeFailModel ScopeFailSpec ScopeFailProofs ScopeFailExamples.
Import ListNotations.

(** every task whose addition succeeded is run once, the last one first, whatever fails *)
Theorem added_tasks_run_once : forall ok init body e threw, run_program ok init body = (e, threw) -> brackets [] e = Some [].
Proof. exact program_brackets. Qed.
Print Assumptions added_tasks_run_once.
Example added_tasks_run_once_ex : run_program (fails 4) None nested = ([Acquired 1; Added 1; Added 2; Acquired 2; Ran 2; Ran 1], true) /\
  brackets [] [Acquired 1; Added 1; Added 2; Acquired 2; Ran 2; Ran 1] = Some [] /\ brackets [] [Added 1; Added 2; Ran 1; Ran 2] = None /\
  brackets [] [Added 1] = Some [1] /\ brackets [] [Added 1; Ran 1; Ran 1] = None.
Proof. exact nested_tasks. Qed.

(** what the documentation shows, acquiring and then adding the task, can leave the resource held *)
Theorem resources_released_refuted : exists ok init body e threw,
  added_after None (Block init body Done) /\ run_program ok init body = (e, threw) /\ exists r, held e r = true.
Proof. exact released_refuted. Qed.
Print Assumptions resources_released_refuted.
Example resources_released_refuted_ex : let p := Step (Acquire 1) (Step (Add 1) Done) in
  added_after None (Block None p Done) /\ run_program (fails 1) None p = ([Acquired 1], true) /\ held [Acquired 1] 1 = true.
Proof. exact leak. Qed.
(** exactly when: the addition directly after the acquisition fails *)
Theorem resource_kept_iff_addition_fails : forall ok r, let t := run_program ok None (Step (Acquire r) (Step (Add r) (Step Work Done))) in
  held (fst t) r = true <-> ok 0 (Acquire r) = true /\ ok 1 (Add r) = false.
Proof. exact acquire_add. Qed.
Print Assumptions resource_kept_iff_addition_fails.
Example resource_kept_iff_addition_fails_ex : fails 1 0 (Acquire 1) = true /\ fails 1 1 (Add 1) = false.
Proof. exact (conj eq_refl eq_refl). Qed.
Theorem resource_kept_iff_constructor_fails : forall ok r, let t := run_program ok None (Step (Acquire r) (Block (Some r) (Step Work Done) Done)) in
  held (fst t) r = true <-> ok 0 (Acquire r) = true /\ ok 1 (Add r) = false.
Proof. exact acquire_construct. Qed.
Print Assumptions resource_kept_iff_constructor_fails.
Example resource_kept_iff_constructor_fails_ex : fails 1 0 (Acquire 1) = true /\ fails 1 1 (Add 1) = false.
Proof. exact (conj eq_refl eq_refl). Qed.

(** missing: programs in which an addition fails *)
Theorem resources_released_partial : forall ok init body e threw, (forall c r, ok c (Add r) = true) -> added_after None (Block init body Done) ->
  run_program ok init body = (e, threw) -> forall r, held e r = false.
Proof. exact program_after. Qed.
Print Assumptions resources_released_partial.
Example resources_released_partial_ex : added_after None (Block None after_acquired Done) /\ (forall c r, work_fails 4 c (Add r) = true) /\
  run_program (work_fails 4) None after_acquired = ([Acquired 1; Added 1; Acquired 2; Added 2; Ran 2; Ran 1], true).
Proof. exact after_acquired_case. Qed.
(** adding the task first releases every resource, whatever fails *)
Theorem resources_released_if_added_first : forall ok init body e threw, guarded [] (Block init body Done) ->
  run_program ok init body = (e, threw) -> forall r, held e r = false.
Proof. exact program_released. Qed.
Print Assumptions resources_released_if_added_first.
Example resources_released_if_added_first_ex : guarded [] (Block None first_guarded Done) /\ run_program (fails 2) None first_guarded = ([Added 1; Acquired 1; Ran 1], true) /\
  run_program (fails 9) None first_guarded = ([Added 1; Acquired 1; Added 2; Acquired 2; Ran 2; Ran 1], false).
Proof. exact first_guarded_case. Qed.
