(** The repository's own tests of the scope guards (/repo/tests/scope_tests.cpp), evaluated on the model.  They are tests
    of the model, not proofs about it (see StringTests.v).  Setting [changed] is [Emit 1]; the assertion in the block,
    which must find it false, is [Emit 0].  A guard made from a task and one to which the task is added have the same
    stack of tasks ([same_stack]), so each block stands for two tests. *)
From Coq Require Import List.
From Verif Require Import Base ScopeModel.
Import ListNotations.

Lemma same_stack t : constructed t = add t default_constructed.
Proof. reflexivity. Qed.

Definition succeeds (g : kind) : stmt := Guard g (Task (Emit 1) NoTask) (Emit 0).
Definition fails (g : kind) : stmt := Try (Guard g (Task (Emit 1) NoTask) (Seq (Emit 0) Raise)) Skip.

(* scope_tests.cpp 16-30, 53-64 *)
Example test_on_scope_exit_with_success : exec 0 (succeeds OnExit) = ([0; 1], Normal). Proof. reflexivity. Qed.
(* 32-51, 66-81 *)
Example test_on_scope_exit_with_fail : exec 0 (fails OnExit) = ([0; 1], Normal). Proof. reflexivity. Qed.
(* 83-97, 120-131 *)
Example test_on_scope_success_with_success : exec 0 (succeeds OnSuccess) = ([0; 1], Normal). Proof. reflexivity. Qed.
(* 99-118, 133-148 *)
Example test_on_scope_success_with_fail : exec 0 (fails OnSuccess) = ([0], Normal). Proof. reflexivity. Qed.
(* 150-164, 187-198 *)
Example test_on_scope_fail_with_success : exec 0 (succeeds OnFail) = ([0], Normal). Proof. reflexivity. Qed.
(* 166-185, 200-213 *)
Example test_on_scope_fail_with_fail : exec 0 (fails OnFail) = ([0; 1], Normal). Proof. reflexivity. Qed.
