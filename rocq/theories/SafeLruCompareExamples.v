(** Executions for SafeLruCompareProps.v. *)
From Coq Require Import List Bool Arith.
From Verif Require Import Base LruApi LruModel LruSpec LruCompareModel LruCompareSpec SafeLruModel SafeLruCompareModel SafeLruCompareSpec.
Import ListNotations.

Local Tactic Notation "go" hyp(E) uconstr(c) :=
  eapply exec_step in E; [|eapply c; reflexivity]; cbn in E.

(** thread 0's second insert throws while thread 1 waits for the lock *)
Definition comparing : list (list (lru_op nat nat * cmp_faults)) :=
  [[(Insert 1 10, no_cmp); (Insert 2 20, mkCmp false (Some 0) false)]; [(Get 1 0, no_cmp)]].
Lemma comparing_execution : exists n s, exec Nat.ltb comparing 1 n
    [Inv (0, 0) (Insert 1 10, no_cmp); Res (0, 0) (Some (RBool true)); Inv (0, 1) (Insert 2 20, mkCmp false (Some 0) false);
     Inv (1, 0) (Get 1 0, no_cmp); Res (0, 1) None; Res (1, 0) (Some (RGet true 10))] s /\
  completed comparing s /\
  no_emplace [Inv (0, 0) (Insert 1 10, no_cmp); Res (0, 0) (Some (RBool (V:=nat) true)); Inv (0, 1) (Insert 2 20, mkCmp false (Some 0) false);
     Inv (1, 0) (Get 1 0, no_cmp); Res (0, 1) None; Res (1, 0) (Some (RGet true 10))].
Proof.
  pose proof (exec_start Nat.ltb comparing 1) as E.
  go E (step_call _ _ _ 0). go E (step_lock_exclusive _ _ _ 0). go E (step_begin _ _ _ 0). go E (step_end _ _ _ 0). go E (step_unlock _ _ _ 0). go E (step_return _ _ _ 0).
  go E (step_call _ _ _ 0). go E (step_lock_exclusive _ _ _ 0). go E (step_begin _ _ _ 0). go E (step_call _ _ _ 1).
  go E (step_end _ _ _ 0). go E (step_unlock _ _ _ 0). go E (step_return _ _ _ 0).
  go E (step_lock_exclusive _ _ _ 1). go E (step_begin _ _ _ 1). go E (step_end _ _ _ 1). go E (step_unlock _ _ _ 1). go E (step_return _ _ _ 1).
  do 2 eexists. split; [exact E|]. split.
  - intros [|[|t]] p H; simpl in *; try (injection H as <-; reflexivity). destruct t; discriminate.
  - intros c o f H. cbn in H. intuition; try match goal with Q : Inv _ _ = Inv _ _ |- _ => injection Q; intros; subst end; try discriminate; reflexivity.
Qed.

(** capacity(1) throws in one thread; another thread finds two pairs in a cache of capacity 1 *)
Definition shrinking : list (list (lru_op nat nat * cmp_faults)) :=
  [[(Insert 1 10, no_cmp); (Insert 2 20, no_cmp); (SetCapacity 1, mkCmp false (Some 0) false)]; [(Size, no_cmp); (Capacity, no_cmp)]].
Lemma shrinking_execution : exists n h s, exec Nat.ltb shrinking 2 n h s /\ In (Res (0, 2) None) h /\
  In (Res (1, 0) (Some (RNat 2))) h /\ In (Res (1, 1) (Some (RNat 1))) h /\ completed shrinking s.
Proof.
  pose proof (exec_start Nat.ltb shrinking 2) as E.
  do 3 (go E (step_call _ _ _ 0); go E (step_lock_exclusive _ _ _ 0); go E (step_begin _ _ _ 0); go E (step_end _ _ _ 0); go E (step_unlock _ _ _ 0); go E (step_return _ _ _ 0)).
  do 2 (go E (step_call _ _ _ 1); go E (step_lock_shared _ _ _ 1); go E (step_begin _ _ _ 1); go E (step_end _ _ _ 1); go E (step_unlock _ _ _ 1); go E (step_return _ _ _ 1)).
  do 3 eexists. split; [exact E|]. split; [cbn; tauto|]. split; [cbn; tauto|]. split; [cbn; tauto|].
  intros [|[|t]] p H; simpl in *; try (injection H as <-; reflexivity). destruct t; discriminate.
Qed.
