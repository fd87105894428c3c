(** Executions for SafeLruThrowProps.v. *)
From Coq Require Import List Bool Arith.
From Verif Require Import Base LruApi LruModel LruSpec LruFaults LruMain SafeLruModel SafeLruThrowModel SafeLruThrowSpec.
Import ListNotations.

Local Tactic Notation "go" hyp(E) uconstr(c) :=
  eapply exec_step in E; [|eapply c; reflexivity]; cbn in E.

(** thread 0's second insert throws while thread 1 waits for the lock; its eviction has happened *)
Definition throwing : list (list (lru_op nat nat * faults)) :=
  [[(Insert 1 10, no_fault); (Insert 2 20, fault_at PPushFront)]; [(Get 1 0, no_fault)]].
Lemma throwing_execution : exists n s, exec Nat.ltb throwing 1 n
    [Inv (0, 0) (Insert 1 10, no_fault); Res (0, 0) (Some (RBool true)); Inv (0, 1) (Insert 2 20, fault_at PPushFront);
     Inv (1, 0) (Get 1 0, no_fault); Res (0, 1) None; Res (1, 0) (Some (RGet false 0))] s /\
  completed throwing s /\
  harmless_calls [Inv (0, 0) (Insert 1 10, no_fault); Res (0, 0) (Some (RBool (V:=nat) true)); Inv (0, 1) (Insert 2 20, fault_at PPushFront);
     Inv (1, 0) (Get 1 0, no_fault); Res (0, 1) None; Res (1, 0) (Some (RGet false 0))].
Proof.
  pose proof (exec_start Nat.ltb throwing 1) as E.
  go E (step_call _ _ _ 0). go E (step_lock_exclusive _ _ _ 0). go E (step_begin _ _ _ 0). go E (step_end _ _ _ 0). go E (step_unlock _ _ _ 0). go E (step_return _ _ _ 0).
  go E (step_call _ _ _ 0). go E (step_lock_exclusive _ _ _ 0). go E (step_begin _ _ _ 0). go E (step_call _ _ _ 1).
  go E (step_end _ _ _ 0). go E (step_unlock _ _ _ 0). go E (step_return _ _ _ 0).
  go E (step_lock_exclusive _ _ _ 1). go E (step_begin _ _ _ 1). go E (step_end _ _ _ 1). go E (step_unlock _ _ _ 1). go E (step_return _ _ _ 1).
  do 2 eexists. split; [exact E|]. split.
  - intros [|[|t]] p H; simpl in *; try (injection H as <-; reflexivity). destruct t; discriminate.
  - intros c o f H. cbn in H. intuition; try match goal with Q : Inv _ _ = Inv _ _ |- _ => injection Q; intros; subst end; try discriminate; split; reflexivity.
Qed.

(** an exception in move_to_front in one thread makes a later call in another thread undefined *)
Definition harmful : list (list (lru_op nat nat * faults)) :=
  [[(Insert 1 10, no_fault); (Insert 2 20, no_fault); (Get 1 0, fault_at PMovePush)]; [(Get 1 0, no_fault)]].
Lemma harmful_execution : exists n h s, exec Nat.ltb harmful 2 n h s /\ In (Res (0, 2) None) h /\
  nth_error (threads s) 1 = Some (Th 0 Crashed) /\ nth_error (threads s) 0 = Some (Th 3 Idle) /\ writer s = Some 1.
Proof.
  pose proof (exec_start Nat.ltb harmful 2) as E.
  do 3 (go E (step_call _ _ _ 0); go E (step_lock_exclusive _ _ _ 0); go E (step_begin _ _ _ 0); go E (step_end _ _ _ 0); go E (step_unlock _ _ _ 0); go E (step_return _ _ _ 0)).
  go E (step_call _ _ _ 1). go E (step_lock_exclusive _ _ _ 1). go E (step_begin _ _ _ 1). go E (step_end _ _ _ 1).
  do 3 eexists. split; [exact E|]. split; [cbn; intuition|repeat split].
Qed.

(** emplace throws in one thread; another thread goes on *)
Definition emplacing : list (list (lru_op nat nat * faults)) :=
  [[(Insert 1 10, no_fault); (Insert 2 20, fault_at PEmplace)]; [(Get 1 0, no_fault)]].
Lemma emplacing_execution : exists n h s, exec Nat.ltb emplacing 2 n h s /\ In (Res (0, 1) None) h /\
  nth_error (threads s) 1 = Some (Th 1 Idle) /\
  (forall p o f, In p emplacing -> In (o, f) p -> f PMovePush = false).
Proof.
  pose proof (exec_start Nat.ltb emplacing 2) as E.
  do 2 (go E (step_call _ _ _ 0); go E (step_lock_exclusive _ _ _ 0); go E (step_begin _ _ _ 0); go E (step_end _ _ _ 0); go E (step_unlock _ _ _ 0); go E (step_return _ _ _ 0)).
  go E (step_call _ _ _ 1). go E (step_lock_exclusive _ _ _ 1). go E (step_begin _ _ _ 1). go E (step_end _ _ _ 1). go E (step_unlock _ _ _ 1). go E (step_return _ _ _ 1).
  do 3 eexists. split; [exact E|]. split; [cbn; intuition|]. split; [reflexivity|].
  intros p o f Hp Ho. cbn in Hp. destruct Hp as [<-|[<-|[]]]; cbn in Ho.
  - destruct Ho as [Q|[Q|[]]]; injection Q as _ <-; reflexivity.
  - destruct Ho as [Q|[]]; injection Q as _ <-; reflexivity.
Qed.
