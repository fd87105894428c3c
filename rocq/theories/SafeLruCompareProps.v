(** Property theorem C196: safe_lru_cache when comparing keys throws.

    As C09 and C10; each call of [programs] comes with the comparisons that throw in it, and a history has [Res c None]
    where call [c] has thrown. *)
From Coq Require Import List Bool Arith.
From Verif Require Import Base LruApi LruModel LruSpec LruCompareModel LruCompareSpec SafeLruModel SafeLruCompareModel SafeLruCompareSpec SafeLruCompareLock SafeLruCompareProofs SafeLruCompareExamples.
Import ListNotations.

(** while emplace has thrown in no call, with the effects of throwing calls of C194 *)
Theorem safe_lru_comparing_linearizable_partial : forall (K V : Type) (ltb : K -> K -> bool), strict_weak_order ltb ->
  forall (programs : list (list (lru_op K V * cmp_faults))) cap n h s,
  exec ltb programs cap n h s -> no_emplace h -> linearizable ltb cap h /\ follows programs h.
Proof. exact @exec_linearizable. Qed.
Print Assumptions safe_lru_comparing_linearizable_partial.
Example safe_lru_comparing_ex : exists n s, exec Nat.ltb comparing 1 n
    [Inv (0, 0) (Insert 1 10, no_cmp); Res (0, 0) (Some (RBool true)); Inv (0, 1) (Insert 2 20, mkCmp false (Some 0) false);
     Inv (1, 0) (Get 1 0, no_cmp); Res (0, 1) None; Res (1, 0) (Some (RGet true 10))] s /\
  completed comparing s /\
  no_emplace [Inv (0, 0) (Insert 1 10, no_cmp); Res (0, 0) (Some (RBool (V:=nat) true)); Inv (0, 1) (Insert 2 20, mkCmp false (Some 0) false);
     Inv (1, 0) (Get 1 0, no_cmp); Res (0, 1) None; Res (1, 0) (Some (RGet true 10))].
Proof. exact comparing_execution. Qed.
(** no call is undefined, wherever comparisons throw *)
Theorem safe_lru_comparing_never_crashes : forall (K V : Type) (ltb : K -> K -> bool), strict_weak_order ltb ->
  forall (programs : list (list (lru_op K V * cmp_faults))) cap n h s t k p,
  exec ltb programs cap n h s -> nth_error (threads s) t = Some (Th k p) -> p <> Crashed.
Proof. exact @no_crash. Qed.
Print Assumptions safe_lru_comparing_never_crashes.
Theorem safe_lru_comparing_never_deadlocks : forall (K V : Type) (ltb : K -> K -> bool), strict_weak_order ltb ->
  forall (programs : list (list (lru_op K V * cmp_faults))) cap n h s,
  exec ltb programs cap n h s -> completed programs s \/ exists e s', step ltb programs s e s'.
Proof. exact @never_deadlocks. Qed.
Print Assumptions safe_lru_comparing_never_deadlocks.
Theorem safe_lru_comparing_no_data_race : forall (K V : Type) (ltb : K -> K -> bool)
  (programs : list (list (lru_op K V * cmp_faults))) cap n h s,
  exec ltb programs cap n h s -> ~ data_race s.
Proof. exact @no_data_race. Qed.
Print Assumptions safe_lru_comparing_no_data_race.
(** the lock is released, also by an exception *)
Theorem safe_lru_comparing_unlocks : forall (K V : Type) (ltb : K -> K -> bool)
  (programs : list (list (lru_op K V * cmp_faults))) cap n h s t k p,
  exec ltb programs cap n h s -> nth_error (threads s) t = Some (Th k p) ->
  (p = Idle \/ exists o r, p = Released o r) -> writer s <> Some t /\ ~ In t (readers s).
Proof. exact @lock_released. Qed.
Print Assumptions safe_lru_comparing_unlocks.
Theorem safe_lru_comparing_terminates : forall (K V : Type) (ltb : K -> K -> bool)
  (programs : list (list (lru_op K V * cmp_faults))) cap n h s,
  exec ltb programs cap n h s -> n <= 6 * length (concat programs).
Proof. exact @bounded. Qed.
Print Assumptions safe_lru_comparing_terminates.
(** the promise of C01 to the other threads *)
Theorem safe_lru_comparing_refuted : exists n h s, exec Nat.ltb shrinking 2 n h s /\ In (Res (0, 2) None) h /\
  In (Res (1, 0) (Some (RNat 2))) h /\ In (Res (1, 1) (Some (RNat 1))) h /\ completed shrinking s.
Proof. exact shrinking_execution. Qed.
Print Assumptions safe_lru_comparing_refuted.
