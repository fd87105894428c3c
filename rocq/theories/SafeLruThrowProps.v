(** Property theorem C171: safe_lru_cache when copies and allocations throw.

    As C09 and C10; each call of [programs] comes with the points at which it throws, and a history has [Res c None] where
    call [c] has thrown. *)
From Coq Require Import List Bool Arith.
From Verif Require Import Base LruApi LruModel LruSpec LruFaults LruMain SafeLruModel SafeLruThrowModel SafeLruThrowSpec SafeLruThrowLock SafeLruThrowProofs SafeLruThrowDefined SafeLruThrowExamples.
Import ListNotations.

(** while no call has been made that throws at the two harmful points *)
Theorem safe_lru_throwing_linearizable_partial : forall (K V : Type) (ltb : K -> K -> bool), strict_weak_order ltb ->
  forall (programs : list (list (lru_op K V * faults))) cap n h s,
  exec ltb programs cap n h s -> harmless_calls h -> linearizable ltb cap h /\ follows programs h.
Proof. exact @exec_linearizable. Qed.
Print Assumptions safe_lru_throwing_linearizable_partial.
(** no call is undefined *)
Theorem safe_lru_throwing_never_crashes_partial : forall (K V : Type) (ltb : K -> K -> bool), strict_weak_order ltb ->
  forall (programs : list (list (lru_op K V * faults))) cap n h s t k p,
  exec ltb programs cap n h s -> harmless_calls h -> nth_error (threads s) t = Some (Th k p) -> p <> Crashed.
Proof. exact @no_crash. Qed.
Print Assumptions safe_lru_throwing_never_crashes_partial.
Theorem safe_lru_throwing_never_deadlocks_partial : forall (K V : Type) (ltb : K -> K -> bool), strict_weak_order ltb ->
  forall (programs : list (list (lru_op K V * faults))) cap n h s,
  exec ltb programs cap n h s -> harmless_calls h -> completed programs s \/ exists e s', step ltb programs s e s'.
Proof. exact @never_deadlocks. Qed.
Print Assumptions safe_lru_throwing_never_deadlocks_partial.
(** a throw in emplace makes no call undefined either: only push_front in move_to_front can *)
Theorem safe_lru_throwing_defined_partial : forall (K V : Type) (ltb : K -> K -> bool), strict_weak_order ltb ->
  forall (programs : list (list (lru_op K V * faults))) cap,
  (forall p o f, In p programs -> In (o, f) p -> f PMovePush = false) ->
  forall n h s, exec ltb programs cap n h s ->
  (forall t k p, nth_error (threads s) t = Some (Th k p) -> p <> Crashed) /\
  (completed programs s \/ exists e s', step ltb programs s e s').
Proof. exact @defined. Qed.
Print Assumptions safe_lru_throwing_defined_partial.
Example safe_lru_throwing_defined_ex : exists n h s, exec Nat.ltb emplacing 2 n h s /\ In (Res (0, 1) None) h /\
  nth_error (threads s) 1 = Some (Th 1 Idle) /\
  (forall p o f, In p emplacing -> In (o, f) p -> f PMovePush = false).
Proof. exact emplacing_execution. Qed.
(** wherever calls throw, and whatever the order of the keys *)
Theorem safe_lru_throwing_no_data_race : forall (K V : Type) (ltb : K -> K -> bool)
  (programs : list (list (lru_op K V * faults))) cap n h s,
  exec ltb programs cap n h s -> ~ data_race s.
Proof. exact @no_data_race. Qed.
Print Assumptions safe_lru_throwing_no_data_race.
(** the lock is released, also by an exception *)
Theorem safe_lru_throwing_unlocks : forall (K V : Type) (ltb : K -> K -> bool)
  (programs : list (list (lru_op K V * faults))) cap n h s t k p,
  exec ltb programs cap n h s -> nth_error (threads s) t = Some (Th k p) ->
  (p = Idle \/ exists o r, p = Released o r) -> writer s <> Some t /\ ~ In t (readers s).
Proof. exact @lock_released. Qed.
Print Assumptions safe_lru_throwing_unlocks.
(** threads stop before their programs end only when a call was undefined *)
Theorem safe_lru_throwing_stops : forall (K V : Type) (ltb : K -> K -> bool)
  (programs : list (list (lru_op K V * faults))) cap n h s,
  exec ltb programs cap n h s ->
  completed programs s \/ (exists e s', step ltb programs s e s') \/ exists t k, nth_error (threads s) t = Some (Th k Crashed).
Proof. exact @progress. Qed.
Print Assumptions safe_lru_throwing_stops.
Theorem safe_lru_throwing_terminates : forall (K V : Type) (ltb : K -> K -> bool)
  (programs : list (list (lru_op K V * faults))) cap n h s,
  exec ltb programs cap n h s -> n <= 6 * length (concat programs).
Proof. exact @bounded. Qed.
Print Assumptions safe_lru_throwing_terminates.
Example safe_lru_throwing_ex : exists n s, exec Nat.ltb throwing 1 n
    [Inv (0, 0) (Insert 1 10, no_fault); Res (0, 0) (Some (RBool true)); Inv (0, 1) (Insert 2 20, fault_at PPushFront);
     Inv (1, 0) (Get 1 0, no_fault); Res (0, 1) None; Res (1, 0) (Some (RGet false 0))] s /\
  completed throwing s /\
  harmless_calls [Inv (0, 0) (Insert 1 10, no_fault); Res (0, 0) (Some (RBool (V:=nat) true)); Inv (0, 1) (Insert 2 20, fault_at PPushFront);
     Inv (1, 0) (Get 1 0, no_fault); Res (0, 1) None; Res (1, 0) (Some (RGet false 0))].
Proof. exact throwing_execution. Qed.
(** exceptions at the two other points *)
Theorem safe_lru_throwing_refuted : exists n h s, exec Nat.ltb harmful 2 n h s /\ In (Res (0, 2) None) h /\
  nth_error (threads s) 1 = Some (Th 0 Crashed) /\ nth_error (threads s) 0 = Some (Th 3 Idle) /\ writer s = Some 1.
Proof. exact harmful_execution. Qed.
Print Assumptions safe_lru_throwing_refuted.
