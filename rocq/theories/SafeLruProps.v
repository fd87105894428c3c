(** Property theorems C09-C10: safe_lru_cache. *)
From Coq Require Import List Bool Arith.
From Verif Require Import Base LruApi LruModel LruSpec SafeLruModel SafeLruSpec SafeLruProofs.
Import ListNotations.

(** C09.  [programs]: the calls made by each thread; [h]: the calls and returns of an execution of any
    length, in order.  [follows] says that [h] is a history of these programs. *)
Theorem safe_lru_is_linearizable : forall (K V : Type) (ltb : K -> K -> bool), strict_weak_order ltb ->
  forall (programs : list (list (lru_op K V))) cap n h s,
  exec ltb programs cap n h s -> linearizable ltb cap h /\ follows programs h.
Proof. exact @exec_linearizable. Qed.
Print Assumptions safe_lru_is_linearizable.
Example safe_lru_is_linearizable_ex : strict_weak_order Nat.ltb /\ exists n s,
  exec Nat.ltb [[Insert 1 10; Size]; [Get 1 0]] 2 n
    [Inv (0, 0) (Insert 1 10); Inv (1, 0) (Get 1 0); Res (0, 0) (RBool true); Inv (0, 1) Size;
     Res (1, 0) (RGet true 10); Res (0, 1) (RNat 1)] s /\
  completed [[Insert 1 10; Size]; [Get 1 0]] s.
Proof. exact (conj nat_ltb_swo overlapping_execution). Qed.
(** not every history is linearizable: a get after the insert returned must see it *)
Example not_linearizable_ex : ~ linearizable Nat.ltb 2
  [Inv (0, 0) (Insert 1 10); Res (0, 0) (RBool true); Inv (1, 0) (Get 1 0); Res (1, 0) (RGet false 0)].
Proof. exact stale_get_not_linearizable. Qed.

(** C10 *)
Theorem safe_lru_has_no_data_race : forall (K V : Type) (ltb : K -> K -> bool), strict_weak_order ltb ->
  forall (programs : list (list (lru_op K V))) cap n h s,
  exec ltb programs cap n h s -> ~ data_race s.
Proof. exact @no_data_race. Qed.
Print Assumptions safe_lru_has_no_data_race.
(** no call is undefined or throws *)
Theorem safe_lru_never_crashes : forall (K V : Type) (ltb : K -> K -> bool), strict_weak_order ltb ->
  forall (programs : list (list (lru_op K V))) cap n h s t k p,
  exec ltb programs cap n h s -> nth_error (threads s) t = Some (Th k p) -> p <> Crashed.
Proof. exact @no_crash. Qed.
Print Assumptions safe_lru_never_crashes.
Theorem safe_lru_never_deadlocks : forall (K V : Type) (ltb : K -> K -> bool), strict_weak_order ltb ->
  forall (programs : list (list (lru_op K V))) cap n h s,
  exec ltb programs cap n h s -> completed programs s \/ exists e s', step ltb programs s e s'.
Proof. exact @progress. Qed.
Print Assumptions safe_lru_never_deadlocks.
(** A thread that waits for the lock either can have it, or another thread holds it and can go on; so this
    does not depend on which waiting thread the mutex prefers. *)
Theorem safe_lru_waits_only_for_running_threads :
  forall (K V : Type) (ltb : K -> K -> bool), strict_weak_order ltb ->
  forall (programs : list (list (lru_op K V))) cap n h s t k o,
  exec ltb programs cap n h s -> nth_error (threads s) t = Some (Th k (Calling o)) ->
  (writer s = None /\ readers s = [] /\ exists s', step ltb programs s None s') \/
  exists t', t' <> t /\ (writer s = Some t' \/ In t' (readers s)) /\
    exists k' p', nth_error (threads s) t' = Some (Th k' p') /\
      exists s' p'', step ltb programs s None s' /\ nth_error (threads s') t' = Some (Th k' p'') /\ p'' <> p'.
Proof. exact @waits_for_holder. Qed.
Print Assumptions safe_lru_waits_only_for_running_threads.
(** no execution is longer than 6 steps per call, so all calls return *)
Theorem safe_lru_calls_terminate : forall (K V : Type) (ltb : K -> K -> bool), strict_weak_order ltb ->
  forall (programs : list (list (lru_op K V))) cap n h s,
  exec ltb programs cap n h s -> n <= 6 * length (concat programs).
Proof. exact @bounded. Qed.
Print Assumptions safe_lru_calls_terminate.
Example data_race_ex : data_race (Sys None [] (mkSt 0 (new_cache 1))
  [Th 0 (Body (Get 1 0) (mkSt 0 (new_cache 1))); Th 0 (Body Size (mkSt 0 (new_cache 1)))]).
Proof. exact race_exists. Qed.
