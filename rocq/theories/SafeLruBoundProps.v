(** C198: how far a safe cache can outgrow its capacity when calls throw. *)
From Coq Require Import List Bool Arith.
From Verif Require Import Base LruApi LruModel LruSpec SafeLruThrowModel SafeLruBoundSpec SafeLruBound SafeLruBoundExamples.
Import ListNotations.

(** C198 refuted: after a throw in emplace another thread finds three pairs in a cache of capacity 2. *)
Theorem safe_lru_throwing_bound_refuted : exists (programs : list (list (lru_op nat nat * faults))) n h s,
  exec Nat.ltb programs 2 n h s /\ nth_error programs 1 = Some [(Size, no_fault)] /\
  In (Res (1, 0) (Some (RNat 3))) h /\ (forall p o f, In p programs -> In (o, f) p -> forall n, o <> SetCapacity n).
Proof. exact outgrown. Qed.
Print Assumptions safe_lru_throwing_bound_refuted.

(** In every state of every execution size() exceeds capacity() by at most the number of calls made so far
    in which emplace throws, while push_front does not throw in move_to_front. *)
Theorem safe_lru_throwing_bound_partial : forall (K V : Type) (ltb : K -> K -> bool), strict_weak_order ltb ->
  forall (programs : list (list (lru_op K V * faults))) cap,
  (forall p o f, In p programs -> In (o, f) p -> f PMovePush = false) ->
  forall n h s, exec ltb programs cap n h s ->
  exists z c, run_ops ltb (cache_ s) [Size; Capacity] = Ret (cache_ s, [RNat z; RNat c]) /\ z <= c + emplace_calls h.
Proof. exact @safe_outgrows. Qed.
Print Assumptions safe_lru_throwing_bound_partial.
Example safe_lru_throwing_bound_partial_ex : exists n h s, exec Nat.ltb outgrowing 2 n h s /\
  In (Res (1, 0) (Some (RNat 3))) h /\ emplace_calls h = 1 /\
  (forall p o f, In p outgrowing -> In (o, f) p -> f PMovePush = false).
Proof. exact outgrowing_execution. Qed.
