(** C197: how far a cache can outgrow its capacity when calls throw. *)
From Coq Require Import List Bool Arith.
From Verif Require Import Base LruApi LruModel LruSpec LruMain LruCompareModel LruCompareSpec LruBound.
Import ListNotations.

(** Wherever allocations and copies throw (except in move_to_front), size() never exceeds
    capacity() by more than the number of calls in which emplace threw. *)
Theorem lru_throwing_bound_partial :
  forall (K V : Type) (ltb : K -> K -> bool), strict_weak_order ltb ->
  forall (cap : nat) (ops : list (lru_op K V * faults)),
  (forall o f, In (o, f) ops -> f PMovePush = false) ->
  exists s rs n c,
    run_faulty ltb (mkSt 0 (new_cache cap)) ops = Ret (s, rs) /\
    run_ops ltb s [Size; Capacity] = Ret (s, [RNat n; RNat c]) /\
    n <= c + emplace_throws (combine (map (fun x => snd x PEmplace) ops) rs).
Proof. exact @outgrows_by_throws. Qed.
Print Assumptions lru_throwing_bound_partial.
(** The bound is reached: one throw, capacity 2, size 3. *)
Example lru_throwing_bound_partial_ex : exists s rs,
  run_faulty Nat.ltb (mkSt 0 (new_cache 2))
    [(Insert 1 10, no_fault); (Insert 2 20, no_fault); (Insert 3 30, fault_at PEmplace); (Insert 3 31, no_fault);
     (Insert 4 40, no_fault); (Insert 5 50, no_fault); (Insert 6 60, no_fault)] = Ret (s, rs) /\
  run_ops Nat.ltb s [Size; Capacity] = Ret (s, [RNat 3; RNat 2]) /\
  emplace_throws (combine [false; false; true; false; false; false; false] rs) = 1.
Proof. eexists. eexists. split; [vm_compute; reflexivity|split; vm_compute; reflexivity]. Qed.

(** C197 refuted without counting: a cache can hold more pairs than its capacity. *)
Theorem lru_throwing_bound_refuted : exists (ops : list (lru_op nat nat * faults)) s rs,
  run_faulty Nat.ltb (mkSt 0 (new_cache 2)) ops = Ret (s, rs) /\
  run_ops Nat.ltb s [Size; Capacity] = Ret (s, [RNat 3; RNat 2]).
Proof. exact outgrown. Qed.
Print Assumptions lru_throwing_bound_refuted.

(** clear() and capacity(0) make up for every throw before them: only later throws count. *)
Theorem lru_throwing_bound_since_clear_partial :
  forall (K V : Type) (ltb : K -> K -> bool), strict_weak_order ltb ->
  forall (cap : nat) (ops1 ops2 : list (lru_op K V * faults)) (o : lru_op K V) (f0 : faults),
  o = Clear \/ o = SetCapacity 0 ->
  (forall o' f, In (o', f) (ops1 ++ (o, f0) :: ops2) -> f PMovePush = false) ->
  exists s rs1 rs2 n c,
    run_faulty ltb (mkSt 0 (new_cache cap)) (ops1 ++ (o, f0) :: ops2) = Ret (s, rs1 ++ Some RUnit :: rs2) /\
    length rs1 = length ops1 /\
    run_ops ltb s [Size; Capacity] = Ret (s, [RNat n; RNat c]) /\
    n <= c + emplace_throws (combine (map (fun x => snd x PEmplace) ops2) rs2).
Proof. exact @outgrows_since_emptied. Qed.
Print Assumptions lru_throwing_bound_since_clear_partial.
(** As above, but cleared before the last three insertions. *)
Example lru_throwing_bound_since_clear_partial_ex : exists s rs,
  run_faulty Nat.ltb (mkSt 0 (new_cache 2))
    [(Insert 1 10, no_fault); (Insert 2 20, no_fault); (Insert 3 30, fault_at PEmplace); (Insert 3 31, no_fault);
     (Clear, no_fault); (Insert 4 40, no_fault); (Insert 5 50, no_fault); (Insert 6 60, no_fault)] = Ret (s, rs) /\
  run_ops Nat.ltb s [Size; Capacity] = Ret (s, [RNat 2; RNat 2]).
Proof. eexists. eexists. split; vm_compute; reflexivity. Qed.
