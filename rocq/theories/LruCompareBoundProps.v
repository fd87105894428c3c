(** C197: how large a cache can become when comparing keys throws. *)
From Coq Require Import List Bool Arith.
From Verif Require Import Base LruApi LruModel LruSpec LruCompareModel LruCompareSpec LruCompareBoundSpec LruCompareBound.
Import ListNotations.

(** Wherever comparisons of keys throw, size() never exceeds the highest capacity the cache has had
    by more than the number of calls in which emplace threw. *)
Theorem lru_compare_bound :
  forall (K V : Type) (ltb : K -> K -> bool), strict_weak_order ltb ->
  forall (cap : nat) (ops : list (lru_op K V * cmp_faults)),
  exists s rs n,
    run_c ltb (mkSt 0 (new_cache cap)) ops = Ret (s, rs) /\
    run_ops ltb s [Size] = Ret (s, [RNat n]) /\
    n <= highest_capacity cap (map fst ops) + emplace_throws (combine (map (fun x => in_emplace (snd x)) ops) rs).
Proof. exact @compare_outgrows. Qed.
Print Assumptions lru_compare_bound.
(** The bound is reached: capacity 2, one throw in emplace, then one in capacity(1): three pairs. *)
Example lru_compare_bound_ex : exists s rs,
  run_c Nat.ltb (mkSt 0 (new_cache 2))
    [(Insert 1 10, no_cmp); (Insert 2 20, no_cmp); (Insert 3 30, mkCmp false None true); (Insert 3 31, no_cmp);
     (Insert 4 40, no_cmp); (Insert 5 50, no_cmp); (Insert 6 60, no_cmp); (SetCapacity 1, mkCmp false (Some 0) false)] = Ret (s, rs) /\
  run_ops Nat.ltb s [Size; Capacity] = Ret (s, [RNat 3; RNat 1]) /\
  emplace_throws (combine [false; false; true; false; false; false; false; false] rs) = 1.
Proof. eexists. eexists. split; [vm_compute; reflexivity|split; vm_compute; reflexivity]. Qed.
