(** C195: whatever throws, calls stay defined and get returns the latest value. *)
From Coq Require Import List Bool Arith.
From Verif Require Import Base LruApi LruModel LruSpec LruMain LruCompareModel LruCompareSpec LruLatest.
Import ListNotations.

(** C195 refuted: after push_front has thrown in move_to_front the next get is undefined. *)
Theorem lru_throwing_defined_refuted : exists ops : list (lru_op nat nat * faults),
  run_faulty Nat.ltb (mkSt 0 (new_cache 2)) ops = Ub /\
  (exists s, run_faulty Nat.ltb (mkSt 0 (new_cache 2)) (removelast ops) =
             Ret (s, [Some (RBool true); Some (RBool true); None])).
Proof. exact move_throw_refuted. Qed.
Print Assumptions lru_throwing_defined_refuted.

(** Wherever else allocations and copies throw (also in emplace), every call is defined, and a
    get that finds its key returns what the latest call that stored the key stored. *)
Theorem lru_throwing_latest_partial :
  forall (K V : Type) (ltb : K -> K -> bool), strict_weak_order ltb ->
  forall (cap : nat) (ops : list (lru_op K V * faults)),
  (forall o f, In (o, f) ops -> f PMovePush = false) ->
  exists s rs, run_faulty ltb (mkSt 0 (new_cache cap)) ops = Ret (s, rs) /\ length rs = length ops /\
    reads_latest ltb [] (combine (map fst ops) rs).
Proof. exact @faulty_latest. Qed.
Print Assumptions lru_throwing_latest_partial.
Example lru_throwing_latest_partial_ex : exists s,
  run_faulty Nat.ltb (mkSt 0 (new_cache 1))
    [(Insert 1 10, no_fault); (Insert 1 11, no_fault); (Insert 2 20, fault_at PEmplace); (InsertOrAssign 1 12, no_fault);
     (Get 1 0, no_fault)] =
    Ret (s, [Some (RBool true); Some (RBool false); None; Some (RBool true); Some (RGet true 12)]) /\
  latest_stored Nat.ltb 1 [(Insert 1 10, Some (RBool true)); (Insert 1 11, Some (RBool false)); (Insert 2 20, None);
    (InsertOrAssign 1 12, Some (RBool true))] = Some 12.
Proof. eexists. split; vm_compute; reflexivity. Qed.

(** The same wherever comparisons of keys throw, without exception. *)
Theorem lru_compare_latest :
  forall (K V : Type) (ltb : K -> K -> bool), strict_weak_order ltb ->
  forall (cap : nat) (ops : list (lru_op K V * cmp_faults)),
  exists s rs, run_c ltb (mkSt 0 (new_cache cap)) ops = Ret (s, rs) /\ length rs = length ops /\
    reads_latest ltb [] (combine (map fst ops) rs).
Proof. exact @compare_latest. Qed.
Print Assumptions lru_compare_latest.
Example lru_compare_latest_ex : exists s,
  run_c Nat.ltb (mkSt 0 (new_cache 2))
    [(Insert 1 10, no_cmp); (Insert 2 20, mkCmp false None true); (InsertOrAssign 2 21, no_cmp); (Get 2 0, no_cmp)] =
    Ret (s, [Some (RBool true); None; Some (RBool true); Some (RGet true 21)]).
Proof. eexists. vm_compute. reflexivity. Qed.
