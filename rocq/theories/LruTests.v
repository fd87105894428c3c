(** The repository's own tests of the caches (/repo/tests/lru_cache_tests.cpp; safe_lru_cache_tests.cpp makes the same
    calls), evaluated on the model of lru_cache.hpp.  They are tests of the model, not proofs about it (see
    StringTests.v).  A test is the list of its calls with the results it asserts; get is given the value of the output
    variable before the call. *)
From Coq Require Import List Bool Arith.
From Verif Require Import Base LruApi LruModel.
Import ListNotations.

Definition same (a b : lru_res nat) : bool :=
  match a, b with
  | RUnit, RUnit => true
  | RNat a, RNat b => a =? b
  | RBool a, RBool b => Bool.eqb a b
  | RGet a x, RGet b y => Bool.eqb a b && (x =? y)
  | _, _ => false
  end.
Fixpoint all_same (l r : list (lru_res nat)) : bool :=
  match l, r with [], [] => true | a :: l, b :: r => same a b && all_same l r | _, _ => false end.
Definition passes (script : list (lru_op nat nat * lru_res nat)) : bool :=
  match run_new Nat.ltb 100 (map fst script) with
  | Ret (_, rs) => all_same rs (map snd script)
  | _ => false
  end.
(** for (i = 1; i <= 100; ++i) ASSERT_TRUE(cache.insert(i, i)) *)
Definition fill : list (lru_op nat nat * lru_res nat) := map (fun i => (Insert i i, RBool true)) (seq 1 100).

(** 26-52 *)
Example test_sanity : passes
  [(Size, RNat 0); (Capacity, RNat 100); (Empty, RBool true); (Contains 1, RBool false); (Get 1 0, RGet false 0);
   (Insert 1 1, RBool true);
   (Size, RNat 1); (Capacity, RNat 100); (Empty, RBool false); (Contains 1, RBool true); (Get 1 0, RGet true 1);
   (Clear, RUnit);
   (Size, RNat 0); (Capacity, RNat 100); (Empty, RBool true); (Contains 1, RBool false); (Get 1 1, RGet false 1)] = true.
Proof. lazy. reflexivity. Qed.
(** 54-79 *)
Example test_change_capacity : passes
  (fill ++ [(Size, RNat 100); (SetCapacity 50, RUnit); (Size, RNat 50)] ++
   map (fun i => (Get i 0, RGet false 0)) (seq 1 50) ++ map (fun i => (Get i (i - 1), RGet true i)) (seq 51 50)) = true.
Proof. lazy. reflexivity. Qed.
(** 81-95 *)
Example test_insert_and_get : passes (fill ++ [(Size, RNat 100)] ++ map (fun i => (Get i 0, RGet true i)) (seq 1 100)) = true.
Proof. lazy. reflexivity. Qed.
(** 97-110 *)
Example test_insert_evicts_oldest : passes (fill ++ [(Size, RNat 100); (Insert 101 101, RBool true); (Get 1 0, RGet false 0)]) = true.
Proof. lazy. reflexivity. Qed.
(** 112-126 *)
Example test_insert_does_not_assign : passes (fill ++ [(Size, RNat 100); (Insert 1 2, RBool false); (Get 1 0, RGet true 1)]) = true.
Proof. lazy. reflexivity. Qed.
(** 128-143 *)
Example test_insert_does_not_move_to_front : passes
  (fill ++ [(Insert 1 1, RBool false); (Insert 101 101, RBool true); (Size, RNat 100); (Get 1 0, RGet false 0)]) = true.
Proof. lazy. reflexivity. Qed.
(** 145-158 *)
Example test_insert_or_assign_evicts_oldest : passes
  (fill ++ [(Size, RNat 100); (InsertOrAssign 101 101, RBool true); (Get 1 0, RGet false 0)]) = true.
Proof. lazy. reflexivity. Qed.
(** 160-174 *)
Example test_insert_or_assign_does_assign : passes
  (fill ++ [(Size, RNat 100); (InsertOrAssign 1 2, RBool false); (Get 1 0, RGet true 2)]) = true.
Proof. lazy. reflexivity. Qed.
(** 176-191 *)
Example test_insert_or_assign_moves_to_front : passes
  (fill ++ [(InsertOrAssign 1 1, RBool false); (Insert 101 101, RBool true); (Size, RNat 100); (Get 1 0, RGet true 1)]) = true.
Proof. lazy. reflexivity. Qed.
(** 193-209 *)
Example test_get_moves_to_front : passes
  (fill ++ [(Get 1 7, RGet true 1); (Insert 101 101, RBool true); (Size, RNat 100); (Get 1 0, RGet true 1)]) = true.
Proof. lazy. reflexivity. Qed.
(** 211-224 *)
Example test_remove : passes (fill ++ [(Size, RNat 100); (Remove 1, RBool true); (Get 1 0, RGet false 0)]) = true.
Proof. lazy. reflexivity. Qed.
