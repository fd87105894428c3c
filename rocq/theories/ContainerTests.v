(** The assertions of the repository's own tests (/repo/tests/container_tests.cpp, iterator_tests.cpp, compare_tests.cpp,
    range_tests.cpp and value_tests.cpp), evaluated on the model.  They are tests of the model, not proofs about it (see
    StringTests.v).  The numbers are ints; the assertions about floating point numbers are in FloatTests.v. *)
From Coq Require Import List Bool Arith ZArith Permutation Sorted.
From Verif Require Import Base SeqModel AlgoModel SmallModel AlgoProofs.
Import ListNotations.
Open Scope Z_scope.

Definition toupper (c : Z) : Z := if (97 <=? c) && (c <=? 122) then c - 32 else c.
Fixpoint same (a b : list Z) : bool :=
  match a, b with [], [] => true | x :: a, y :: b => (x =? y) && same a b | _, _ => false end.
Definition returned {A : Type} (o : outcome A) (check : A -> bool) : bool :=
  match o with Ret x => check x | _ => false end.
(** an iterator of the tests: [Some i] is begin() + i, [None] is end() *)
Definition at_position (l : list Z) (p : option Z) (n : nat) : bool :=
  Z.of_nat n =? match p with Some i => i | None => Z.of_nat (length l) end.

Definition says (f : list Z -> list Z -> outcome bool) (cases : list (list Z * list Z * bool)) : bool :=
  forallb (fun '(l, r, b) => returned (f l r) (Bool.eqb b)) cases.
Definition says_elem (f : list Z -> Z -> bool) (cases : list (list Z * Z * bool)) : bool :=
  forallb (fun '(l, e, b) => Bool.eqb (f l e) b) cases.
Definition finds (f : list Z -> list Z -> nat) (cases : list (list Z * list Z * option Z)) : bool :=
  forallb (fun '(l, r, p) => at_position l p (f l r)) cases.
Definition finds_elem (f : list Z -> Z -> nat) (cases : list (list Z * Z * option Z)) : bool :=
  forallb (fun '(l, e, p) => at_position l p (f l e)) cases.
Definition tells (f : list Z -> bool) (cases : list (list Z * bool)) : bool :=
  forallb (fun '(l, b) => Bool.eqb (f l) b) cases.
Definition counts (f : list Z -> Z -> nat) (cases : list (list Z * Z * Z)) : bool :=
  forallb (fun '(l, e, n) => Z.of_nat (f l e) =? n) cases.
Definition counts_if (f : list Z -> (Z -> bool) -> nat) (cases : list (list Z * (Z -> bool) * Z)) : bool :=
  forallb (fun '(l, p, n) => Z.of_nat (f l p) =? n) cases.
Definition sums (f : list Z -> Z -> outcome Z) (cases : list (list Z * Z * Z)) : bool :=
  forallb (fun '(l, v, r) => returned (f l v) (Z.eqb r)) cases.
Definition extremes (f : list Z -> outcome (nat * Z)) (cases : list (list Z * Z)) : bool :=
  forallb (fun '(l, r) => returned (f l) (fun x => snd x =? r)) cases.
Definition slices (f : Z -> Z -> outcome (list Z)) (cases : list (Z * Z * list Z)) : bool :=
  forallb (fun '(a, b, r) => returned (f a b) (fun l => same l r)) cases.
Definition compares {A : Type} (f : A -> A -> bool) (cases : list (A * A * bool)) : bool :=
  forallb (fun '(a, b, r) => Bool.eqb (f a b) r) cases.
(** min and max of two values: [f] tells whether the right one is returned *)
Definition chooses (f : Z -> Z -> bool) (cases : list (Z * Z * Z)) : bool :=
  forallb (fun '(a, b, r) => (if f a b then b else a) =? r) cases.

(** tests/container_tests.cpp 44-66: 15 assertions *)
Definition test_container_equals_cases := [
  ([], [], true);
  ([0; 1; 2; 3; 4], [0; 1; 2; 3; 4], true);
  ([0; 1; 2; 3; 4], [5; 6; 7; 8; 9], false);
  ([0; 1; 2; 3; 4], [0; 1; 2; 3], false);
  ([0; 1; 2; 3; 4], [1; 2; 3; 4], false);
  ([5; 6; 7; 8; 9], [0; 1; 2; 3; 4], false);
  ([5; 6; 7; 8; 9], [0; 1; 2; 3], false);
  ([5; 6; 7; 8; 9], [1; 2; 3; 4], false);
  ([0; 1; 2; 3], [0; 1; 2; 3; 4], false);
  ([0; 1; 2; 3], [5; 6; 7; 8; 9], false);
  ([0; 1; 2; 3], [1; 2; 3; 4], false);
  ([1; 2; 3; 4], [0; 1; 2; 3; 4], false);
  ([1; 2; 3; 4], [5; 6; 7; 8; 9], false);
  ([1; 2; 3; 4], [0; 1; 2; 3], false)].
Example test_container_equals : says (fun l r => Ret (equals Z.eqb l r)) test_container_equals_cases = true.
Proof. reflexivity. Qed.

(** tests/container_tests.cpp 71-94: 16 assertions *)
Definition test_container_starts_with_cases := [
  ([], [], true);
  ([0; 1; 2; 3; 4], [0; 1; 2; 3; 4], true);
  ([0; 1; 2; 3; 4], [0; 1; 2; 3], true);
  ([0; 1; 2; 3; 4], [0], true);
  ([0; 1; 2; 3; 4], [5; 6; 7; 8; 9], false);
  ([0; 1; 2; 3; 4], [1; 2; 3; 4], false);
  ([0; 1; 2; 3; 4], [1], false);
  ([5; 6; 7; 8; 9], [0; 1; 2; 3; 4], false);
  ([5; 6; 7; 8; 9], [1; 2; 3; 4], false);
  ([5; 6; 7; 8; 9], [1], false);
  ([1; 2; 3; 4], [0; 1; 2; 3; 4], false);
  ([1; 2; 3; 4], [5; 6; 7; 8; 9], false);
  ([1], [0; 1; 2; 3; 4], false);
  ([1], [5; 6; 7; 8; 9], false);
  ([1], [1; 2; 3; 4], false)].
Example test_container_starts_with : says (fun l r => Ret (starts_with_generic Z.eqb l r)) test_container_starts_with_cases = true.
Proof. reflexivity. Qed.
Example test_container_starts_with_cxx20 : says (starts_with_cxx20 Z.eqb) test_container_starts_with_cases = true.
Proof. reflexivity. Qed.

(** tests/container_tests.cpp 99-122: 16 assertions *)
Definition test_container_ends_with_cases := [
  ([], [], true);
  ([0; 1; 2; 3; 4], [0; 1; 2; 3; 4], true);
  ([0; 1; 2; 3; 4], [1; 2; 3; 4], true);
  ([0; 1; 2; 3; 4], [4], true);
  ([0; 1; 2; 3; 4], [5; 6; 7; 8; 9], false);
  ([0; 1; 2; 3; 4], [0; 1; 2; 3], false);
  ([0; 1; 2; 3; 4], [3], false);
  ([5; 6; 7; 8; 9], [0; 1; 2; 3; 4], false);
  ([5; 6; 7; 8; 9], [0; 1; 2; 3], false);
  ([5; 6; 7; 8; 9], [3], false);
  ([0; 1; 2; 3], [0; 1; 2; 3; 4], false);
  ([0; 1; 2; 3], [5; 6; 7; 8; 9], false);
  ([3], [0; 1; 2; 3; 4], false);
  ([3], [5; 6; 7; 8; 9], false);
  ([3], [0; 1; 2; 3], false)].
Example test_container_ends_with : says (fun l r => Ret (ends_with_generic Z.eqb l r)) test_container_ends_with_cases = true.
Proof. reflexivity. Qed.
Example test_container_ends_with_cxx20 : says (ends_with_cxx20 Z.eqb) test_container_ends_with_cases = true.
Proof. reflexivity. Qed.

(** tests/container_tests.cpp 127-141: 10 assertions *)
Definition test_container_find_elem_cases := [
  ([0; 1; 2; 3; 4; 0; 1; 2; 3; 4], 0, Some 0);
  ([0; 1; 2; 3; 4; 0; 1; 2; 3; 4], 1, Some 1);
  ([0; 1; 2; 3; 4; 0; 1; 2; 3; 4], 2, Some 2);
  ([0; 1; 2; 3; 4; 0; 1; 2; 3; 4], 3, Some 3);
  ([0; 1; 2; 3; 4; 0; 1; 2; 3; 4], 4, Some 4);
  ([4; 0; 1], 4, Some 0);
  ([4; 0; 1], 0, Some 1);
  ([4; 0; 1], 1, Some 2);
  ([], 0, None);
  ([0; 1; 2; 3; 4; 0; 1; 2; 3; 4], 5, None)].
Example test_container_find_elem : finds_elem (find_elem Z.eqb) test_container_find_elem_cases = true.
Proof. reflexivity. Qed.

(** tests/container_tests.cpp 146-160: 10 assertions *)
Definition test_container_rfind_elem_cases := [
  ([0; 1; 2; 3; 4; 0; 1; 2; 3; 4], 0, Some 5);
  ([0; 1; 2; 3; 4; 0; 1; 2; 3; 4], 1, Some 6);
  ([0; 1; 2; 3; 4; 0; 1; 2; 3; 4], 2, Some 7);
  ([0; 1; 2; 3; 4; 0; 1; 2; 3; 4], 3, Some 8);
  ([0; 1; 2; 3; 4; 0; 1; 2; 3; 4], 4, Some 9);
  ([4; 0; 1], 4, Some 0);
  ([4; 0; 1], 0, Some 1);
  ([4; 0; 1], 1, Some 2);
  ([], 0, None);
  ([0; 1; 2; 3; 4; 0; 1; 2; 3; 4], 5, None)].
Example test_container_rfind_elem : finds_elem (rfind_elem Z.eqb) test_container_rfind_elem_cases = true.
Proof. reflexivity. Qed.

(** tests/container_tests.cpp 165-181: 11 assertions *)
Definition test_container_find_sequence_cases := [
  ([], [], Some 0);
  ([0; 1; 2; 3; 4; 0; 1; 2; 3; 4], [], Some 0);
  ([0; 1; 2; 3; 4; 0; 1; 2; 3; 4], [0; 1; 2; 3; 4; 0; 1; 2; 3; 4], Some 0);
  ([0; 1; 2; 3; 4; 0; 1; 2; 3; 4], [4; 0; 1], Some 4);
  ([0; 1; 2; 3; 4; 0; 1; 2; 3; 4], [1; 2; 3], Some 1);
  ([0; 1; 2; 3; 4; 0; 1; 2; 3; 4], [0], Some 0);
  ([0; 1; 2; 3; 4; 0; 1; 2; 3; 4], [4], Some 4);
  ([4; 0; 1], [0], Some 1);
  ([4; 0; 1], [4], Some 0);
  ([0; 1; 2; 3; 4; 0; 1; 2; 3; 4], [5], None)].
Example test_container_find_sequence : finds (find_sequence Z.eqb) test_container_find_sequence_cases = true.
Proof. reflexivity. Qed.

(** tests/container_tests.cpp 187-203: 11 assertions *)
Definition test_container_rfind_sequence_cases := [
  ([], [], Some 0);
  ([0; 1; 2; 3; 4; 0; 1; 2; 3; 4], [], Some 10);
  ([0; 1; 2; 3; 4; 0; 1; 2; 3; 4], [0; 1; 2; 3; 4; 0; 1; 2; 3; 4], Some 0);
  ([0; 1; 2; 3; 4; 0; 1; 2; 3; 4], [4; 0; 1], Some 4);
  ([0; 1; 2; 3; 4; 0; 1; 2; 3; 4], [1; 2; 3], Some 6);
  ([0; 1; 2; 3; 4; 0; 1; 2; 3; 4], [0], Some 5);
  ([0; 1; 2; 3; 4; 0; 1; 2; 3; 4], [4], Some 9);
  ([4; 0; 1], [0], Some 1);
  ([4; 0; 1], [4], Some 0);
  ([0; 1; 2; 3; 4; 0; 1; 2; 3; 4], [5], None)].
Example test_container_rfind_sequence : finds (rfind_sequence Z.eqb) test_container_rfind_sequence_cases = true.
Proof. reflexivity. Qed.

(** tests/container_tests.cpp 215-232: 10 assertions *)
Definition test_container_find_if_cases := [
  ([0; 1; 2; 3; 4; 0; 1; 2; 3; 4], 0, Some 0);
  ([0; 1; 2; 3; 4; 0; 1; 2; 3; 4], 1, Some 1);
  ([0; 1; 2; 3; 4; 0; 1; 2; 3; 4], 2, Some 2);
  ([0; 1; 2; 3; 4; 0; 1; 2; 3; 4], 3, Some 3);
  ([0; 1; 2; 3; 4; 0; 1; 2; 3; 4], 4, Some 4);
  ([4; 0; 1], 4, Some 0);
  ([4; 0; 1], 0, Some 1);
  ([4; 0; 1], 1, Some 2);
  ([], 0, None);
  ([0; 1; 2; 3; 4; 0; 1; 2; 3; 4], 5, None)].
Example test_container_find_if : finds_elem (fun l e => find_if (fun x => x =? e) l) test_container_find_if_cases = true.
Proof. reflexivity. Qed.

(** tests/container_tests.cpp 243-260: 10 assertions *)
Definition test_container_rfind_if_cases := [
  ([0; 1; 2; 3; 4; 0; 1; 2; 3; 4], 0, Some 5);
  ([0; 1; 2; 3; 4; 0; 1; 2; 3; 4], 1, Some 6);
  ([0; 1; 2; 3; 4; 0; 1; 2; 3; 4], 2, Some 7);
  ([0; 1; 2; 3; 4; 0; 1; 2; 3; 4], 3, Some 8);
  ([0; 1; 2; 3; 4; 0; 1; 2; 3; 4], 4, Some 9);
  ([4; 0; 1], 4, Some 0);
  ([4; 0; 1], 0, Some 1);
  ([4; 0; 1], 1, Some 2);
  ([], 0, None);
  ([0; 1; 2; 3; 4; 0; 1; 2; 3; 4], 5, None)].
Example test_container_rfind_if : finds_elem (fun l e => rfind_if (fun x => x =? e) l) test_container_rfind_if_cases = true.
Proof. reflexivity. Qed.

(** tests/container_tests.cpp 271-279: 8 assertions *)
Definition test_container_find_if_not_cases := [
  ([0; 1; 2; 3; 4; 0; 1; 2; 3; 4], 0, Some 1);
  ([0; 1; 2; 3; 4; 0; 1; 2; 3; 4], 1, Some 0);
  ([0; 1; 2; 3; 4; 0; 1; 2; 3; 4], 2, Some 0);
  ([0; 1; 2; 3; 4; 0; 1; 2; 3; 4], 3, Some 0);
  ([0; 1; 2; 3; 4; 0; 1; 2; 3; 4], 4, Some 0);
  ([4; 0; 1], 4, Some 1);
  ([4; 0; 1], 0, Some 0);
  ([4; 0; 1], 1, Some 0)].
Example test_container_find_if_not : finds_elem (fun l e => find_if_not (fun x => x =? e) l) test_container_find_if_not_cases = true.
Proof. reflexivity. Qed.

(** tests/container_tests.cpp 290-298: 8 assertions *)
Definition test_container_rfind_if_not_cases := [
  ([0; 1; 2; 3; 4; 0; 1; 2; 3; 4], 0, Some 9);
  ([0; 1; 2; 3; 4; 0; 1; 2; 3; 4], 1, Some 9);
  ([0; 1; 2; 3; 4; 0; 1; 2; 3; 4], 2, Some 9);
  ([0; 1; 2; 3; 4; 0; 1; 2; 3; 4], 3, Some 9);
  ([0; 1; 2; 3; 4; 0; 1; 2; 3; 4], 4, Some 8);
  ([4; 0; 1], 4, Some 2);
  ([4; 0; 1], 0, Some 2);
  ([4; 0; 1], 1, Some 1)].
Example test_container_rfind_if_not : finds_elem (fun l e => rfind_if_not (fun x => x =? e) l) test_container_rfind_if_not_cases = true.
Proof. reflexivity. Qed.

(** tests/container_tests.cpp 303-316: 9 assertions *)
Definition test_container_contains_elem_cases := [
  ([0; 1; 2; 3; 4; 0; 1; 2; 3; 4], 0, true);
  ([0; 1; 2; 3; 4; 0; 1; 2; 3; 4], 1, true);
  ([0; 1; 2; 3; 4; 0; 1; 2; 3; 4], 2, true);
  ([0; 1; 2; 3; 4; 0; 1; 2; 3; 4], 3, true);
  ([0; 1; 2; 3; 4; 0; 1; 2; 3; 4], 4, true);
  ([4; 0; 1], 4, true);
  ([4; 0; 1], 0, true);
  ([4; 0; 1], 1, true);
  ([0; 1; 2; 3; 4; 0; 1; 2; 3; 4], 5, false)].
Example test_container_contains_elem : says_elem (contains_elem Z.eqb) test_container_contains_elem_cases = true.
Proof. reflexivity. Qed.

(** tests/container_tests.cpp 321-337: 11 assertions *)
Definition test_container_contains_sequence_cases := [
  ([], [], true);
  ([0; 1; 2; 3; 4; 0; 1; 2; 3; 4], [], true);
  ([0; 1; 2; 3; 4; 0; 1; 2; 3; 4], [0; 1; 2; 3; 4; 0; 1; 2; 3; 4], true);
  ([0; 1; 2; 3; 4; 0; 1; 2; 3; 4], [4; 0; 1], true);
  ([0; 1; 2; 3; 4; 0; 1; 2; 3; 4], [1; 2; 3], true);
  ([0; 1; 2; 3; 4; 0; 1; 2; 3; 4], [0], true);
  ([0; 1; 2; 3; 4; 0; 1; 2; 3; 4], [4], true);
  ([4; 0; 1], [0], true);
  ([4; 0; 1], [4], true);
  ([0; 1; 2; 3; 4; 0; 1; 2; 3; 4], [5], false)].
Example test_container_contains_sequence : says (fun l r => Ret (contains_sequence Z.eqb l r)) test_container_contains_sequence_cases = true.
Proof. reflexivity. Qed.

(** tests/container_tests.cpp 404-419: 14 assertions *)
Definition test_container_slice_cases := [
  (0, 0, []);
  (1, 0, []);
  (1, 1, []);
  (-1, 0, []);
  (-1, -1, []);
  (-100, 0, []);
  (10, 100, []);
  (100, 100, []);
  (100, -100, []);
  (-100, -100, []);
  (1, 6, [1; 2; 3; 4; 5]);
  (1, -4, [1; 2; 3; 4; 5]);
  (-9, 6, [1; 2; 3; 4; 5]);
  (-9, -4, [1; 2; 3; 4; 5])].
Example test_container_slice : slices (SeqModel.slice None [0; 1; 2; 3; 4; 5; 6; 7; 8; 9]) test_container_slice_cases = true.
Proof. reflexivity. Qed.

(** tests/container_tests.cpp 437-451: 14 assertions *)
Definition test_container_any_cases := [
  ([1], true);
  ([3], true);
  ([4], true);
  ([5], true);
  ([1; 2; 3], true);
  ([4; 0; 1], true);
  ([0; 1; 2; 3], true);
  ([1; 2; 3; 4], true);
  ([0; 1; 2; 3; 4], true);
  ([5; 6; 7; 8; 9], true);
  ([0; 1; 2; 3; 4; 0; 1; 2; 3; 4], true);
  ([], false);
  ([0], false);
  ([0; 0; 0], false)].
Example test_container_any : tells (any (fun x => negb (x =? 0))) test_container_any_cases = true.
Proof. reflexivity. Qed.

(** tests/container_tests.cpp 456-470: 14 assertions *)
Definition test_container_all_cases := [
  ([], true);
  ([1], true);
  ([3], true);
  ([4], true);
  ([5], true);
  ([1; 2; 3], true);
  ([1; 2; 3; 4], true);
  ([5; 6; 7; 8; 9], true);
  ([0], false);
  ([4; 0; 1], false);
  ([0; 0; 0], false);
  ([0; 1; 2; 3], false);
  ([0; 1; 2; 3; 4], false);
  ([0; 1; 2; 3; 4; 0; 1; 2; 3; 4], false)].
Example test_container_all : tells (all (fun x => negb (x =? 0))) test_container_all_cases = true.
Proof. reflexivity. Qed.

(** tests/container_tests.cpp 475-483: 9 assertions *)
Definition test_container_count_cases := [
  ([], 0, 0);
  ([0], 0, 1);
  ([1], 1, 1);
  ([1; 2; 3], 1, 1);
  ([4; 0; 1], 0, 1);
  ([0; 0; 0], 0, 3);
  ([0; 1; 2; 3; 4], 1, 1);
  ([5; 6; 7; 8; 9], 1, 0);
  ([0; 1; 2; 3; 4; 0; 1; 2; 3; 4], 1, 2)].
Example test_container_count : counts (fun l e => SeqModel.count Z.eqb l e) test_container_count_cases = true.
Proof. reflexivity. Qed.

(** tests/container_tests.cpp 488-499: 11 assertions *)
Definition test_container_count_if_cases := [
  ([], (fun x => x =? 0), 0);
  ([0], (fun x => x =? 0), 1);
  ([1], (fun x => x =? 1), 1);
  ([1; 2; 3], (fun x => x =? 1), 1);
  ([4; 0; 1], (fun x => x =? 0), 1);
  ([0; 0; 0], (fun x => x =? 0), 3);
  ([0; 1; 2; 3; 4], (fun x => x =? 1), 1);
  ([5; 6; 7; 8; 9], (fun x => x =? 1), 0);
  ([0; 1; 2; 3; 4; 0; 1; 2; 3; 4], (fun x => x =? 1), 2);
  ([0; 1; 2; 3; 4], (fun x => x mod 2 =? 0), 3);
  ([0; 1; 2; 3; 4; 0; 1; 2; 3; 4], (fun x => x mod 2 =? 0), 6)].
Example test_container_count_if : counts_if (fun l p => count_if p l) test_container_count_if_cases = true.
Proof. reflexivity. Qed.

(** tests/container_tests.cpp 504-525: 21 assertions *)
Definition test_container_sum_cases := [
  ([], 0, 0);
  ([0], 0, 0);
  ([1], 0, 1);
  ([3], 0, 3);
  ([4], 0, 4);
  ([5], 0, 5);
  ([1; 2; 3], 0, 6);
  ([4; 0; 1], 0, 5);
  ([0; 0; 0], 0, 0);
  ([0; 1; 2; 3], 0, 6);
  ([1; 2; 3; 4], 0, 10);
  ([0; 1; 2; 3; 4], 0, 10);
  ([5; 6; 7; 8; 9], 0, 35);
  ([0; 1; 2; 3; 4; 0; 1; 2; 3; 4], 0, 20);
  ([], 5, 5);
  ([5], 5, 10);
  ([1; 2; 3], 3, 9);
  ([4; 0; 1], 2, 7);
  ([0; 1; 2; 3; 4], 1, 11)].
Example test_container_sum : sums (SeqModel.sum 32 true) test_container_sum_cases = true.
Proof. reflexivity. Qed.

(** tests/container_tests.cpp 530-559: 26 assertions *)
Definition test_container_min_cases := [
  ([0], 0);
  ([1], 1);
  ([3], 3);
  ([4], 4);
  ([5], 5);
  ([1; 2; 3], 1);
  ([4; 0; 1], 0);
  ([0; 0; 0], 0);
  ([0; 1; 2; 3], 0);
  ([1; 2; 3; 4], 1);
  ([0; 1; 2; 3; 4], 0);
  ([5; 6; 7; 8; 9], 5);
  ([0; 1; 2; 3; 4; 0; 1; 2; 3; 4], 0)].
Example test_container_min : extremes (min_of Z.ltb) test_container_min_cases = true.
Proof. reflexivity. Qed.

(** tests/container_tests.cpp 564-593: 26 assertions *)
Definition test_container_max_cases := [
  ([0], 0);
  ([1], 1);
  ([3], 3);
  ([4], 4);
  ([5], 5);
  ([1; 2; 3], 3);
  ([4; 0; 1], 4);
  ([0; 0; 0], 0);
  ([0; 1; 2; 3], 3);
  ([1; 2; 3; 4], 4);
  ([0; 1; 2; 3; 4], 4);
  ([5; 6; 7; 8; 9], 9);
  ([0; 1; 2; 3; 4; 0; 1; 2; 3; 4], 4)].
Example test_container_max : extremes (max_of Z.ltb) test_container_max_cases = true.
Proof. reflexivity. Qed.

(** tests/iterator_tests.cpp 40-52: 7 assertions *)
Definition test_iterator_equals_same_size_cases := [
  ([], [], true);
  ([0; 1; 2; 3; 4], [0; 1; 2; 3; 4], true);
  ([0; 1; 2; 3; 4], [5; 6; 7; 8; 9], false);
  ([5; 6; 7; 8; 9], [0; 1; 2; 3; 4], false);
  ([0; 1; 2; 3], [1; 2; 3; 4], false);
  ([1; 2; 3; 4], [0; 1; 2; 3], false)].
Example test_iterator_equals_same_size : says (equals_same_size Z.eqb) test_iterator_equals_same_size_cases = true.
Proof. reflexivity. Qed.

(** tests/iterator_tests.cpp 57-79: 15 assertions *)
Definition test_iterator_equals_cases := [
  ([], [], true);
  ([0; 1; 2; 3; 4], [0; 1; 2; 3; 4], true);
  ([0; 1; 2; 3; 4], [5; 6; 7; 8; 9], false);
  ([0; 1; 2; 3; 4], [0; 1; 2; 3], false);
  ([0; 1; 2; 3; 4], [1; 2; 3; 4], false);
  ([5; 6; 7; 8; 9], [0; 1; 2; 3; 4], false);
  ([5; 6; 7; 8; 9], [0; 1; 2; 3], false);
  ([5; 6; 7; 8; 9], [1; 2; 3; 4], false);
  ([0; 1; 2; 3], [0; 1; 2; 3; 4], false);
  ([0; 1; 2; 3], [5; 6; 7; 8; 9], false);
  ([0; 1; 2; 3], [1; 2; 3; 4], false);
  ([1; 2; 3; 4], [0; 1; 2; 3; 4], false);
  ([1; 2; 3; 4], [5; 6; 7; 8; 9], false);
  ([1; 2; 3; 4], [0; 1; 2; 3], false)].
Example test_iterator_equals : says (fun l r => Ret (equals Z.eqb l r)) test_iterator_equals_cases = true.
Proof. reflexivity. Qed.

(** tests/iterator_tests.cpp 84-107: 16 assertions *)
Definition test_iterator_starts_with_cases := [
  ([], [], true);
  ([0; 1; 2; 3; 4], [0; 1; 2; 3; 4], true);
  ([0; 1; 2; 3; 4], [0; 1; 2; 3], true);
  ([0; 1; 2; 3; 4], [0], true);
  ([0; 1; 2; 3; 4], [5; 6; 7; 8; 9], false);
  ([0; 1; 2; 3; 4], [1; 2; 3; 4], false);
  ([0; 1; 2; 3; 4], [1], false);
  ([5; 6; 7; 8; 9], [0; 1; 2; 3; 4], false);
  ([5; 6; 7; 8; 9], [1; 2; 3; 4], false);
  ([5; 6; 7; 8; 9], [1], false);
  ([1; 2; 3; 4], [0; 1; 2; 3; 4], false);
  ([1; 2; 3; 4], [5; 6; 7; 8; 9], false);
  ([1], [0; 1; 2; 3; 4], false);
  ([1], [5; 6; 7; 8; 9], false);
  ([1], [1; 2; 3; 4], false)].
Example test_iterator_starts_with : says (fun l r => Ret (starts_with_generic Z.eqb l r)) test_iterator_starts_with_cases = true.
Proof. reflexivity. Qed.
Example test_iterator_starts_with_cxx20 : says (starts_with_cxx20 Z.eqb) test_iterator_starts_with_cases = true.
Proof. reflexivity. Qed.

(** tests/iterator_tests.cpp 112-135: 16 assertions *)
Definition test_iterator_ends_with_cases := [
  ([], [], true);
  ([0; 1; 2; 3; 4], [0; 1; 2; 3; 4], true);
  ([0; 1; 2; 3; 4], [1; 2; 3; 4], true);
  ([0; 1; 2; 3; 4], [4], true);
  ([0; 1; 2; 3; 4], [5; 6; 7; 8; 9], false);
  ([0; 1; 2; 3; 4], [0; 1; 2; 3], false);
  ([0; 1; 2; 3; 4], [3], false);
  ([5; 6; 7; 8; 9], [0; 1; 2; 3; 4], false);
  ([5; 6; 7; 8; 9], [0; 1; 2; 3], false);
  ([5; 6; 7; 8; 9], [3], false);
  ([0; 1; 2; 3], [0; 1; 2; 3; 4], false);
  ([0; 1; 2; 3], [5; 6; 7; 8; 9], false);
  ([3], [0; 1; 2; 3; 4], false);
  ([3], [5; 6; 7; 8; 9], false);
  ([3], [0; 1; 2; 3], false)].
Example test_iterator_ends_with : says (fun l r => Ret (ends_with_generic Z.eqb l r)) test_iterator_ends_with_cases = true.
Proof. reflexivity. Qed.
Example test_iterator_ends_with_cxx20 : says (ends_with_cxx20 Z.eqb) test_iterator_ends_with_cases = true.
Proof. reflexivity. Qed.

(** tests/iterator_tests.cpp 140-154: 10 assertions *)
Definition test_iterator_find_elem_cases := [
  ([0; 1; 2; 3; 4; 0; 1; 2; 3; 4], 0, Some 0);
  ([0; 1; 2; 3; 4; 0; 1; 2; 3; 4], 1, Some 1);
  ([0; 1; 2; 3; 4; 0; 1; 2; 3; 4], 2, Some 2);
  ([0; 1; 2; 3; 4; 0; 1; 2; 3; 4], 3, Some 3);
  ([0; 1; 2; 3; 4; 0; 1; 2; 3; 4], 4, Some 4);
  ([4; 0; 1], 4, Some 0);
  ([4; 0; 1], 0, Some 1);
  ([4; 0; 1], 1, Some 2);
  ([], 0, None);
  ([0; 1; 2; 3; 4; 0; 1; 2; 3; 4], 5, None)].
Example test_iterator_find_elem : finds_elem (find_elem Z.eqb) test_iterator_find_elem_cases = true.
Proof. reflexivity. Qed.

(** tests/iterator_tests.cpp 159-175: 11 assertions *)
Definition test_iterator_find_sequence_cases := [
  ([], [], Some 0);
  ([0; 1; 2; 3; 4; 0; 1; 2; 3; 4], [], Some 0);
  ([0; 1; 2; 3; 4; 0; 1; 2; 3; 4], [0; 1; 2; 3; 4; 0; 1; 2; 3; 4], Some 0);
  ([0; 1; 2; 3; 4; 0; 1; 2; 3; 4], [4; 0; 1], Some 4);
  ([0; 1; 2; 3; 4; 0; 1; 2; 3; 4], [1; 2; 3], Some 1);
  ([0; 1; 2; 3; 4; 0; 1; 2; 3; 4], [0], Some 0);
  ([0; 1; 2; 3; 4; 0; 1; 2; 3; 4], [4], Some 4);
  ([4; 0; 1], [0], Some 1);
  ([4; 0; 1], [4], Some 0);
  ([0; 1; 2; 3; 4; 0; 1; 2; 3; 4], [5], None)].
Example test_iterator_find_sequence : finds (find_sequence Z.eqb) test_iterator_find_sequence_cases = true.
Proof. reflexivity. Qed.

(** tests/iterator_tests.cpp 180-194: 10 assertions *)
Definition test_iterator_rfind_elem_cases := [
  ([0; 1; 2; 3; 4; 0; 1; 2; 3; 4], 0, Some 5);
  ([0; 1; 2; 3; 4; 0; 1; 2; 3; 4], 1, Some 6);
  ([0; 1; 2; 3; 4; 0; 1; 2; 3; 4], 2, Some 7);
  ([0; 1; 2; 3; 4; 0; 1; 2; 3; 4], 3, Some 8);
  ([0; 1; 2; 3; 4; 0; 1; 2; 3; 4], 4, Some 9);
  ([4; 0; 1], 4, Some 0);
  ([4; 0; 1], 0, Some 1);
  ([4; 0; 1], 1, Some 2);
  ([], 0, None);
  ([0; 1; 2; 3; 4; 0; 1; 2; 3; 4], 5, None)].
Example test_iterator_rfind_elem : finds_elem (rfind_elem Z.eqb) test_iterator_rfind_elem_cases = true.
Proof. reflexivity. Qed.

(** tests/iterator_tests.cpp 200-216: 11 assertions *)
Definition test_iterator_rfind_sequence_cases := [
  ([], [], Some 0);
  ([0; 1; 2; 3; 4; 0; 1; 2; 3; 4], [], Some 10);
  ([0; 1; 2; 3; 4; 0; 1; 2; 3; 4], [0; 1; 2; 3; 4; 0; 1; 2; 3; 4], Some 0);
  ([0; 1; 2; 3; 4; 0; 1; 2; 3; 4], [4; 0; 1], Some 4);
  ([0; 1; 2; 3; 4; 0; 1; 2; 3; 4], [1; 2; 3], Some 6);
  ([0; 1; 2; 3; 4; 0; 1; 2; 3; 4], [0], Some 5);
  ([0; 1; 2; 3; 4; 0; 1; 2; 3; 4], [4], Some 9);
  ([4; 0; 1], [0], Some 1);
  ([4; 0; 1], [4], Some 0);
  ([0; 1; 2; 3; 4; 0; 1; 2; 3; 4], [5], None)].
Example test_iterator_rfind_sequence : finds (rfind_sequence Z.eqb) test_iterator_rfind_sequence_cases = true.
Proof. reflexivity. Qed.

(** tests/iterator_tests.cpp 228-245: 10 assertions *)
Definition test_iterator_find_if_cases := [
  ([0; 1; 2; 3; 4; 0; 1; 2; 3; 4], 0, Some 0);
  ([0; 1; 2; 3; 4; 0; 1; 2; 3; 4], 1, Some 1);
  ([0; 1; 2; 3; 4; 0; 1; 2; 3; 4], 2, Some 2);
  ([0; 1; 2; 3; 4; 0; 1; 2; 3; 4], 3, Some 3);
  ([0; 1; 2; 3; 4; 0; 1; 2; 3; 4], 4, Some 4);
  ([4; 0; 1], 4, Some 0);
  ([4; 0; 1], 0, Some 1);
  ([4; 0; 1], 1, Some 2);
  ([], 0, None);
  ([0; 1; 2; 3; 4; 0; 1; 2; 3; 4], 5, None)].
Example test_iterator_find_if : finds_elem (fun l e => find_if (fun x => x =? e) l) test_iterator_find_if_cases = true.
Proof. reflexivity. Qed.

(** tests/iterator_tests.cpp 256-273: 10 assertions *)
Definition test_iterator_rfind_if_cases := [
  ([0; 1; 2; 3; 4; 0; 1; 2; 3; 4], 0, Some 5);
  ([0; 1; 2; 3; 4; 0; 1; 2; 3; 4], 1, Some 6);
  ([0; 1; 2; 3; 4; 0; 1; 2; 3; 4], 2, Some 7);
  ([0; 1; 2; 3; 4; 0; 1; 2; 3; 4], 3, Some 8);
  ([0; 1; 2; 3; 4; 0; 1; 2; 3; 4], 4, Some 9);
  ([4; 0; 1], 4, Some 0);
  ([4; 0; 1], 0, Some 1);
  ([4; 0; 1], 1, Some 2);
  ([], 0, None);
  ([0; 1; 2; 3; 4; 0; 1; 2; 3; 4], 5, None)].
Example test_iterator_rfind_if : finds_elem (fun l e => rfind_if (fun x => x =? e) l) test_iterator_rfind_if_cases = true.
Proof. reflexivity. Qed.

(** tests/iterator_tests.cpp 284-292: 8 assertions *)
Definition test_iterator_find_if_not_cases := [
  ([0; 1; 2; 3; 4; 0; 1; 2; 3; 4], 0, Some 1);
  ([0; 1; 2; 3; 4; 0; 1; 2; 3; 4], 1, Some 0);
  ([0; 1; 2; 3; 4; 0; 1; 2; 3; 4], 2, Some 0);
  ([0; 1; 2; 3; 4; 0; 1; 2; 3; 4], 3, Some 0);
  ([0; 1; 2; 3; 4; 0; 1; 2; 3; 4], 4, Some 0);
  ([4; 0; 1], 4, Some 1);
  ([4; 0; 1], 0, Some 0);
  ([4; 0; 1], 1, Some 0)].
Example test_iterator_find_if_not : finds_elem (fun l e => find_if_not (fun x => x =? e) l) test_iterator_find_if_not_cases = true.
Proof. reflexivity. Qed.

(** tests/iterator_tests.cpp 303-311: 8 assertions *)
Definition test_iterator_rfind_if_not_cases := [
  ([0; 1; 2; 3; 4; 0; 1; 2; 3; 4], 0, Some 9);
  ([0; 1; 2; 3; 4; 0; 1; 2; 3; 4], 1, Some 9);
  ([0; 1; 2; 3; 4; 0; 1; 2; 3; 4], 2, Some 9);
  ([0; 1; 2; 3; 4; 0; 1; 2; 3; 4], 3, Some 9);
  ([0; 1; 2; 3; 4; 0; 1; 2; 3; 4], 4, Some 8);
  ([4; 0; 1], 4, Some 2);
  ([4; 0; 1], 0, Some 2);
  ([4; 0; 1], 1, Some 1)].
Example test_iterator_rfind_if_not : finds_elem (fun l e => rfind_if_not (fun x => x =? e) l) test_iterator_rfind_if_not_cases = true.
Proof. reflexivity. Qed.

(** tests/iterator_tests.cpp 316-329: 9 assertions *)
Definition test_iterator_contains_elem_cases := [
  ([0; 1; 2; 3; 4; 0; 1; 2; 3; 4], 0, true);
  ([0; 1; 2; 3; 4; 0; 1; 2; 3; 4], 1, true);
  ([0; 1; 2; 3; 4; 0; 1; 2; 3; 4], 2, true);
  ([0; 1; 2; 3; 4; 0; 1; 2; 3; 4], 3, true);
  ([0; 1; 2; 3; 4; 0; 1; 2; 3; 4], 4, true);
  ([4; 0; 1], 4, true);
  ([4; 0; 1], 0, true);
  ([4; 0; 1], 1, true);
  ([0; 1; 2; 3; 4; 0; 1; 2; 3; 4], 5, false)].
Example test_iterator_contains_elem : says_elem (contains_elem Z.eqb) test_iterator_contains_elem_cases = true.
Proof. reflexivity. Qed.

(** tests/iterator_tests.cpp 334-350: 11 assertions *)
Definition test_iterator_contains_cases := [
  ([], [], true);
  ([0; 1; 2; 3; 4; 0; 1; 2; 3; 4], [], true);
  ([0; 1; 2; 3; 4; 0; 1; 2; 3; 4], [0; 1; 2; 3; 4; 0; 1; 2; 3; 4], true);
  ([0; 1; 2; 3; 4; 0; 1; 2; 3; 4], [4; 0; 1], true);
  ([0; 1; 2; 3; 4; 0; 1; 2; 3; 4], [1; 2; 3], true);
  ([0; 1; 2; 3; 4; 0; 1; 2; 3; 4], [0], true);
  ([0; 1; 2; 3; 4; 0; 1; 2; 3; 4], [4], true);
  ([4; 0; 1], [0], true);
  ([4; 0; 1], [4], true);
  ([0; 1; 2; 3; 4; 0; 1; 2; 3; 4], [5], false)].
Example test_iterator_contains : says (fun l r => Ret (contains_sequence Z.eqb l r)) test_iterator_contains_cases = true.
Proof. reflexivity. Qed.

(** tests/compare_tests.cpp 387-401: 13 assertions *)
Definition test_compare_is_iequal_cases := [
  (32, 32, true);
  (65, 65, true);
  (97, 65, true);
  (65, 97, true);
  (97, 97, true);
  (65, 66, false);
  (97, 66, false);
  (65, 98, false);
  (97, 98, false);
  (66, 65, false);
  (98, 65, false);
  (66, 97, false);
  (98, 97, false)].
Example test_compare_is_iequal : compares (SeqModel.is_iequal toupper) test_compare_is_iequal_cases = true.
Proof. reflexivity. Qed.

(** tests/compare_tests.cpp 406-420: 13 assertions *)
Definition test_compare_is_not_iequal_cases := [
  (32, 32, false);
  (65, 65, false);
  (97, 65, false);
  (65, 97, false);
  (97, 97, false);
  (65, 66, true);
  (97, 66, true);
  (65, 98, true);
  (97, 98, true);
  (66, 65, true);
  (98, 65, true);
  (66, 97, true);
  (98, 97, true)].
Example test_compare_is_not_iequal : compares (SeqModel.is_not_iequal toupper) test_compare_is_not_iequal_cases = true.
Proof. reflexivity. Qed.

(** tests/compare_tests.cpp 425-439: 13 assertions *)
Definition test_compare_is_iless_cases := [
  (32, 32, false);
  (65, 65, false);
  (97, 65, false);
  (65, 97, false);
  (97, 97, false);
  (65, 66, true);
  (97, 66, true);
  (65, 98, true);
  (97, 98, true);
  (66, 65, false);
  (98, 65, false);
  (66, 97, false);
  (98, 97, false)].
Example test_compare_is_iless : compares (SeqModel.is_iless toupper) test_compare_is_iless_cases = true.
Proof. reflexivity. Qed.

(** tests/compare_tests.cpp 444-458: 13 assertions *)
Definition test_compare_is_igreater_cases := [
  (32, 32, false);
  (65, 65, false);
  (97, 65, false);
  (65, 97, false);
  (97, 97, false);
  (65, 66, false);
  (97, 66, false);
  (65, 98, false);
  (97, 98, false);
  (66, 65, true);
  (98, 65, true);
  (66, 97, true);
  (98, 97, true)].
Example test_compare_is_igreater : compares (SeqModel.is_igreater toupper) test_compare_is_igreater_cases = true.
Proof. reflexivity. Qed.

(** tests/compare_tests.cpp 463-477: 13 assertions *)
Definition test_compare_is_iless_equal_cases := [
  (32, 32, true);
  (65, 65, true);
  (97, 65, true);
  (65, 97, true);
  (97, 97, true);
  (65, 66, true);
  (97, 66, true);
  (65, 98, true);
  (97, 98, true);
  (66, 65, false);
  (98, 65, false);
  (66, 97, false);
  (98, 97, false)].
Example test_compare_is_iless_equal : compares (SeqModel.is_iless_equal toupper) test_compare_is_iless_equal_cases = true.
Proof. reflexivity. Qed.

(** tests/compare_tests.cpp 482-496: 13 assertions *)
Definition test_compare_is_igreater_equal_cases := [
  (32, 32, true);
  (65, 65, true);
  (97, 65, true);
  (65, 97, true);
  (97, 97, true);
  (65, 66, false);
  (97, 66, false);
  (65, 98, false);
  (97, 98, false);
  (66, 65, true);
  (98, 65, true);
  (66, 97, true);
  (98, 97, true)].
Example test_compare_is_igreater_equal : compares (SeqModel.is_igreater_equal toupper) test_compare_is_igreater_equal_cases = true.
Proof. reflexivity. Qed.

(** tests/range_tests.cpp 56-61: 6 assertions *)
Definition test_range_is_equal_cases := [
  (Range 0 0, Range 0 0, true);
  (Range 1 6, Range 2 8, false);
  (Range 2 8, Range 1 6, false);
  (Range 1 6, Range 6 9, false);
  (Range 6 9, Range 1 6, false)].
Example test_range_is_equal : compares (SmallModel.is_equal Z.eqb) test_range_is_equal_cases = true.
Proof. reflexivity. Qed.

(** tests/range_tests.cpp 63-68: 6 assertions *)
Definition test_range_op_eq_cases := [
  (Range 0 0, Range 0 0, true);
  (Range 1 6, Range 2 8, false);
  (Range 2 8, Range 1 6, false);
  (Range 1 6, Range 6 9, false);
  (Range 6 9, Range 1 6, false)].
Example test_range_op_eq : compares (SmallModel.op_eq Z.eqb) test_range_op_eq_cases = true.
Proof. reflexivity. Qed.

(** tests/range_tests.cpp 73-78: 6 assertions *)
Definition test_range_op_ne_cases := [
  (Range 0 0, Range 0 0, false);
  (Range 1 6, Range 2 8, true);
  (Range 2 8, Range 1 6, true);
  (Range 1 6, Range 6 9, true);
  (Range 6 9, Range 1 6, true)].
Example test_range_op_ne : compares (SmallModel.op_ne Z.eqb) test_range_op_ne_cases = true.
Proof. reflexivity. Qed.

(** tests/range_tests.cpp 83-88: 6 assertions *)
Definition test_range_is_less_cases := [
  (Range 0 0, Range 0 0, false);
  (Range 1 6, Range 2 8, true);
  (Range 2 8, Range 1 6, false);
  (Range 1 6, Range 6 9, true);
  (Range 6 9, Range 1 6, false)].
Example test_range_is_less : compares (SmallModel.is_less Z.ltb Z.eqb) test_range_is_less_cases = true.
Proof. reflexivity. Qed.

(** tests/range_tests.cpp 90-95: 6 assertions *)
Definition test_range_op_lt_cases := [
  (Range 0 0, Range 0 0, false);
  (Range 1 6, Range 2 8, true);
  (Range 2 8, Range 1 6, false);
  (Range 1 6, Range 6 9, true);
  (Range 6 9, Range 1 6, false)].
Example test_range_op_lt : compares (SmallModel.op_lt Z.ltb Z.eqb) test_range_op_lt_cases = true.
Proof. reflexivity. Qed.

(** tests/range_tests.cpp 100-105: 6 assertions *)
Definition test_range_op_gt_cases := [
  (Range 0 0, Range 0 0, false);
  (Range 1 6, Range 2 8, false);
  (Range 2 8, Range 1 6, true);
  (Range 1 6, Range 6 9, false);
  (Range 6 9, Range 1 6, true)].
Example test_range_op_gt : compares (SmallModel.op_gt Z.ltb Z.eqb) test_range_op_gt_cases = true.
Proof. reflexivity. Qed.

(** tests/range_tests.cpp 110-115: 6 assertions *)
Definition test_range_op_le_cases := [
  (Range 0 0, Range 0 0, true);
  (Range 1 6, Range 2 8, true);
  (Range 2 8, Range 1 6, false);
  (Range 1 6, Range 6 9, true);
  (Range 6 9, Range 1 6, false)].
Example test_range_op_le : compares (SmallModel.op_le Z.ltb Z.eqb) test_range_op_le_cases = true.
Proof. reflexivity. Qed.

(** tests/range_tests.cpp 120-125: 6 assertions *)
Definition test_range_op_ge_cases := [
  (Range 0 0, Range 0 0, true);
  (Range 1 6, Range 2 8, false);
  (Range 2 8, Range 1 6, true);
  (Range 1 6, Range 6 9, false);
  (Range 6 9, Range 1 6, true)].
Example test_range_op_ge : compares (SmallModel.op_ge Z.ltb Z.eqb) test_range_op_ge_cases = true.
Proof. reflexivity. Qed.

(** tests/range_tests.cpp 130-135: 6 assertions *)
Definition test_range_is_overlapping_cases := [
  (Range 0 0, Range 0 0, true);
  (Range 1 6, Range 2 8, true);
  (Range 2 8, Range 1 6, true);
  (Range 1 6, Range 6 9, false);
  (Range 6 9, Range 1 6, false)].
Example test_range_is_overlapping : compares (SmallModel.is_overlapping Z.ltb Z.eqb) test_range_is_overlapping_cases = true.
Proof. reflexivity. Qed.

(** tests/range_tests.cpp 140-145: 6 assertions *)
Definition test_range_is_less_no_overlap_cases := [
  (Range 0 0, Range 0 0, false);
  (Range 1 6, Range 2 8, false);
  (Range 2 8, Range 1 6, false);
  (Range 1 6, Range 6 9, true);
  (Range 6 9, Range 1 6, false)].
Example test_range_is_less_no_overlap : compares (SmallModel.is_less_no_overlap Z.leb Z.eqb) test_range_is_less_no_overlap_cases = true.
Proof. reflexivity. Qed.

(** tests/value_tests.cpp 17-21: 5 assertions *)
Definition test_value_abs_cases := [
  (0, 0);
  (1, 1);
  (2, 2);
  (-1, 1);
  (-2, 2)].
Example test_value_abs : forallb (fun '(v, r) => returned (SmallModel.abs 32 true v) (Z.eqb r)) test_value_abs_cases = true.
Proof. reflexivity. Qed.

(** tests/value_tests.cpp 47-84: 16 assertions *)
Definition test_value_min_cases := [
  (1, 1, 1);
  (1, 2, 1);
  (2, 1, 1);
  (1, -1, -1);
  (-1, 1, -1);
  (-1, -1, -1);
  (-1, -2, -2);
  (-2, -1, -2)].
Example test_value_min : chooses (min2 Z.ltb) test_value_min_cases = true.
Proof. reflexivity. Qed.

(** tests/value_tests.cpp 107-144: 16 assertions *)
Definition test_value_max_cases := [
  (1, 1, 1);
  (1, 2, 2);
  (2, 1, 2);
  (1, -1, 1);
  (-1, 1, 1);
  (-1, -1, -1);
  (-1, -2, -1);
  (-2, -1, -1)].
Example test_value_max : chooses (max2 Z.ltb) test_value_max_cases = true.
Proof. reflexivity. Qed.
(** tests/container_tests.cpp 340-346 *)
Example test_container_sort r :
  sort Z.ltb [5; 4; 6; 3; 7; 2; 8; 1; 9; 0] r -> r = Ret [0; 1; 2; 3; 4; 5; 6; 7; 8; 9].
Proof.
  intro S. destruct (sort_default _ _ S) as (l' & -> & P & O). f_equal. apply sorted_unique; [exact O| |].
  - repeat (constructor; [|repeat (constructor; [discriminate|]); constructor]). constructor.
  - apply (Permutation_trans (Permutation_sym P)). apply NoDup_Permutation.
    + repeat (constructor; [simpl; intuition discriminate|]). constructor.
    + repeat (constructor; [simpl; intuition discriminate|]). constructor.
    + intro x. simpl. intuition.
Qed.
(** tests/container_tests.cpp 348-354 *)
Example test_container_reverse : reverse [0; 1; 2; 3; 4; 5; 6; 7; 8; 9] = Ret [9; 8; 7; 6; 5; 4; 3; 2; 1; 0].
Proof. reflexivity. Qed.
Example test_container_reverse_random_access :
  reverse_ra [0; 1; 2; 3; 4; 5; 6; 7; 8; 9] = Ret [9; 8; 7; 6; 5; 4; 3; 2; 1; 0].
Proof. reflexivity. Qed.
(** tests/container_tests.cpp 356-362 *)
Example test_container_filter junk :
  filter_container junk (fun x => x mod 2 =? 0) [0; 1; 2; 3; 4; 5; 6; 7; 8; 9] = Ret [0; 2; 4; 6; 8].
Proof. reflexivity. Qed.
(** tests/container_tests.cpp 364-370: the state of the calls is the list of the new values *)
Example test_container_for_each :
  for_each (fun st x => st ++ [x * 10]) [] [0; 1; 2; 3; 4; 5; 6; 7; 8; 9] = [0; 10; 20; 30; 40; 50; 60; 70; 80; 90].
Proof. reflexivity. Qed.
(** tests/container_tests.cpp 372-396: to a vector, and to a set *)
Example test_container_map_vector :
  snd (map_into (fun (_ : unit) x => (tt, x * 10)) tt [0; 1; 2; 3; 4; 5; 6; 7; 8; 9] [])
  = [0; 10; 20; 30; 40; 50; 60; 70; 80; 90].
Proof. reflexivity. Qed.
Example test_container_map_set :
  map_into_tree Z.ltb (fun x => x * 10) [0; 1; 2; 3; 4; 5; 6; 7; 8; 9] [] = [0; 10; 20; 30; 40; 50; 60; 70; 80; 90].
Proof. reflexivity. Qed.
(** tests/range_tests.cpp 22-52 *)
Example test_range_size : range_size 32 true (Range 1 2) = Ret 1 /\ range_size 32 true (Range 2 4) = Ret 2.
Proof. split; reflexivity. Qed.
