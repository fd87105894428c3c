(** The assertions of the repository's own tests (/repo/tests/string_tests.cpp), evaluated on the model.

    They are tests of the model, not proofs about it: each says that the model computes what the authors of the code
    expect it to compute on the inputs they chose.  The macros TEST_ALL_ELEMS, TEST_ALL_ELEM_ARRAYS and TEST_ALL_STRINGS
    repeat an assertion for each character type; the model has one type of characters, so it is evaluated once.
    Characters are their codes; the locale is the classic one. *)
From Coq Require Import List Bool Arith ZArith Ascii String.
From Verif Require Import Base StringModel SeqModel DigitsModel ConvModel.
Import ListNotations.
Open Scope string_scope.
Open Scope Z_scope.

Definition codes (s : string) : list Z := map (fun c => Z.of_nat (nat_of_ascii c)) (list_ascii_of_string s).
Definition chars (l : list Z) : string := string_of_list_ascii (map (fun z => ascii_of_nat (Z.to_nat z)) l).
Definition is_lower_char (c : Z) : bool := (97 <=? c) && (c <=? 122).
Definition is_upper_char (c : Z) : bool := (65 <=? c) && (c <=? 90).
Definition tolower (c : Z) : Z := if is_upper_char c then c + 32 else c.
Definition toupper (c : Z) : Z := if is_lower_char c then c - 32 else c.
Definition space (c : Z) : bool := (c =? 32) || ((9 <=? c) && (c <=? 13)).

Fixpoint same (a b : list Z) : bool :=
  match a, b with [], [] => true | x :: a, y :: b => (x =? y) && same a b | _, _ => false end.
Fixpoint all_same (a b : list (list Z)) : bool :=
  match a, b with [], [] => true | x :: a, y :: b => same x y && all_same a b | _, _ => false end.
(** the call returned, and its result satisfies the check *)
Definition returned {A : Type} (o : outcome A) (check : A -> bool) : bool :=
  match o with Ret x => check x | _ => false end.

(** ASSERT_EQ(f(x), y) or ASSERT_NE(f(x), y) *)
Definition agrees (f : list Z -> outcome (list Z)) (cases : list (string * string * bool)) : bool :=
  forallb (fun '(x, y, b) => returned (f (codes x)) (fun r => Bool.eqb (same r (codes y)) b)) cases.
(** ASSERT_TRUE(f(x)) or ASSERT_FALSE(f(x)) *)
Definition says (f : list Z -> outcome bool) (cases : list (string * bool)) : bool :=
  forallb (fun '(x, b) => returned (f (codes x)) (Bool.eqb b)) cases.
(** ASSERT_TRUE(f(x, y)) or ASSERT_FALSE(f(x, y)) *)
Definition says2 (f : list Z -> list Z -> outcome bool) (cases : list (string * string * bool)) : bool :=
  forallb (fun '(x, y, b) => returned (f (codes x) (codes y)) (Bool.eqb b)) cases.
(** ASSERT_EQ(f(x, y), begin + z) *)
Definition finds (f : list Z -> list Z -> nat) (cases : list (string * string * Z)) : bool :=
  forallb (fun '(x, y, z) => Z.of_nat (f (codes x) (codes y)) =? z) cases.
(** ASSERT_EQ(f(x), splits) *)
Definition splits (f : list Z -> outcome (list (list Z))) (cases : list (string * list string)) : bool :=
  forallb (fun '(x, r) => returned (f (codes x)) (fun l => all_same l (map codes r))) cases.
(** ASSERT_EQ(f(x, y), splits) *)
Definition splits2 (f : list Z -> list Z -> outcome (list (list Z))) (cases : list (string * string * list string)) : bool :=
  forallb (fun '(x, y, r) => returned (f (codes x) (codes y)) (fun l => all_same l (map codes r))) cases.
(** ASSERT_EQ(join(parts, separator), joined) *)
Definition joins (cases : list (string * string * list string)) : bool :=
  forallb (fun '(sep, joined, parts) => same (join (map codes parts) (codes sep)) (codes joined)) cases.
(** f(x, y, z); ASSERT_EQ(x, a) *)
Definition replaces (f : list Z -> list Z -> list Z -> outcome (list Z)) (cases : list (string * string * string * string)) : bool :=
  forallb (fun '(x, y, z, a) => returned (f (codes x) (codes y) (codes z)) (fun r => same r (codes a))) cases.

(** tests/string_tests.cpp 677-717: 29 assertions per character type *)
Definition test_lower_cases := [
  (" ", " ", true);
  ("a", "a", true);
  ("A", "a", true);
  ("a", "A", false);
  ("A", "A", false);
  ("", "", true);
  ("abcdef", "abcdef", true);
  ("ABCDEF", "abcdef", true);
  ("abcdef", "ABCDEF", false);
  ("ABCDEF", "ABCDEF", false);
  ("aBcDeF", "abcdef", true);
  ("abcdef", "aBcDeF", false)].
Example test_lower : agrees (fun s => Ret (lower tolower s)) test_lower_cases = true.
Proof. reflexivity. Qed.

(** tests/string_tests.cpp 722-762: 29 assertions per character type *)
Definition test_upper_cases := [
  (" ", " ", true);
  ("A", "A", true);
  ("a", "A", true);
  ("A", "a", false);
  ("a", "a", false);
  ("", "", true);
  ("ABCDEF", "ABCDEF", true);
  ("abcdef", "ABCDEF", true);
  ("ABCDEF", "abcdef", false);
  ("abcdef", "abcdef", false);
  ("aBcDeF", "ABCDEF", true);
  ("ABCDEF", "aBcDeF", false)].
Example test_upper : agrees (fun s => Ret (upper toupper s)) test_upper_cases = true.
Proof. reflexivity. Qed.

(** tests/string_tests.cpp 767-795: 17 assertions per character type *)
Definition test_is_lower_cases := [
  (" ", true);
  ("a", true);
  ("A", false);
  ("", true);
  ("abcdef", true);
  ("ABCDEF", false);
  ("aBcDeF", false)].
Example test_is_lower : says (is_lower is_upper_char) test_is_lower_cases = true.
Proof. reflexivity. Qed.

(** tests/string_tests.cpp 800-828: 17 assertions per character type *)
Definition test_is_upper_cases := [
  (" ", true);
  ("A", true);
  ("a", false);
  ("", true);
  ("ABCDEF", true);
  ("abcdef", false);
  ("aBcDeF", false)].
Example test_is_upper : says (is_upper is_lower_char) test_is_upper_cases = true.
Proof. reflexivity. Qed.

(** tests/string_tests.cpp 999-1090: 72 assertions per character type *)
Definition test_equals_cases := [
  (" ", " ", true);
  ("A", "A", true);
  ("a", "A", false);
  ("A", "a", false);
  ("a", "a", true);
  ("A", "B", false);
  ("a", "B", false);
  ("A", "b", false);
  ("a", "b", false);
  ("", "", true);
  ("ABCDEF", "ABCDEF", true);
  ("abcdef", "ABCDEF", false);
  ("ABCDEF", "abcdef", false);
  ("abcdef", "abcdef", true);
  (" ", "", false);
  ("", " ", false);
  ("ABCDEF", "ABCDEG", false);
  ("abcdef", "ABCDEG", false);
  ("ABCDEF", "abcdeg", false);
  ("abcdef", "abcdeg", false);
  ("ABCDEF", "ABCDE", false);
  ("abcdef", "ABCDE", false);
  ("ABCDEF", "abcde", false);
  ("abcdef", "abcde", false);
  ("ABCDEF", "BCDEF", false);
  ("abcdef", "BCDEF", false);
  ("ABCDEF", "bcdef", false);
  ("abcdef", "bcdef", false);
  ("ABCDEF", "BCDE", false);
  ("abcdef", "BCDE", false);
  ("ABCDEF", "bcde", false);
  ("abcdef", "bcde", false);
  ("aBcDeF", "ABCDEF", false);
  ("ABCDEF", "aBcDeF", false);
  ("aBcDeF", "ABCDEG", false);
  ("ABCDEF", "aBcDeg", false)].
Example test_equals : says2 (fun l r => Ret (equals Z.eqb l r)) test_equals_cases = true.
Proof. reflexivity. Qed.

(** tests/string_tests.cpp 1095-1186: 72 assertions per character type *)
Definition test_iequals_cases := [
  (" ", " ", true);
  ("A", "A", true);
  ("a", "A", true);
  ("A", "a", true);
  ("a", "a", true);
  ("A", "B", false);
  ("a", "B", false);
  ("A", "b", false);
  ("a", "b", false);
  ("", "", true);
  ("ABCDEF", "ABCDEF", true);
  ("abcdef", "ABCDEF", true);
  ("ABCDEF", "abcdef", true);
  ("abcdef", "abcdef", true);
  (" ", "", false);
  ("", " ", false);
  ("ABCDEF", "ABCDEG", false);
  ("abcdef", "ABCDEG", false);
  ("ABCDEF", "abcdeg", false);
  ("abcdef", "abcdeg", false);
  ("ABCDEF", "ABCDE", false);
  ("abcdef", "ABCDE", false);
  ("ABCDEF", "abcde", false);
  ("abcdef", "abcde", false);
  ("ABCDEF", "BCDEF", false);
  ("abcdef", "BCDEF", false);
  ("ABCDEF", "bcdef", false);
  ("abcdef", "bcdef", false);
  ("ABCDEF", "BCDE", false);
  ("abcdef", "BCDE", false);
  ("ABCDEF", "bcde", false);
  ("abcdef", "bcde", false);
  ("aBcDeF", "ABCDEF", true);
  ("ABCDEF", "aBcDeF", true);
  ("aBcDeF", "ABCDEG", false);
  ("ABCDEF", "aBcDeg", false)].
Example test_iequals : says2 (fun l r => Ret (iequals toupper l r)) test_iequals_cases = true.
Proof. reflexivity. Qed.

(** tests/string_tests.cpp 1191-1282: 72 assertions per character type *)
Definition test_starts_with_cases := [
  (" ", " ", true);
  ("A", "A", true);
  ("a", "A", false);
  ("A", "a", false);
  ("a", "a", true);
  ("A", "B", false);
  ("a", "B", false);
  ("A", "b", false);
  ("a", "b", false);
  ("", "", true);
  (" ", "", true);
  ("ABCDEF", "ABCDEF", true);
  ("abcdef", "ABCDEF", false);
  ("ABCDEF", "abcdef", false);
  ("abcdef", "abcdef", true);
  ("", " ", false);
  ("ABCDEF", "ABCDEG", false);
  ("abcdef", "ABCDEG", false);
  ("ABCDEF", "abcdeg", false);
  ("abcdef", "abcdeg", false);
  ("ABCDEF", "ABCDE", true);
  ("abcdef", "ABCDE", false);
  ("ABCDEF", "abcde", false);
  ("abcdef", "abcde", true);
  ("ABCDEF", "BCDEF", false);
  ("abcdef", "BCDEF", false);
  ("ABCDEF", "bcdef", false);
  ("abcdef", "bcdef", false);
  ("ABCDEF", "BCDE", false);
  ("abcdef", "BCDE", false);
  ("ABCDEF", "bcde", false);
  ("abcdef", "bcde", false);
  ("aBcDeF", "ABCDEF", false);
  ("ABCDEF", "aBcDeF", false);
  ("aBcDeF", "ABCDEG", false);
  ("ABCDEF", "aBcDeg", false)].
Example test_starts_with : says2 (fun l r => Ret (starts_with_generic Z.eqb l r)) test_starts_with_cases = true.
Proof. reflexivity. Qed.
Example test_starts_with_cxx20 : says2 (starts_with_cxx20 Z.eqb) test_starts_with_cases = true.
Proof. reflexivity. Qed.

(** tests/string_tests.cpp 1287-1378: 72 assertions per character type *)
Definition test_istarts_with_cases := [
  (" ", " ", true);
  ("A", "A", true);
  ("a", "A", true);
  ("A", "a", true);
  ("a", "a", true);
  ("A", "B", false);
  ("a", "B", false);
  ("A", "b", false);
  ("a", "b", false);
  ("", "", true);
  (" ", "", true);
  ("ABCDEF", "ABCDEF", true);
  ("abcdef", "ABCDEF", true);
  ("ABCDEF", "abcdef", true);
  ("abcdef", "abcdef", true);
  ("", " ", false);
  ("ABCDEF", "ABCDEG", false);
  ("abcdef", "ABCDEG", false);
  ("ABCDEF", "abcdeg", false);
  ("abcdef", "abcdeg", false);
  ("ABCDEF", "ABCDE", true);
  ("abcdef", "ABCDE", true);
  ("ABCDEF", "abcde", true);
  ("abcdef", "abcde", true);
  ("ABCDEF", "BCDEF", false);
  ("abcdef", "BCDEF", false);
  ("ABCDEF", "bcdef", false);
  ("abcdef", "bcdef", false);
  ("ABCDEF", "BCDE", false);
  ("abcdef", "BCDE", false);
  ("ABCDEF", "bcde", false);
  ("abcdef", "bcde", false);
  ("aBcDeF", "ABCDEF", true);
  ("ABCDEF", "aBcDeF", true);
  ("aBcDeF", "ABCDEG", false);
  ("ABCDEF", "aBcDeg", false)].
Example test_istarts_with : says2 (istarts_with toupper false) test_istarts_with_cases = true.
Proof. reflexivity. Qed.
Example test_istarts_with_cxx20 : says2 (istarts_with toupper true) test_istarts_with_cases = true.
Proof. reflexivity. Qed.

(** tests/string_tests.cpp 1383-1474: 72 assertions per character type *)
Definition test_ends_with_cases := [
  (" ", " ", true);
  ("A", "A", true);
  ("a", "A", false);
  ("A", "a", false);
  ("a", "a", true);
  ("A", "B", false);
  ("a", "B", false);
  ("A", "b", false);
  ("a", "b", false);
  ("", "", true);
  (" ", "", true);
  ("ABCDEF", "ABCDEF", true);
  ("abcdef", "ABCDEF", false);
  ("ABCDEF", "abcdef", false);
  ("abcdef", "abcdef", true);
  ("", " ", false);
  ("ABCDEF", "ABCDEG", false);
  ("abcdef", "ABCDEG", false);
  ("ABCDEF", "abcdeg", false);
  ("abcdef", "abcdeg", false);
  ("ABCDEF", "ABCDE", false);
  ("abcdef", "ABCDE", false);
  ("ABCDEF", "abcde", false);
  ("abcdef", "abcde", false);
  ("ABCDEF", "BCDEF", true);
  ("abcdef", "BCDEF", false);
  ("ABCDEF", "bcdef", false);
  ("abcdef", "bcdef", true);
  ("ABCDEF", "BCDE", false);
  ("abcdef", "BCDE", false);
  ("ABCDEF", "bcde", false);
  ("abcdef", "bcde", false);
  ("aBcDeF", "ABCDEF", false);
  ("ABCDEF", "aBcDeF", false);
  ("aBcDeF", "ABCDEG", false);
  ("ABCDEF", "aBcDeg", false)].
Example test_ends_with : says2 (fun l r => Ret (ends_with_generic Z.eqb l r)) test_ends_with_cases = true.
Proof. reflexivity. Qed.
Example test_ends_with_cxx20 : says2 (ends_with_cxx20 Z.eqb) test_ends_with_cases = true.
Proof. reflexivity. Qed.

(** tests/string_tests.cpp 1479-1570: 72 assertions per character type *)
Definition test_iends_with_cases := [
  (" ", " ", true);
  ("A", "A", true);
  ("a", "A", true);
  ("A", "a", true);
  ("a", "a", true);
  ("A", "B", false);
  ("a", "B", false);
  ("A", "b", false);
  ("a", "b", false);
  ("", "", true);
  (" ", "", true);
  ("ABCDEF", "ABCDEF", true);
  ("abcdef", "ABCDEF", true);
  ("ABCDEF", "abcdef", true);
  ("abcdef", "abcdef", true);
  ("", " ", false);
  ("ABCDEF", "ABCDEG", false);
  ("abcdef", "ABCDEG", false);
  ("ABCDEF", "abcdeg", false);
  ("abcdef", "abcdeg", false);
  ("ABCDEF", "ABCDE", false);
  ("abcdef", "ABCDE", false);
  ("ABCDEF", "abcde", false);
  ("abcdef", "abcde", false);
  ("ABCDEF", "BCDEF", true);
  ("abcdef", "BCDEF", true);
  ("ABCDEF", "bcdef", true);
  ("abcdef", "bcdef", true);
  ("ABCDEF", "BCDE", false);
  ("abcdef", "BCDE", false);
  ("ABCDEF", "bcde", false);
  ("abcdef", "bcde", false);
  ("aBcDeF", "ABCDEF", true);
  ("ABCDEF", "aBcDeF", true);
  ("aBcDeF", "ABCDEG", false);
  ("ABCDEF", "aBcDeg", false)].
Example test_iends_with : says2 (iends_with toupper false) test_iends_with_cases = true.
Proof. reflexivity. Qed.
Example test_iends_with_cxx20 : says2 (iends_with toupper true) test_iends_with_cases = true.
Proof. reflexivity. Qed.

(** tests/string_tests.cpp 1575-1660: 26 assertions per character type *)
Definition test_find_cases := [
  (" ", " ", 0);
  ("A", "A", 0);
  ("a", "a", 0);
  ("", "", 0);
  (" ", "", 0);
  ("ABCDEF", "ABCDEF", 0);
  ("abcdef", "abcdef", 0);
  ("ABCDEF", "ABCDE", 0);
  ("abcdef", "abcde", 0);
  ("ABCDEF", "BCDEF", 1);
  ("abcdef", "bcdef", 1);
  ("ABCDEF", "BCDE", 1);
  ("abcdef", "bcde", 1)].
Example test_find : finds (find_sequence Z.eqb) test_find_cases = true.
Proof. reflexivity. Qed.

(** tests/string_tests.cpp 1672-1757: 26 assertions per character type *)
Definition test_rfind_cases := [
  (" ", " ", 0);
  ("A", "A", 0);
  ("a", "a", 0);
  ("", "", 0);
  (" ", "", 1);
  ("ABCDEF", "ABCDEF", 0);
  ("abcdef", "abcdef", 0);
  ("ABCDEF", "ABCDE", 0);
  ("abcdef", "abcde", 0);
  ("ABCDEF", "BCDEF", 1);
  ("abcdef", "bcdef", 1);
  ("ABCDEF", "BCDE", 1);
  ("abcdef", "bcde", 1)].
Example test_rfind : finds (rfind_sequence Z.eqb) test_rfind_cases = true.
Proof. reflexivity. Qed.

(** tests/string_tests.cpp 1769-1857: 50 assertions per character type *)
Definition test_ifind_cases := [
  (" ", " ", 0);
  ("A", "A", 0);
  ("a", "A", 0);
  ("A", "a", 0);
  ("a", "a", 0);
  ("", "", 0);
  (" ", "", 0);
  ("ABCDEF", "ABCDEF", 0);
  ("abcdef", "ABCDEF", 0);
  ("ABCDEF", "abcdef", 0);
  ("abcdef", "abcdef", 0);
  ("ABCDEF", "ABCDE", 0);
  ("abcdef", "ABCDE", 0);
  ("ABCDEF", "abcde", 0);
  ("abcdef", "abcde", 0);
  ("ABCDEF", "BCDEF", 1);
  ("abcdef", "BCDEF", 1);
  ("ABCDEF", "bcdef", 1);
  ("abcdef", "bcdef", 1);
  ("ABCDEF", "BCDE", 1);
  ("abcdef", "BCDE", 1);
  ("ABCDEF", "bcde", 1);
  ("abcdef", "bcde", 1);
  ("aBcDeF", "ABCDEF", 0);
  ("ABCDEF", "aBcDeF", 0)].
Example test_ifind : finds (ifind toupper) test_ifind_cases = true.
Proof. reflexivity. Qed.

(** tests/string_tests.cpp 1866-1954: 50 assertions per character type *)
Definition test_irfind_cases := [
  (" ", " ", 0);
  ("A", "A", 0);
  ("a", "A", 0);
  ("A", "a", 0);
  ("a", "a", 0);
  ("", "", 0);
  (" ", "", 1);
  ("ABCDEF", "ABCDEF", 0);
  ("abcdef", "ABCDEF", 0);
  ("ABCDEF", "abcdef", 0);
  ("abcdef", "abcdef", 0);
  ("ABCDEF", "ABCDE", 0);
  ("abcdef", "ABCDE", 0);
  ("ABCDEF", "abcde", 0);
  ("abcdef", "abcde", 0);
  ("ABCDEF", "BCDEF", 1);
  ("abcdef", "BCDEF", 1);
  ("ABCDEF", "bcdef", 1);
  ("abcdef", "bcdef", 1);
  ("ABCDEF", "BCDE", 1);
  ("abcdef", "BCDE", 1);
  ("ABCDEF", "bcde", 1);
  ("abcdef", "bcde", 1);
  ("aBcDeF", "ABCDEF", 0);
  ("ABCDEF", "aBcDeF", 0)].
Example test_irfind : finds (irfind toupper) test_irfind_cases = true.
Proof. reflexivity. Qed.

(** tests/string_tests.cpp 1963-2054: 72 assertions per character type *)
Definition test_contains_cases := [
  (" ", " ", true);
  ("A", "A", true);
  ("a", "a", true);
  ("a", "A", false);
  ("A", "a", false);
  ("A", "B", false);
  ("a", "B", false);
  ("A", "b", false);
  ("a", "b", false);
  ("", "", true);
  (" ", "", true);
  ("ABCDEF", "ABCDEF", true);
  ("abcdef", "abcdef", true);
  ("abcdef", "ABCDEF", false);
  ("ABCDEF", "abcdef", false);
  ("", " ", false);
  ("ABCDEF", "ABCDEG", false);
  ("abcdef", "ABCDEG", false);
  ("ABCDEF", "abcdeg", false);
  ("abcdef", "abcdeg", false);
  ("ABCDEF", "ABCDE", true);
  ("abcdef", "abcde", true);
  ("abcdef", "ABCDE", false);
  ("ABCDEF", "abcde", false);
  ("ABCDEF", "BCDEF", true);
  ("abcdef", "bcdef", true);
  ("abcdef", "BCDEF", false);
  ("ABCDEF", "bcdef", false);
  ("ABCDEF", "BCDE", true);
  ("abcdef", "bcde", true);
  ("abcdef", "BCDE", false);
  ("ABCDEF", "bcde", false);
  ("aBcDeF", "ABCDEF", false);
  ("ABCDEF", "aBcDeF", false);
  ("aBcDeF", "ABCDEG", false);
  ("ABCDEF", "aBcDeg", false)].
Example test_contains : says2 (fun l r => Ret (contains_sequence Z.eqb l r)) test_contains_cases = true.
Proof. reflexivity. Qed.

(** tests/string_tests.cpp 2059-2150: 72 assertions per character type *)
Definition test_icontains_cases := [
  (" ", " ", true);
  ("A", "A", true);
  ("a", "A", true);
  ("A", "a", true);
  ("a", "a", true);
  ("A", "B", false);
  ("a", "B", false);
  ("A", "b", false);
  ("a", "b", false);
  ("", "", true);
  (" ", "", true);
  ("ABCDEF", "ABCDEF", true);
  ("abcdef", "ABCDEF", true);
  ("ABCDEF", "abcdef", true);
  ("abcdef", "abcdef", true);
  ("", " ", false);
  ("ABCDEF", "ABCDEG", false);
  ("abcdef", "ABCDEG", false);
  ("ABCDEF", "abcdeg", false);
  ("abcdef", "abcdeg", false);
  ("ABCDEF", "ABCDE", true);
  ("abcdef", "ABCDE", true);
  ("ABCDEF", "abcde", true);
  ("abcdef", "abcde", true);
  ("ABCDEF", "BCDEF", true);
  ("abcdef", "BCDEF", true);
  ("ABCDEF", "bcdef", true);
  ("abcdef", "bcdef", true);
  ("ABCDEF", "BCDE", true);
  ("abcdef", "BCDE", true);
  ("ABCDEF", "bcde", true);
  ("abcdef", "bcde", true);
  ("aBcDeF", "ABCDEF", true);
  ("ABCDEF", "aBcDeF", true);
  ("aBcDeF", "ABCDEG", false);
  ("ABCDEF", "aBcDeg", false)].
Example test_icontains : says2 (fun l r => Ret (icontains toupper l r)) test_icontains_cases = true.
Proof. reflexivity. Qed.

(** tests/string_tests.cpp 2155-2165: 9 assertions per character type *)
Definition test_split_no_separator_cases := [
  ("a", ["a"]);
  ("A", ["A"]);
  ("", []);
  ("   ", []);
  ((chars [9; 10; 11; 12; 13; 32]), []);
  (" a ", ["a"]);
  ("a b c d e f", ["a"; "b"; "c"; "d"; "e"; "f"]);
  ("A B C D E F", ["A"; "B"; "C"; "D"; "E"; "F"]);
  ((chars [97; 9; 98; 10; 99; 11; 100; 12; 101; 13; 102]), ["a"; "b"; "c"; "d"; "e"; "f"])].
Example test_split_no_separator : splits (split_space space) test_split_no_separator_cases = true.
Proof. reflexivity. Qed.

(** tests/string_tests.cpp 2170-2190: 17 assertions per character type *)
Definition test_split_cases := [
  ("a", "", ["a"]);
  ("a", " ", ["a"]);
  ("A", " ", ["A"]);
  ("", " ", [""]);
  ("   ", " ", [""; ""; ""; ""]);
  ((chars [9; 10; 11; 12; 13; 32]), " ", [(chars [9; 10; 11; 12; 13]); ""]);
  (" a ", " ", [""; "a"; ""]);
  ("abcdef", "", ["a"; "b"; "c"; "d"; "e"; "f"]);
  ("a b c d e f", " ", ["a"; "b"; "c"; "d"; "e"; "f"]);
  ("A B C D E F", " ", ["A"; "B"; "C"; "D"; "E"; "F"]);
  ((chars [97; 9; 98; 10; 99; 11; 100; 12; 101; 13; 102]), " ", [(chars [97; 9; 98; 10; 99; 11; 100; 12; 101; 13; 102])]);
  ("a:b:c:d:e:f", ":", ["a"; "b"; "c"; "d"; "e"; "f"]);
  ("a;b;c;d;e;f", ";", ["a"; "b"; "c"; "d"; "e"; "f"]);
  ("a-b-c-d-e-f", "-", ["a"; "b"; "c"; "d"; "e"; "f"]);
  ("a#b#c#d#e#f", "#", ["a"; "b"; "c"; "d"; "e"; "f"]);
  ("abcdefabcdef", "abc", [""; "def"; "def"]);
  ("abcdefabcdef", "ace", ["abcdefabcdef"])].
Example test_split : splits2 (split Z.eqb) test_split_cases = true.
Proof. reflexivity. Qed.

(** tests/string_tests.cpp 2195-2213: 15 assertions per character type *)
Definition test_split_any_of_cases := [
  ("a", " ", ["a"]);
  ("A", " ", ["A"]);
  ("", " ", []);
  ("   ", " ", []);
  ((chars [9; 10; 11; 12; 13; 32]), " ", [(chars [9; 10; 11; 12; 13])]);
  (" a ", " ", ["a"]);
  ("a b c d e f", " ", ["a"; "b"; "c"; "d"; "e"; "f"]);
  ("A B C D E F", " ", ["A"; "B"; "C"; "D"; "E"; "F"]);
  ((chars [97; 9; 98; 10; 99; 11; 100; 12; 101; 13; 102]), " ", [(chars [97; 9; 98; 10; 99; 11; 100; 12; 101; 13; 102])]);
  ("a:b:c:d:e:f", ":", ["a"; "b"; "c"; "d"; "e"; "f"]);
  ("a;b;c;d;e;f", ";", ["a"; "b"; "c"; "d"; "e"; "f"]);
  ("a-b-c-d-e-f", "-", ["a"; "b"; "c"; "d"; "e"; "f"]);
  ("a#b#c#d#e#f", "#", ["a"; "b"; "c"; "d"; "e"; "f"]);
  ("abcdefabcdef", "abc", ["def"; "def"]);
  ("abcdefabcdef", "ace", ["b"; "d"; "f"; "b"; "d"; "f"])].
Example test_split_any_of : splits2 (split_any_of Z.eqb) test_split_any_of_cases = true.
Proof. reflexivity. Qed.

(** tests/string_tests.cpp 2218-2232, 2237-2251: 22 assertions per character type *)
Definition test_join_cases := [
  (",", "a", ["a"]);
  (",", "A", ["A"]);
  (",", "", [""]);
  (",", ",,", [""; ""; ""]);
  (",", ",,,,,", [""; ""; ""; ""; ""; ""]);
  ("", "abcdef", ["a"; "b"; "c"; "d"; "e"; "f"]);
  ("", "ABCDEF", ["A"; "B"; "C"; "D"; "E"; "F"]);
  (" ", "a b c d e f", ["a"; "b"; "c"; "d"; "e"; "f"]);
  (" ", "A B C D E F", ["A"; "B"; "C"; "D"; "E"; "F"]);
  (", ", "a, b, c, d, e, f", ["a"; "b"; "c"; "d"; "e"; "f"]);
  (", ", "A, B, C, D, E, F", ["A"; "B"; "C"; "D"; "E"; "F"])].
Example test_join : joins test_join_cases = true.
Proof. reflexivity. Qed.

(** tests/string_tests.cpp 2278-2298: 17 assertions per character type *)
Definition test_replace_cases := [
  (" ", "", "", " ");
  ("a", " ", "b", "a");
  ("A", " ", "b", "A");
  ("aaa", "", "b", "bababab");
  ("", " ", "a", "");
  ("   ", " ", "a", "aaa");
  ((chars [9; 10; 11; 12; 13; 32]), " ", "a", (chars [9; 10; 11; 12; 13; 97]));
  (" a ", " ", "b", "bab");
  ("a b c d e f", " ", "_", "a_b_c_d_e_f");
  ("A B C D E F", " ", "_", "A_B_C_D_E_F");
  ((chars [97; 9; 98; 10; 99; 11; 100; 12; 101; 13; 102]), " ", "_", (chars [97; 9; 98; 10; 99; 11; 100; 12; 101; 13; 102]));
  ("a:b:c:d:e:f", ":", "_", "a_b_c_d_e_f");
  ("a;b;c;d;e;f", ";", "_", "a_b_c_d_e_f");
  ("a-b-c-d-e-f", "-", "_", "a_b_c_d_e_f");
  ("a#b#c#d#e#f", "#", "_", "a_b_c_d_e_f");
  ("abcdefabcdef", "abc", "def", "defdefdefdef");
  ("abcdefabcdef", "ace", "def", "abcdefabcdef")].
Example test_replace : replaces (replace Z.eqb) test_replace_cases = true.
Proof. reflexivity. Qed.

(** tests/string_tests.cpp 2303-2326: 20 assertions per character type *)
Definition test_replace_any_of_cases := [
  (" ", "", "", " ");
  ("a", " ", "b", "a");
  ("A", " ", "b", "A");
  ("aaa", "", "b", "aaa");
  ("", " ", "a", "");
  ("   ", " ", "a", "aaa");
  ((chars [9; 10; 11; 12; 13; 32]), " ", "a", (chars [9; 10; 11; 12; 13; 97]));
  (" a ", " ", "b", "bab");
  ("a b c d e f", " ", "_", "a_b_c_d_e_f");
  ("A B C D E F", " ", "_", "A_B_C_D_E_F");
  ("a b c d e f", "abcdef", "x", "x x x x x x");
  ("A B C D E F", "ABCDEF", "X", "X X X X X X");
  ((chars [97; 9; 98; 10; 99; 11; 100; 12; 101; 13; 102]), " ", "_", (chars [97; 9; 98; 10; 99; 11; 100; 12; 101; 13; 102]));
  ("a:b:c:d:e:f", ":;-#", "_", "a_b_c_d_e_f");
  ("a;b;c;d;e;f", ":;-#", "_", "a_b_c_d_e_f");
  ("a-b-c-d-e-f", ":;-#", "_", "a_b_c_d_e_f");
  ("a#b#c#d#e#f", ":;-#", "_", "a_b_c_d_e_f");
  ("abcdefabcdef", "abc", "a", "aaadefaaadef");
  ("abcdefabcdef", "abc", "ab", "abababdefabababdef");
  ("abcdefabcdef", "ace", "ab", "abbabdabfabbabdabf")].
Example test_replace_any_of : replaces (replace_any_of Z.eqb) test_replace_any_of_cases = true.
Proof. reflexivity. Qed.

(** tests/string_tests.cpp 2331-2340: 8 assertions per character type *)
Definition test_lstrip_cases := [
  ("a", "a", true);
  ("A", "A", true);
  ((chars [9; 10; 11; 12; 13]), "", true);
  (" a ", "a ", true);
  (" A ", "A ", true);
  ((chars [9; 10; 11; 12; 13; 97; 9; 10; 11; 12; 13]), (chars [97; 9; 10; 11; 12; 13]), true);
  (" a b c ", "a b c ", true);
  ((chars [9; 10; 11; 12; 13; 97; 32; 98; 32; 99; 9; 10; 11; 12; 13]), (chars [97; 32; 98; 32; 99; 9; 10; 11; 12; 13]), true)].
Example test_lstrip : agrees (lstrip space) test_lstrip_cases = true.
Proof. reflexivity. Qed.

(** tests/string_tests.cpp 2345-2354: 8 assertions per character type *)
Definition test_rstrip_cases := [
  ("a", "a", true);
  ("A", "A", true);
  ((chars [9; 10; 11; 12; 13]), "", true);
  (" a ", " a", true);
  (" A ", " A", true);
  ((chars [9; 10; 11; 12; 13; 97; 9; 10; 11; 12; 13]), (chars [9; 10; 11; 12; 13; 97]), true);
  (" a b c ", " a b c", true);
  ((chars [9; 10; 11; 12; 13; 97; 32; 98; 32; 99; 9; 10; 11; 12; 13]), (chars [9; 10; 11; 12; 13; 97; 32; 98; 32; 99]), true)].
Example test_rstrip : agrees (rstrip space) test_rstrip_cases = true.
Proof. reflexivity. Qed.

(** tests/string_tests.cpp 2359-2368: 8 assertions per character type *)
Definition test_strip_cases := [
  ("a", "a", true);
  ("A", "A", true);
  ((chars [9; 10; 11; 12; 13]), "", true);
  (" a ", "a", true);
  (" A ", "A", true);
  ((chars [9; 10; 11; 12; 13; 97; 9; 10; 11; 12; 13]), "a", true);
  (" a b c ", "a b c", true);
  ((chars [9; 10; 11; 12; 13; 97; 32; 98; 32; 99; 9; 10; 11; 12; 13]), "a b c", true)].
Example test_strip : agrees (strip space) test_strip_cases = true.
Proof. reflexivity. Qed.

(** ASSERT_EQ(f(value), text) for a value of [n] bytes *)
Definition prints (f : nat -> Z -> outcome (list ascii)) (cases : list (nat * Z * string)) : bool :=
  forallb (fun '(n, v, s) => returned (f n v) (fun r => String.eqb (string_of_list_ascii r) s)) cases.

(** tests/string_tests.cpp 2373-2403: 28 assertions *)
Definition test_bin_cases := [
  (4%nat, 0, "0b0");
  (4%nat, 1, "0b1");
  (4%nat, 2, "0b10");
  (4%nat, 255, "0b11111111");
  (4%nat, 256, "0b100000000");
  (4%nat, -1, "0b11111111111111111111111111111111");
  (4%nat, -2, "0b11111111111111111111111111111110");
  (4%nat, 0, "0b0");
  (4%nat, 1, "0b1");
  (4%nat, 2, "0b10");
  (4%nat, 255, "0b11111111");
  (4%nat, 256, "0b100000000");
  (4%nat, 2 ^ 32 - 1, "0b11111111111111111111111111111111");
  (4%nat, 2 ^ 32 - 2, "0b11111111111111111111111111111110");
  (8%nat, 0, "0b0");
  (8%nat, 1, "0b1");
  (8%nat, 2, "0b10");
  (8%nat, 255, "0b11111111");
  (8%nat, 256, "0b100000000");
  (8%nat, -1, "0b1111111111111111111111111111111111111111111111111111111111111111");
  (8%nat, -2, "0b1111111111111111111111111111111111111111111111111111111111111110");
  (8%nat, 0, "0b0");
  (8%nat, 1, "0b1");
  (8%nat, 2, "0b10");
  (8%nat, 255, "0b11111111");
  (8%nat, 256, "0b100000000");
  (8%nat, 2 ^ 64 - 1, "0b1111111111111111111111111111111111111111111111111111111111111111");
  (8%nat, 2 ^ 64 - 2, "0b1111111111111111111111111111111111111111111111111111111111111110")].
Example test_bin : prints bin test_bin_cases = true.
Proof. reflexivity. Qed.

(** tests/string_tests.cpp 2408-2438: 28 assertions *)
Definition test_oct_cases := [
  (4%nat, 0, "0o0");
  (4%nat, 1, "0o1");
  (4%nat, 8, "0o10");
  (4%nat, 255, "0o377");
  (4%nat, 256, "0o400");
  (4%nat, -1, "0o37777777777");
  (4%nat, -9, "0o37777777767");
  (4%nat, 0, "0o0");
  (4%nat, 1, "0o1");
  (4%nat, 8, "0o10");
  (4%nat, 255, "0o377");
  (4%nat, 256, "0o400");
  (4%nat, 2 ^ 32 - 1, "0o37777777777");
  (4%nat, 2 ^ 32 - 9, "0o37777777767");
  (8%nat, 0, "0o0");
  (8%nat, 1, "0o1");
  (8%nat, 8, "0o10");
  (8%nat, 255, "0o377");
  (8%nat, 256, "0o400");
  (8%nat, -1, "0o1777777777777777777777");
  (8%nat, -9, "0o1777777777777777777767");
  (8%nat, 0, "0o0");
  (8%nat, 1, "0o1");
  (8%nat, 8, "0o10");
  (8%nat, 255, "0o377");
  (8%nat, 256, "0o400");
  (8%nat, 2 ^ 64 - 1, "0o1777777777777777777777");
  (8%nat, 2 ^ 64 - 9, "0o1777777777777777777767")].
Example test_oct : prints oct test_oct_cases = true.
Proof. reflexivity. Qed.

(** tests/string_tests.cpp 2443-2473: 28 assertions *)
Definition test_hex_cases := [
  (4%nat, 0, "0x0");
  (4%nat, 1, "0x1");
  (4%nat, 16, "0x10");
  (4%nat, 255, "0xff");
  (4%nat, 256, "0x100");
  (4%nat, -1, "0xffffffff");
  (4%nat, -17, "0xffffffef");
  (4%nat, 0, "0x0");
  (4%nat, 1, "0x1");
  (4%nat, 16, "0x10");
  (4%nat, 255, "0xff");
  (4%nat, 256, "0x100");
  (4%nat, 2 ^ 32 - 1, "0xffffffff");
  (4%nat, 2 ^ 32 - 17, "0xffffffef");
  (8%nat, 0, "0x0");
  (8%nat, 1, "0x1");
  (8%nat, 16, "0x10");
  (8%nat, 255, "0xff");
  (8%nat, 256, "0x100");
  (8%nat, -1, "0xffffffffffffffff");
  (8%nat, -17, "0xffffffffffffffef");
  (8%nat, 0, "0x0");
  (8%nat, 1, "0x1");
  (8%nat, 16, "0x10");
  (8%nat, 255, "0xff");
  (8%nat, 256, "0x100");
  (8%nat, 2 ^ 64 - 1, "0xffffffffffffffff");
  (8%nat, 2 ^ 64 - 17, "0xffffffffffffffef")].
Example test_hex : prints hex test_hex_cases = true.
Proof. reflexivity. Qed.

(** tests/string_tests.cpp 2254-2274 *)
Example test_map_join : forallb (fun '(parts, sep, joined) =>
    same (snd (map_join parts (codes sep) (fun (_ : unit) v => (tt, codes (string_of_list_ascii (str_int v)))) tt)) (codes joined))
  [([1], ",", "1"); ([1; 2; 3; 4; 5; 6], "", "123456"); ([1; 2; 3; 4; 5; 6], " ", "1 2 3 4 5 6");
   ([1; 2; 3; 4; 5; 6], ", ", "1, 2, 3, 4, 5, 6")] = true.
Proof. reflexivity. Qed.

(** tests/string_tests.cpp 846-858, 875-887: the integers *)
Example test_str_values : string_of_list_ascii (str_int 1) = "1".
Proof. reflexivity. Qed.
(** tests/string_tests.cpp 939-995: int, long, long long and the unsigned types, as 32 and 64 bits *)
Example test_str_to_values :
  forallb (fun '(signed, w) => returned (str_to_int signed w (text "1")) (Z.eqb 1))
    [(true, 32); (true, 64); (false, 32); (false, 64)] = true.
Proof. reflexivity. Qed.
