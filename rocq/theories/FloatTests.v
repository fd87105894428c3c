(** The assertions of the repository's own tests about floating-point numbers (/repo/tests/value_tests.cpp and
    compare_tests.cpp), evaluated on the model.  They are tests of the model, not proofs about it (see StringTests.v).
    A literal such as 0.3 is the number nearest to three tenths, which is the quotient of 3 and 10 in the format; the
    formats are those of float, double and the long double of 64 bits of precision.
    Not here: pow (std::pow is not modelled for fractions), str and str_to. *)
From Coq Require Import List Bool ZArith Floats.SpecFloat.
From Verif Require Import Base SeqModel FloatModel.
Import ListNotations.
Open Scope Z_scope.

Section Format.
Variables prec emax : Z.
(** the literal of [n] tenths *)
Definition literal (n : Z) : spec_float := SFdiv prec emax (of_int prec emax n) (of_int prec emax 10).
(** ASSERT_EQ(f(x), y) *)
Definition agrees (f : spec_float -> spec_float) (cases : list (Z * Z)) : bool :=
  forallb (fun '(x, y) => SFeqb (f (literal x)) (literal y)) cases.
(** ASSERT_EQ(f(x, y), z): [f] tells whether the right one is returned *)
Definition chooses (f : spec_float -> spec_float -> bool) (cases : list (Z * Z * Z)) : bool :=
  forallb (fun '(x, y, z) => SFeqb (if f (literal x) (literal y) then literal y else literal x) (literal z)) cases.
(** ASSERT_TRUE(f(x)) or ASSERT_FALSE(f(x)), ASSERT_TRUE(f(x, y)) or ASSERT_FALSE(f(x, y)) *)
Definition says (f : spec_float -> bool) (cases : list (Z * bool)) : bool :=
  forallb (fun '(x, b) => Bool.eqb (f (literal x)) b) cases.
Definition compares (f : spec_float -> spec_float -> bool) (cases : list (Z * Z * bool)) : bool :=
  forallb (fun '(x, y, b) => Bool.eqb (f (literal x) (literal y)) b) cases.

(** tests/value_tests.cpp 23-33 *)
Definition test_abs : bool := agrees abs_f [(0, 0); (1, 1); (2, 2); (-1, 1); (-2, 2)].
(** tests/value_tests.cpp 56-72, 86-103 *)
Definition test_min : bool := chooses (min2 SFltb)
  [(1, 1, 1); (1, 2, 1); (2, 1, 1); (-1, 1, -1); (1, -1, -1); (-1, -1, -1); (-1, -2, -2); (-2, -1, -2)].
(** tests/value_tests.cpp 106-163 *)
Definition test_max : bool := chooses (max2 SFltb)
  [(1, 1, 1); (1, 2, 2); (2, 1, 2); (-1, 1, 1); (1, -1, 1); (-1, -1, -1); (-1, -2, -1); (-2, -1, -1)].
(** tests/value_tests.cpp 222-257 *)
Definition test_round : bool := agrees (round_f prec emax)
  [(0, 0); (1, 0); (2, 0); (3, 0); (4, 0); (5, 10); (6, 10); (7, 10); (8, 10); (9, 10); (10, 10)].
(** tests/compare_tests.cpp 88-158 *)
Definition test_is_true : bool := says is_true_f [(10, true); (50, true); (0, false)].
Definition test_is_false : bool := says is_false_f [(10, false); (50, false); (0, true)].
(** tests/compare_tests.cpp 160-194, 249-275: the others are negations and exchanges of these *)
Definition test_is_equal : bool := compares SFeqb [(10, 10, true); (10, 20, false); (20, 10, false)].
Definition test_is_less : bool := compares SFltb [(10, 10, false); (10, 20, true); (20, 10, false)].
Definition all_tests : bool :=
  test_abs && test_min && test_max && test_round && test_is_true && test_is_false && test_is_equal && test_is_less.
End Format.

Example test_float : all_tests 24 128 = true.
Proof. lazy. reflexivity. Qed.
Example test_double : all_tests 53 1024 = true.
Proof. lazy. reflexivity. Qed.
Example test_long_double : all_tests 64 16384 = true.
Proof. lazy. reflexivity. Qed.
