(** Model of the functions of value.hpp, container.hpp, iterator.hpp and compare.hpp (/repo/include/pluto) for
    floating-point types.  A value is a [spec_float] of Coq's standard library (Floats.SpecFloat), which defines the
    IEEE 754 operations: [SFltb], [SFeqb] are the operators < and ==, [SFadd] is +, [SFopp] is the unary minus,
    rounding to nearest, ties to even.  [prec] and [emax] are those of the format: 24 and 128 for float, 53 and 1024
    for double.  Values are those with [valid_binary]; all NaNs are one.
    min, max, sort, find, count, equals, any and all are the functions of SeqModel.v and AlgoModel.v with these
    operators.  Expressions are evaluated in their own type (FLT_EVAL_METHOD is 0). *)
From Coq Require Import List Bool ZArith Floats.SpecFloat.
From Verif Require Import Base SeqModel AlgoModel.
Import ListNotations.
Open Scope outcome_scope.
Local Open Scope Z_scope.

(** the literal 0 converted to the type *)
Definition zero : spec_float := S754_zero false.
(** abs, value.hpp 17-21 *)
Definition abs_f (x : spec_float) : spec_float := if SFltb x zero then SFopp x else x.
(** is_true, is_false, compare.hpp 15-38: [!!(value)] and [!(value)] *)
Definition is_true_f (x : spec_float) : bool := negb (SFeqb x zero).
Definition is_false_f (x : spec_float) : bool := SFeqb x zero.

Section Format.
Variables prec emax : Z.
(** sum, container.hpp 294-305, when Value is the element type *)
Fixpoint sum_f (c : list spec_float) (value : spec_float) : spec_float :=
  match c with [] => value | x :: c => sum_f c (SFadd prec emax value x) end.
(** conversion of an integer *)
Definition of_int (n : Z) : spec_float := binary_normalize prec emax n 0 false.
(** conversion to an integer type: the fraction is dropped; undefined if the result does not fit *)
Definition trunc (x : spec_float) : outcome Z :=
  match x with
  | S754_zero _ => Ret 0
  | S754_finite s m e => Ret (cond_Zopp s (if e <? 0 then Zpos m / 2 ^ (- e) else Zpos m * 2 ^ e))
  | _ => Ub
  end.
Definition to_int (bits : Z) (sgn : bool) (x : spec_float) : outcome Z :=
  let* z := trunc x in if fits bits sgn z then Ret z else Ub.
(** sum with an initial value of an integer type: [value += elem] adds in the floating-point type and converts back *)
Fixpoint sum_int (bits : Z) (sgn : bool) (c : list spec_float) (value : Z) : outcome Z :=
  match c with [] => Ret value | x :: c => let* value := to_int bits sgn (SFadd prec emax (of_int value) x) in sum_int bits sgn c value end.
(** std::round, which round (value.hpp 92-96) calls: the nearest integer, halves away from zero; the sign is kept *)
Definition round_f (x : spec_float) : spec_float :=
  match x with
  | S754_finite s m e =>
      if e <? 0 then
        match (2 * Zpos m + 2 ^ (- e)) / 2 ^ (1 - e) with
        | Zpos n => binary_round prec emax s n 0
        | _ => S754_zero s
        end
      else x
  | _ => x
  end.
End Format.
