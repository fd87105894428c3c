(** Floating-point numbers in min, max, find, contains, count, equals, abs, sort, sum and round (C135-C141) *)
From Coq Require Import List Bool ZArith Floats.SpecFloat Permutation.
From Verif Require Import Base SeqModel AlgoModel FloatModel FloatSpec FloatProofs FloatSum FloatUse FloatExamples.
Import ListNotations.
Local Open Scope Z_scope.

Example formats_ex : a_format 24 128 /\ a_format 53 1024.
Proof. exact formats. Qed.
Example numbers_ex : Forall (number 53 1024) [nan; infinity; tenth; largest; dbl 1 0; dbl (-1) 0; dbl (2 ^ 53) 0; dbl 5 (-1); S754_zero true].
Proof. exact numbers_ok. Qed.

(** C135.  [min2] and [max2] are true if the right argument is returned. *)
Theorem float_min_is_the_first_least_partial : forall prec emax, a_format prec emax -> forall x l, Forall (number prec emax) (x :: l) -> is_nan x = false ->
  exists i y, min_of SFltb (x :: l) = Ret (i, y) /\ first_least prec emax (x :: l) i y.
Proof. exact min_ok_f. Qed.
Print Assumptions float_min_is_the_first_least_partial.
Theorem float_max_is_the_first_greatest_partial : forall prec emax, a_format prec emax -> forall x l, Forall (number prec emax) (x :: l) -> is_nan x = false ->
  exists i y, max_of SFltb (x :: l) = Ret (i, y) /\ first_greatest prec emax (x :: l) i y.
Proof. exact max_ok_f. Qed.
Print Assumptions float_max_is_the_first_greatest_partial.
Theorem float_min_max_ignore_nan_refuted : forall x l, is_nan x = true -> min_of SFltb (x :: l) = Ret (0%nat, x) /\ max_of SFltb (x :: l) = Ret (0%nat, x).
Proof. exact min_max_nan_first. Qed.
Print Assumptions float_min_max_ignore_nan_refuted.
Theorem float_min_of_two_partial : forall prec emax, a_format prec emax -> forall x y, number prec emax x -> number prec emax y ->
  (min2 SFltb x y = true <-> below prec emax y x) /\ (max2 SFltb x y = true <-> below prec emax x y).
Proof. exact two_ok. Qed.
Print Assumptions float_min_of_two_partial.
Theorem float_min_of_two_is_symmetric_refuted : forall x y, is_nan x = true \/ is_nan y = true -> min2 SFltb x y = false /\ max2 SFltb x y = false.
Proof. exact two_nan. Qed.
Print Assumptions float_min_of_two_is_symmetric_refuted.
Example min_max_nan_ex : min_of SFltb [nan; dbl 1 0; dbl (-1) 0] = Ret (0%nat, nan) /\ min_of SFltb [dbl 1 0; nan; dbl (-1) 0] = Ret (2%nat, dbl (-1) 0) /\
  max_of SFltb [dbl 1 0; nan; infinity] = Ret (2%nat, infinity).
Proof. exact min_max_nan. Qed.
Example min2_order_ex : (if min2 SFltb nan (dbl 1 0) then dbl 1 0 else nan) = nan /\ (if min2 SFltb (dbl 1 0) nan then nan else dbl 1 0) = dbl 1 0.
Proof. exact min2_order. Qed.

(** C136 *)
Theorem float_equals_compares_values : forall prec emax, a_format prec emax -> forall a b, Forall (number prec emax) a -> Forall (number prec emax) b ->
  equals SFeqb a b = true <-> Forall2 (same prec emax) a b.
Proof. exact equals_values. Qed.
Print Assumptions float_equals_compares_values.
Theorem float_contains_compares_values : forall prec emax, a_format prec emax -> forall l v, Forall (number prec emax) l -> number prec emax v ->
  contains_elem SFeqb l v = true <-> exists x, In x l /\ same prec emax x v.
Proof. exact contains_value. Qed.
Print Assumptions float_contains_compares_values.
Theorem float_nan_is_never_found_refuted : forall l v, is_nan v = true ->
  find_elem SFeqb l v = length l /\ rfind_elem SFeqb l v = length l /\ contains_elem SFeqb l v = false /\ count SFeqb l v = 0%nat.
Proof. exact search_nan. Qed.
Print Assumptions float_nan_is_never_found_refuted.
Theorem float_equals_is_reflexive_refuted : forall a b : list spec_float,
  Exists (fun x => is_nan x = true) a \/ Exists (fun x => is_nan x = true) b -> equals SFeqb a b = false.
Proof. exact equals_nan. Qed.
Print Assumptions float_equals_is_reflexive_refuted.
Example unequal_to_itself_ex : equals SFeqb [dbl 1 0; nan] [dbl 1 0; nan] = false /\ contains_elem SFeqb [dbl 1 0; nan] nan = false /\ equals SFeqb [zero] [S754_zero true] = true.
Proof. exact unequal_to_itself. Qed.
Theorem float_is_false_only_for_zero : forall x, is_false_f x = true <-> exists s, x = S754_zero s.
Proof. exact is_false_zero. Qed.
Print Assumptions float_is_false_only_for_zero.
Theorem float_is_true_unless_zero : forall x, is_true_f x = true <-> ~ exists s, x = S754_zero s.
Proof. exact is_true_not_zero. Qed.
Print Assumptions float_is_true_unless_zero.
Theorem float_any_all_test_for_zero : forall l,
  (any is_true_f l = true <-> exists x, In x l /\ ~ exists s, x = S754_zero s) /\
  (all is_true_f l = true <-> forall x, In x l -> ~ exists s, x = S754_zero s).
Proof. exact any_all_not_zero. Qed.
Print Assumptions float_any_all_test_for_zero.
Example float_any_ex : any is_true_f [zero; S754_zero true] = false /\ any is_true_f [zero; nan] = true /\ all is_true_f [nan; dbl 1 0] = true /\ all is_true_f [dbl 1 0; S754_zero true] = false.
Proof. repeat split. Qed.

(** C137 *)
Theorem float_abs_is_the_absolute_value : forall prec emax, a_format prec emax -> forall x, number prec emax x ->
  number prec emax (abs_f x) /\ is_finite (abs_f x) = is_finite x /\ is_nan (abs_f x) = is_nan x /\ units prec emax (abs_f x) = Z.abs (units prec emax x) /\
  (is_nan x = false -> sign (abs_f x) = true <-> x = S754_zero true).
Proof. exact abs_value. Qed.
Print Assumptions float_abs_is_the_absolute_value.
Theorem float_abs_clears_the_sign_refuted : abs_f (S754_zero true) = S754_zero true.
Proof. exact eq_refl. Qed.
Print Assumptions float_abs_clears_the_sign_refuted.
Example abs_ex : abs_f (dbl (-5) (-1)) = dbl 5 (-1) /\ abs_f (S754_infinity true) = infinity.
Proof. split; reflexivity. Qed.

(** C138.  [mixed] lists have a NaN and two different numbers. *)
Theorem float_sort_is_undefined_iff : forall prec emax, a_format prec emax -> forall l, Forall (number prec emax) l ->
  sort SFltb l Ub <-> exists n x y, In n l /\ In x l /\ In y l /\ is_nan n = true /\ below prec emax x y.
Proof. exact sort_undefined. Qed.
Print Assumptions float_sort_is_undefined_iff.
Theorem float_sort_sorts_partial : forall prec emax, a_format prec emax -> forall l o, Forall (number prec emax) l ->
  ~ (exists n x y, In n l /\ In x l /\ In y l /\ is_nan n = true /\ below prec emax x y) -> sort SFltb l o ->
  exists l', o = Ret l' /\ Permutation l l' /\ forall i j x y, (i < j)%nat -> nth_error l' i = Some x -> nth_error l' j = Some y -> ~ below prec emax y x.
Proof. exact sort_unmixed. Qed.
Print Assumptions float_sort_sorts_partial.
Theorem float_sort_with_nan_refuted : forall prec emax, a_format prec emax -> forall l o, Forall (number prec emax) l ->
  (exists n x y, In n l /\ In x l /\ In y l /\ is_nan n = true /\ below prec emax x y) -> sort SFltb l o -> o = Ub.
Proof. exact sort_mixed_only. Qed.
Print Assumptions float_sort_with_nan_refuted.
Example mixed_ex : mixed 53 1024 [dbl 1 0; nan; dbl 2 0] /\ ~ mixed 53 1024 [nan; dbl 1 0; nan; dbl 1 0].
Proof. exact mixed_list. Qed.

(** C139 *)
Theorem float_addition_is_nearest : forall prec emax, a_format prec emax -> forall x y,
  number prec emax x -> number prec emax y -> is_finite x = true -> is_finite y = true ->
  let z := units prec emax x + units prec emax y in let r := SFadd prec emax x y in
  number prec emax r /\ (too_large prec emax z -> r = S754_infinity (z <? 0)) /\
  (~ too_large prec emax z -> is_finite r = true /\ nearest prec emax z (units prec emax r)).
Proof. exact add_nearest. Qed.
Print Assumptions float_addition_is_nearest.
(** there is one nearest number *)
Theorem float_nearest_is_unique : forall prec emax z r1 r2, nearest prec emax z r1 -> nearest prec emax z r2 -> r1 = r2.
Proof. exact nearest_unique. Qed.
Print Assumptions float_nearest_is_unique.
Theorem float_sum_is_exact_partial : forall prec emax, a_format prec emax -> forall c v,
  number prec emax v -> is_finite v = true -> Forall (number prec emax) c -> Forall (fun x => is_finite x = true) c ->
  (forall k, (k <= length c)%nat -> representable prec emax (units prec emax v + total (map (units prec emax) (firstn k c)))) ->
  is_finite (sum_f prec emax c v) = true /\ units prec emax (sum_f prec emax c v) = units prec emax v + total (map (units prec emax) c).
Proof. exact sum_exact. Qed.
Print Assumptions float_sum_is_exact_partial.
Theorem float_sum_in_any_order_partial : forall prec emax, a_format prec emax -> forall g c c' v, 0 <= g -> prec + g < emax - SpecFloat.emin prec emax ->
  number prec emax v -> is_finite v = true -> Forall (number prec emax) c -> Forall (fun x => is_finite x = true) c ->
  (2 ^ g | units prec emax v) -> Forall (fun x => (2 ^ g | units prec emax x)) c ->
  Z.abs (units prec emax v) + total (map (fun x => Z.abs (units prec emax x)) c) <= 2 ^ (prec + g) ->
  Permutation c c' -> units prec emax (sum_f prec emax c' v) = units prec emax (sum_f prec emax c v).
Proof. exact sum_any_order. Qed.
Print Assumptions float_sum_in_any_order_partial.
(** the relative error of n additions is at most (1 + 2^-prec)^n - 1 of the sum of the absolute values *)
Theorem float_sum_error : forall prec emax, a_format prec emax -> forall c v,
  number prec emax v -> Forall (number prec emax) c -> is_finite (sum_f prec emax c v) = true ->
  (2 ^ prec) ^ Z.of_nat (length c) * Z.abs (units prec emax (sum_f prec emax c v) - (units prec emax v + total (map (units prec emax) c))) <=
  ((2 ^ prec + 1) ^ Z.of_nat (length c) - (2 ^ prec) ^ Z.of_nat (length c)) * (Z.abs (units prec emax v) + total (map (fun x => Z.abs (units prec emax x)) c)).
Proof. exact sum_error. Qed.
Print Assumptions float_sum_error.
Theorem float_sum_of_integers_partial : forall prec emax, a_format prec emax -> forall ns, total (map Z.abs ns) <= 2 ^ prec ->
  is_finite (sum_f prec emax (map (of_int prec emax) ns) zero) = true /\
  units prec emax (sum_f prec emax (map (of_int prec emax) ns) zero) = total ns * one prec emax.
Proof. exact sum_of_ints. Qed.
Print Assumptions float_sum_of_integers_partial.
Theorem float_sum_with_nan : forall prec emax c v, is_nan v = true \/ Exists (fun x => is_nan x = true) c -> sum_f prec emax c v = S754_nan.
Proof. exact sum_nan. Qed.
Print Assumptions float_sum_with_nan.
Theorem float_sum_is_exact_refuted : let s := sum_f 53 1024 (repeat tenth 10) zero in SFltb s (dbl 1 0) = true /\ SFeqb s (dbl 1 0) = false.
Proof. exact ten_tenths. Qed.
Print Assumptions float_sum_is_exact_refuted.
Theorem float_sum_in_any_order_refuted : let a := [dbl (2 ^ 53) 0; dbl 1 0; dbl 1 0] in let b := [dbl 1 0; dbl 1 0; dbl (2 ^ 53) 0] in
  Permutation a b /\ sum_f 53 1024 a zero = dbl (2 ^ 53) 0 /\ sum_f 53 1024 b zero = dbl (2 ^ 53 + 2) 0 /\ dbl (2 ^ 53) 0 <> dbl (2 ^ 53 + 2) 0.
Proof. exact order_matters. Qed.
Print Assumptions float_sum_in_any_order_refuted.
(** the sum is a number and the result is infinite, or NaN although no element is *)
Theorem float_sum_is_finite_refuted : let c := [largest; largest; SFopp largest] in
  Forall (number 53 1024) c /\ total (map (units 53 1024) c) = units 53 1024 largest /\ sum_f 53 1024 c zero = infinity /\
  sum_f 53 1024 [SFopp largest; SFopp largest; infinity] zero = nan.
Proof. exact overflows. Qed.
Print Assumptions float_sum_is_finite_refuted.
Example tenth_ex : number 53 1024 tenth /\ 10 * units 53 1024 tenth - one 53 1024 = 2 ^ 1020 /\ 2 * 2 ^ 1020 < 10 * 2 ^ (1074 - 56).
Proof. exact tenth_ok. Qed.
Example sum_of_quarters_ex : sum_f 53 1024 [dbl 1 (-2); dbl (-3) (-2); dbl 7 0] (dbl 5 (-1)) = dbl 9 0.
Proof. vm_compute. reflexivity. Qed.

(** C140.  Sums whose initial value is an integer of [bits] bits. *)
Theorem float_sum_into_integer_steps : forall prec emax, a_format prec emax -> forall bits sgn c, bits < emax -> Forall (number prec emax) c ->
  forall v, in_type bits sgn v -> int_sum prec emax bits sgn c v (defined (sum_int prec emax bits sgn c v)) /\
  (sum_int prec emax bits sgn c v = Ub \/ exists w, sum_int prec emax bits sgn c v = Ret w).
Proof. exact sum_int_steps. Qed.
Print Assumptions float_sum_into_integer_steps.
Theorem float_sum_into_integer_has_one_result : forall prec emax bits sgn c v o1, int_sum prec emax bits sgn c v o1 ->
  forall o2, int_sum prec emax bits sgn c v o2 -> o1 = o2.
Proof. exact int_sum_unique. Qed.
Print Assumptions float_sum_into_integer_has_one_result.
Theorem float_sum_into_integer_partial : forall prec emax, a_format prec emax -> forall bits sgn c ns,
  Forall2 (fun x n => number prec emax x /\ is_finite x = true /\ units prec emax x = n * one prec emax) c ns -> forall v,
  (forall k, (k <= length ns)%nat -> fits bits sgn (v + total (firstn k ns)) = true /\ Z.abs (v + total (firstn k ns)) <= 2 ^ prec) ->
  sum_int prec emax bits sgn c v = Ret (v + total ns).
Proof. exact sum_int_exact. Qed.
Print Assumptions float_sum_into_integer_partial.
Theorem float_sum_into_integer_drops_fractions : forall prec emax, a_format prec emax -> forall bits sgn c,
  Forall (fun x => number prec emax x /\ is_finite x = true /\ 0 <= units prec emax x /\ 2 * units prec emax x <= one prec emax) c ->
  forall v, 0 <= v < 2 ^ (prec - 1) -> fits bits sgn v = true -> sum_int prec emax bits sgn c v = Ret v.
Proof. exact sum_int_halves. Qed.
Print Assumptions float_sum_into_integer_drops_fractions.
(** the sum is n/2, the result 0 *)
Theorem float_sum_into_integer_is_near_refuted : forall n, let c := repeat (dbl 1 (-1)) n in
  2 * total (map (units 53 1024) c) = Z.of_nat n * one 53 1024 /\ sum_int 53 1024 32 true c 0 = Ret 0.
Proof. exact halves_lost. Qed.
Print Assumptions float_sum_into_integer_is_near_refuted.
Theorem float_sum_into_integer_is_defined_refuted : forall prec emax bits sgn c v, Exists (fun x => is_finite x = false) c -> sum_int prec emax bits sgn c v = Ub.
Proof. exact sum_int_not_finite. Qed.
Print Assumptions float_sum_into_integer_is_defined_refuted.
Example into_int_ex : sum_int 53 1024 32 true [dbl 5 (-1); dbl 5 (-1); dbl (-7) 0] 10 = Ret 7 /\ sum_int 53 1024 32 true [dbl 2147483647 0; dbl 1 0] 0 = Ub /\
  sum_int 53 1024 8 false [dbl (-1) 0] 0 = Ub /\ sum_int 53 1024 8 false [dbl (-1) (-1)] 0 = Ret 0 /\ sum_int 24 128 32 true [binary_normalize 24 128 1 0 false] (2 ^ 24) = Ret (2 ^ 24).
Proof. exact into_int. Qed.

(** C141 *)
Theorem float_round_is_the_nearest_integer : forall prec emax, a_format prec emax -> forall x, number prec emax x -> is_finite x = true ->
  let r := round_f prec emax x in number prec emax r /\ is_finite r = true /\ sign r = sign x /\
  exists n, units prec emax r = n * one prec emax /\ 2 * Z.abs (n * one prec emax - units prec emax x) <= one prec emax /\
    (2 * Z.abs (n * one prec emax - units prec emax x) = one prec emax -> Z.abs (units prec emax x) < Z.abs (n * one prec emax)).
Proof. exact round_value. Qed.
Print Assumptions float_round_is_the_nearest_integer.
Theorem float_round_not_finite : forall prec emax x, is_finite x = false -> round_f prec emax x = x.
Proof. exact round_not_finite. Qed.
Print Assumptions float_round_not_finite.
(** the integers of AlgoModel.v (C127) are these doubles *)
Theorem float_round_of_integer : forall n, Z.abs n < 2 ^ 1023 -> let x := of_int 53 1024 n in
  number 53 1024 x /\ is_finite x = true /\ units 53 1024 x = AlgoModel.round n * one 53 1024 /\
  units 53 1024 (round_f 53 1024 x) = AlgoModel.round n * one 53 1024.
Proof. exact round_of_integer_double. Qed.
Print Assumptions float_round_of_integer.
Example rounds_ex : round_f 53 1024 (dbl 5 (-1)) = dbl 3 0 /\ round_f 53 1024 (dbl (-5) (-1)) = dbl (-3) 0 /\ round_f 53 1024 (dbl (-1) (-2)) = S754_zero true /\
  round_f 53 1024 (dbl (2 ^ 53 - 1) (-54)) = zero.
Proof. exact rounds. Qed.
