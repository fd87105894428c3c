(** reverse, sort, filter and map of containers, round and pow of integers (C122-C127) *)
From Coq Require Import List Bool Arith ZArith Permutation Sorted.
From Verif Require Import Base SeqModel SmallModel SmallSpec AlgoModel AlgoSpec AlgoProofs AlgoPow.
Import ListNotations.

(** C122.  [reverse] is std::reverse for bidirectional iterators, [reverse_ra] for random access iterators. *)
Theorem reverse_reverses : forall (A : Type) (l : list A), reverse l = Ret (rev l) /\ reverse_ra l = Ret (rev l).
Proof. exact (fun A l => conj (reverse_ok l) (reverse_ra_ok l)). Qed.
Print Assumptions reverse_reverses.
Example reverse_ex : reverse [1; 2; 3; 4; 5] = Ret [5; 4; 3; 2; 1] /\ reverse_ra [1; 2; 3; 4] = Ret [4; 3; 2; 1].
Proof. split; reflexivity. Qed.

(** C123.  Every outcome of sort. *)
Theorem sort_with_is_less_sorts : forall l o, sort Z.ltb l o ->
  exists l', o = Ret l' /\ Permutation l l' /\ StronglySorted Z.le l'.
Proof. exact sort_default. Qed.
Print Assumptions sort_with_is_less_sorts.
Theorem sort_with_is_less_has_one_result : forall l, (exists l', sort Z.ltb l (Ret l')) /\
  forall o1 o2, sort Z.ltb l o1 -> sort Z.ltb l o2 -> o1 = o2.
Proof. exact (fun l => conj (sort_exists l) (sort_integers l)). Qed.
Print Assumptions sort_with_is_less_has_one_result.
Theorem sort_with_is_greater_is_reversed : forall l o1 o2, sort Z.gtb l o1 -> sort Z.ltb l o2 ->
  exists l', o2 = Ret l' /\ o1 = Ret (rev l').
Proof. exact sort_greater_reverses. Qed.
Print Assumptions sort_with_is_greater_is_reversed.
Theorem sort_with_is_iless_ignores_case : forall toupper l o, sort (SeqModel.is_iless toupper) l o ->
  exists l', o = Ret l' /\ Permutation l l' /\ StronglySorted Z.le (map toupper l').
Proof. exact sort_ignoring_case. Qed.
Print Assumptions sort_with_is_iless_ignores_case.
(** any strict weak order *)
Theorem sort_with_a_strict_weak_order_partial : forall (A : Type) (pred : A -> A -> bool) l o, strict_weak_on pred l -> sort pred l o ->
  exists l', o = Ret l' /\ Permutation l l' /\
    (forall i j x y, i < j -> nth_error l' i = Some x -> nth_error l' j = Some y -> pred y x = false).
Proof. exact @sort_defined. Qed.
Print Assumptions sort_with_a_strict_weak_order_partial.
(** is_less_equal, is_greater_equal, is_equal and their case-insensitive forms hold for equal elements *)
Theorem sort_with_every_comparison_refuted : forall (A : Type) (pred : A -> A -> bool) l x, In x l -> pred x x = true -> sort pred l Ub.
Proof. exact @sort_reflexive. Qed.
Print Assumptions sort_with_every_comparison_refuted.
Theorem sort_overlapping_ranges_refuted : sort (is_less_no_overlap Z.leb Z.eqb) [Range 0 2; Range 1 4; Range 3 5]%Z Ub.
Proof. exact sort_overlapping. Qed.
Print Assumptions sort_overlapping_ranges_refuted.
Theorem sort_ranges_that_do_not_overlap : forall (T : Type) (ltb leb eqb : T -> T -> bool), total_order ltb leb eqb -> forall l o,
  (forall a, In a l -> well_formed leb a) ->
  (forall a b, In a l -> In b l -> a <> b -> is_overlapping ltb eqb a b = false) ->
  sort (is_less_no_overlap leb eqb) l o ->
  exists l', o = Ret l' /\ Permutation l l' /\
    forall i j a b, i < j -> nth_error l' i = Some a -> nth_error l' j = Some b -> a = b \/ leb (rend a) (rbegin b) = true.
Proof. exact @sort_apart. Qed.
Print Assumptions sort_ranges_that_do_not_overlap.
Example ranges_that_do_not_overlap_ex : let l := [Range 3 5; Range 0 2; Range 2 3; Range 0 2]%Z in
  forallb (fun a => forallb (fun b => op_eq Z.eqb a b || negb (is_overlapping Z.ltb Z.eqb a b)) l) l = true.
Proof. reflexivity. Qed.
Example sort_ex : sort Z.ltb [3; 1; 2; 1]%Z (Ret [1; 1; 2; 3]%Z).
Proof. exact sort_example. Qed.

(** C124 *)
Theorem filter_calls_the_predicate_once_in_order : forall (A S : Type) (f : S -> A -> S * bool) junk st l,
  filter_effects f junk st l = Ret (filter_in_order f st l).
Proof. exact @filter_effects_ok. Qed.
Print Assumptions filter_calls_the_predicate_once_in_order.
(** a predicate that keeps every second element it is called for *)
Example filter_every_second : filter_effects (fun (odd : bool) (x : nat) => (negb odd, odd)) (fun _ => 0) true [4; 7; 1; 9; 3] = Ret (false, [4; 1; 3]).
Proof. reflexivity. Qed.

(** C125 *)
Theorem map_into_set_keeps_the_first_of_equivalent_elements : forall (A B : Type) (less : B -> B -> bool), strict_weak_order less ->
  forall (f : A -> B) source s, increasing less s ->
  increasing less (map_into_tree less f source s) /\
  forall k, first_equiv less k (map_into_tree less f source s) = first_equiv less k (s ++ map f source).
Proof. exact @map_into_tree_ok. Qed.
Print Assumptions map_into_set_keeps_the_first_of_equivalent_elements.
(** a std::map (pairs of key and value) that already has key 2: its value stays *)
Theorem map_into_map_replaces_values_refuted :
  map_into_tree (fun a b => fst a <? fst b) (fun x => (x, 100 + x)) [3; 2; 1; 3] [(2, 0)] = [(1, 101); (2, 0); (3, 103)].
Proof. reflexivity. Qed.
Print Assumptions map_into_map_replaces_values_refuted.

(** C126 *)
Theorem map_into_itself_ends_refuted : forall (A : Type) (f : A -> A) fuel x l, map_list_self f fuel 0 (x :: l) = OutOfFuel.
Proof. exact (fun A f fuel x l => map_self_endless f fuel 0 (x :: l) (Nat.lt_0_succ (length l))). Qed.
Print Assumptions map_into_itself_ends_refuted.
Theorem map_vector_into_itself_refuted : forall (A : Type) (f : A -> A) x l, map_vector_self f (x :: l) = Ub.
Proof. exact (fun A f x l => eq_refl). Qed.
Print Assumptions map_vector_into_itself_refuted.
Theorem map_into_itself_partial : forall (A : Type) (f : A -> A) fuel,
  map_list_self f (S fuel) 0 [] = Ret [] /\ map_vector_self f [] = Ret [].
Proof. exact (fun A f fuel => conj eq_refl eq_refl). Qed.
Print Assumptions map_into_itself_partial.

(** C127 *)
Theorem round_of_integer_is_exact_refuted : AlgoModel.round (2 ^ 53 + 1) = (2 ^ 53)%Z.
Proof. exact eq_refl. Qed.
Print Assumptions round_of_integer_is_exact_refuted.
Theorem round_of_integer_partial : forall n, (Z.abs n <= 2 ^ 53)%Z -> AlgoModel.round n = n.
Proof. exact to_double_small. Qed.
Print Assumptions round_of_integer_partial.
(** when exactly *)
Theorem round_of_integer_is_exact_iff : forall n,
  AlgoModel.round n = n <-> (Z.abs n < 2 ^ 53 \/ (2 ^ (Z.log2 (Z.abs n) - 52) | n))%Z.
Proof. exact to_double_exact. Qed.
Print Assumptions round_of_integer_is_exact_iff.
Theorem round_of_integer_error : forall n, (2 ^ 53 * Z.abs (AlgoModel.round n - n) <= Z.abs n)%Z.
Proof. exact to_double_error. Qed.
Print Assumptions round_of_integer_error.
(** whatever std::pow computes, pow(n, 1) is not n for every 64-bit n *)
Theorem pow_of_integers_is_exact_refuted : forall cpow : Z -> Z -> Z, exists n, (Z.abs n < 2 ^ 63)%Z /\ AlgoModel.pow cpow n 1 <> n.
Proof. exact pow_wrong. Qed.
Print Assumptions pow_of_integers_is_exact_refuted.
Theorem pow_of_small_integers_partial : forall (T : Type) (cpow : Z -> Z -> T) n m, (Z.abs n <= 2 ^ 53)%Z -> (Z.abs m <= 2 ^ 53)%Z ->
  AlgoModel.pow cpow n m = cpow n m.
Proof. exact (fun T cpow n m Hn Hm => f_equal2 cpow (to_double_small n Hn) (to_double_small m Hm)). Qed.
Print Assumptions pow_of_small_integers_partial.
(** when exactly pow(n, m) is the power, for a std::pow that is right where it can be: where the power is a double, except
    for -1 and odd exponents beyond 2^53 *)
Theorem pow_of_integers_is_exact_iff : forall cpow n m, faithful_pow cpow -> (Z.abs n < 2 ^ 64)%Z -> (0 <= m < 2 ^ 64)%Z ->
  (AlgoModel.pow cpow n m = Some (n ^ m)%Z <-> double_integer (n ^ m) /\ ~ (n = (-1)%Z /\ Z.odd m = true /\ (2 ^ 53 < m)%Z)).
Proof. exact pow_exact. Qed.
Print Assumptions pow_of_integers_is_exact_iff.
Theorem pow_of_minus_one_refuted : forall cpow, faithful_pow cpow -> AlgoModel.pow cpow (-1) (2 ^ 53 + 1) = Some 1%Z.
Proof. exact pow_minus_one. Qed.
Print Assumptions pow_of_minus_one_refuted.
Example pow_ex : faithful_pow some_pow /\ (AlgoModel.pow some_pow 3 5 = Some 243 /\ AlgoModel.pow some_pow (-2) 63 = Some (- 2 ^ 63) /\
  AlgoModel.pow some_pow 3 34 = None /\ AlgoModel.pow some_pow (2 ^ 53 + 1) 1 = Some (2 ^ 53) /\ ~ double_integer (3 ^ 34))%Z.
Proof. exact (conj some_pow_faithful pow_cases). Qed.
Example round_ex : AlgoModel.round (- 2 ^ 53 - 3) = (- 2 ^ 53 - 4)%Z /\ AlgoModel.round 12345 = 12345%Z.
Proof. split; reflexivity. Qed.
