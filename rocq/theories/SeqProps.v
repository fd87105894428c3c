(** Property theorems C29-C37, C71, C72: iterator.hpp, container.hpp, compare.hpp and the searching
    functions of string.hpp. *)
From Coq Require Import List Bool Arith ZArith.
From Verif Require Import Base StringModel StringSpec SeqModel SeqSpec SeqProofs.
Import ListNotations.
Open Scope nat_scope.

(** C29 *)
Theorem find_is_first_occurrence : forall (A B : Type) (p : A -> B -> bool) l r,
  let i := find_sequence p l r in
  (occurs_at p l r i /\ forall j, j < i -> ~ occurs_at p l r j) \/
  (i = length l /\ forall j, ~ occurs_at p l r j).
Proof. exact @find_sequence_ok. Qed.
Print Assumptions find_is_first_occurrence.
Theorem rfind_is_last_occurrence : forall (A B : Type) (p : A -> B -> bool) l r,
  let i := rfind_sequence p l r in
  (r = [] -> i = length l) /\
  (r <> [] -> (occurs_at p l r i /\ forall j, i < j -> ~ occurs_at p l r j) \/
              (i = length l /\ forall j, ~ occurs_at p l r j)).
Proof. exact @rfind_sequence_ok. Qed.
Print Assumptions rfind_is_last_occurrence.
Theorem contains_means_occurs : forall (A B : Type) (p : A -> B -> bool) l r,
  contains_sequence p l r = true <-> exists i, occurs_at p l r i.
Proof. exact @contains_sequence_ok. Qed.
Print Assumptions contains_means_occurs.
Theorem find_and_rfind_of_elements : forall (A B : Type) (eqb : A -> B -> bool) (p : A -> bool) l e,
  first_match p l (find_if p l) /\ first_match (fun x => negb (p x)) l (find_if_not p l) /\
  first_match (fun x => eqb x e) l (find_elem eqb l e) /\
  last_match p l (rfind_if p l) /\ last_match (fun x => negb (p x)) l (rfind_if_not p l) /\
  last_match (fun x => eqb x e) l (rfind_elem eqb l e).
Proof. exact @find_variants_ok. Qed.
Print Assumptions find_and_rfind_of_elements.
Theorem contains_elem_means_member : forall (A B : Type) (eqb : A -> B -> bool) l e,
  contains_elem eqb l e = true <-> exists x, In x l /\ eqb x e = true.
Proof. exact @contains_elem_ok. Qed.
Print Assumptions contains_elem_means_member.
Example find_ex :
  find_sequence Nat.eqb [1;2;1;2;3] [1;2] = 0 /\ rfind_sequence Nat.eqb [1;2;1;2;3] [1;2] = 2 /\
  find_sequence Nat.eqb [1;2] [3] = 2 /\ rfind_if (Nat.eqb 1) [1;2;1;2;3] = 2 /\
  find_sequence Nat.ltb [5;1;2] [2;3] = 1 /\ contains_sequence Nat.eqb [1;2] [] = true /\
  find_elem Nat.eqb [4;5;6;5] 5 = 1 /\ rfind_elem Nat.eqb [4;5;6;5] 5 = 3 /\
  contains_sequence Nat.eqb [1;2;3] [2;3] = true /\ contains_sequence Nat.eqb [1;2;3] [3;2] = false.
Proof. repeat split. Qed.

(** C30: both code paths, equality *)
Theorem starts_with_means_prefix : forall (A : Type) (eqb : A -> A -> bool),
  (forall x y, eqb x y = true <-> x = y) -> forall l r,
  (starts_with_generic eqb l r = true <-> exists t, l = r ++ t) /\
  starts_with_cxx20 eqb l r = Ret (starts_with_generic eqb l r).
Proof. exact @starts_with_prefix. Qed.
Print Assumptions starts_with_means_prefix.
Theorem ends_with_means_suffix : forall (A : Type) (eqb : A -> A -> bool),
  (forall x y, eqb x y = true <-> x = y) -> forall l r,
  (ends_with_generic eqb l r = true <-> exists t, l = t ++ r) /\
  ends_with_cxx20 eqb l r = Ret (ends_with_generic eqb l r).
Proof. exact @ends_with_suffix. Qed.
Print Assumptions ends_with_means_suffix.
Example starts_ends_with_ex :
  starts_with_generic Nat.eqb [1;2;3] [1;2] = true /\ ends_with_cxx20 Nat.eqb [1;2;3] [2;3] = Ret true /\
  ends_with_generic Nat.eqb [1;2;3] [1;2] = false /\ starts_with_cxx20 Nat.eqb [1] [1;2] = Ret false.
Proof. repeat split. Qed.

(** C31: the generic path means an occurrence at the start / end for every predicate ... *)
Theorem starts_ends_with_any_predicate : forall (A B : Type) (p : A -> B -> bool) l r,
  (starts_with_generic p l r = true <-> occurs_at p l r 0) /\
  (ends_with_generic p l r = true <-> length r <= length l /\ occurs_at p l r (length l - length r)).
Proof. exact (fun A B p l r => conj (starts_with_ok p l r) (ends_with_ok p l r)). Qed.
Print Assumptions starts_ends_with_any_predicate.
(** ... and the C++20 path the same for a predicate that gives the same answer with the arguments
    swapped.  Missing: asymmetric predicates, see the refutation *)
Theorem paths_agree_partial : forall (A B : Type) (q : B -> A -> bool) (p : A -> B -> bool) l r,
  (forall x y, q y x = p x y) ->
  starts_with_cxx20 q l r = Ret (starts_with_generic p l r) /\
  ends_with_cxx20 q l r = Ret (ends_with_generic p l r).
Proof. exact (fun A B q p l r S => conj (starts_with_paths q p l r S) (ends_with_paths q p l r S)). Qed.
Print Assumptions paths_agree_partial.
Theorem paths_agree_refuted : exists (pred : nat -> nat -> bool) l r,
  starts_with_cxx20 pred l r <> Ret (starts_with_generic pred l r) /\
  ends_with_cxx20 pred l r <> Ret (ends_with_generic pred l r).
Proof. exact paths_differ. Qed.
Print Assumptions paths_agree_refuted.
(** a symmetric predicate that is not equality: same parity *)
Example paths_agree_ex :
  let p := fun x y => Bool.eqb (Nat.even x) (Nat.even y) in
  (forall x y, p y x = p x y) /\ starts_with_cxx20 p [1;2;3] [5;4] = Ret true.
Proof. split; [intros x y; destruct (Nat.even x), (Nat.even y); reflexivity|reflexivity]. Qed.

(** C32 *)
Theorem case_insensitive_comparisons_are_consistent : forall up : Z -> Z,
  (forall a, is_iequal up a a = true) /\
  (forall a b, is_iequal up a b = is_iequal up b a) /\
  (forall a b c, is_iequal up a b = true -> is_iequal up b c = true -> is_iequal up a c = true) /\
  strict_weak_order (is_iless up) /\
  (forall a b, is_iequal up a b = negb (is_iless up a b) && negb (is_iless up b a)) /\
  (forall a b, is_not_iequal up a b = negb (is_iequal up a b)) /\
  (forall a b, is_igreater up a b = is_iless up b a) /\
  (forall a b, is_iless_equal up a b = negb (is_igreater up a b)) /\
  (forall a b, is_igreater_equal up a b = negb (is_iless up a b)).
Proof. exact compare_ok. Qed.
Print Assumptions case_insensitive_comparisons_are_consistent.
Definition ascii_up (z : Z) : Z := if (97 <=? z)%Z && (z <=? 122)%Z then (z - 32)%Z else z.
Example case_insensitive_ex :
  is_iequal ascii_up 97 65 = true /\ is_iless ascii_up 97 66 = true /\ is_iless ascii_up 66 97 = false.
Proof. repeat split. Qed.

(** C33: [upper up s] is s converted with upper(); [cxx20] selects the code path *)
Theorem i_functions_are_plain_functions_on_upper_case : forall (up : Z -> Z) (l r : list Z),
  let l' := upper up l in let r' := upper up r in
  iequals up l r = equals Z.eqb l' r' /\ ifind up l r = find_sequence Z.eqb l' r' /\
  irfind up l r = rfind_sequence Z.eqb l' r' /\ icontains up l r = contains_sequence Z.eqb l' r' /\
  (forall cxx20 : bool, istarts_with up cxx20 l r =
     if cxx20 then starts_with_cxx20 Z.eqb l' r' else Ret (starts_with_generic Z.eqb l' r')) /\
  (forall cxx20 : bool, iends_with up cxx20 l r =
     if cxx20 then ends_with_cxx20 Z.eqb l' r' else Ret (ends_with_generic Z.eqb l' r')).
Proof.
  exact (fun up l r => conj (iequals_up up l r) (conj (ifind_up up l r) (conj (irfind_up up l r)
    (conj (icontains_up up l r) (conj (fun c => istarts_with_up up c l r) (fun c => iends_with_up up c l r)))))).
Qed.
Print Assumptions i_functions_are_plain_functions_on_upper_case.
Theorem equals_means_elementwise : forall (A B : Type) (p : A -> B -> bool) l r,
  equals p l r = true <-> Forall2 (fun x y => p x y = true) l r.
Proof. exact @equals_ok. Qed.
Print Assumptions equals_means_elementwise.
Example i_functions_ex :
  iequals ascii_up [97;66]%Z [65;98]%Z = true /\ ifind ascii_up [120;97]%Z [65]%Z = 1 /\
  iends_with ascii_up true [120;97]%Z [65]%Z = Ret true.
Proof. repeat split. Qed.

(** C34: containers whose element type cannot be made from an iterator *)
Theorem slice_is_python_slice : forall (A : Type) (c : list A) (start stop : Z),
  (Z.of_nat (length c) < 2 ^ 63)%Z -> (- 2 ^ 63 <= start < 2 ^ 63)%Z -> (- 2 ^ 63 <= stop < 2 ^ 63)%Z ->
  slice None c start stop = Ret (py_slice c start stop) /\
  slice_to None c stop = Ret (py_slice c 0 stop).
Proof. exact (fun A c a b Hc Ha Hb => conj (slice_ok c a b Hc Ha Hb) (slice_to_ok c b Hc Hb)). Qed.
Print Assumptions slice_is_python_slice.
Example slice_ex :
  slice None [1;2;3;4;5] (-3) (-1) = Ret [3;4] /\ slice None [1;2;3] (-9223372036854775808) 9223372036854775807 = Ret [1;2;3] /\
  slice None [1;2;3] 2 1 = Ret [] /\ slice_to None [1;2;3] (-1) = Ret [1;2] /\ py_slice [1;2;3;4;5] (-3) (-1) = [3;4].
Proof. repeat split. Qed.

(** C71 *)
Theorem slice_of_any_elements_refuted : exists (conv : Z -> Z) (c : list Z) start stop,
  slice (Some conv) c start stop <> Ret (py_slice c start stop).
Proof. exact slice_any_differs. Qed.
Print Assumptions slice_of_any_elements_refuted.
(** the result is right if it is empty; otherwise it consists of the two iterators that delimit it *)
Theorem slice_of_any_elements_partial : forall (A : Type) (conv : Z -> A) (c : list A) (start stop : Z),
  (Z.of_nat (length c) < 2 ^ 63)%Z -> (- 2 ^ 63 <= start < 2 ^ 63)%Z -> (- 2 ^ 63 <= stop < 2 ^ 63)%Z ->
  (py_slice c start stop = [] -> slice (Some conv) c start stop = Ret []) /\
  (py_slice c start stop <> [] -> exists a b, (0 <= a < b)%Z /\ (b <= Z.of_nat (length c))%Z /\
     py_slice c start stop = firstn (Z.to_nat (b - a)) (skipn (Z.to_nat a) c) /\ slice (Some conv) c start stop = Ret [conv a; conv b]).
Proof. exact @slice_any_ok. Qed.
Print Assumptions slice_of_any_elements_partial.
(** a vector<any> of three elements sliced [0:3] has two elements, the iterators 0 and 3 *)
Example slice_of_any_elements_ex :
  slice (Some (fun i => i)) [7;8;9]%Z 0 3 = Ret [0;3]%Z /\ py_slice [7;8;9]%Z 0 3 = [7;8;9]%Z.
Proof. split; reflexivity. Qed.

(** C35: [junk] is what std::remove_if leaves behind in moved-from elements *)
Theorem filter_keeps_matching_in_order : forall (A : Type) (junk : nat -> A) (pred : A -> bool) l,
  filter_container junk pred l = Ret (filter pred l).
Proof. exact @filter_container_ok. Qed.
Print Assumptions filter_keeps_matching_in_order.
Theorem count_is_length_of_filter : forall (A B : Type) (pred : A -> bool) (eqb : A -> B -> bool) l v,
  count_if pred l = length (filter pred l) /\ count eqb l v = length (filter (fun x => eqb x v) l).
Proof. exact (fun A B pred eqb l v => conj (count_ok pred l) (count_value_ok eqb l v)). Qed.
Print Assumptions count_is_length_of_filter.
Theorem any_all_are_quantifiers : forall (A : Type) (pred : A -> bool) l,
  (any pred l = true <-> exists x, In x l /\ pred x = true) /\
  (all pred l = true <-> forall x, In x l -> pred x = true) /\
  any pred l = negb (all (fun x => negb (pred x)) l).
Proof. exact (fun A pred l => conj (any_ok pred l) (conj (all_ok pred l) (any_all_dual pred l))). Qed.
Print Assumptions any_all_are_quantifiers.
Theorem map_and_for_each_go_in_order : forall (A B S : Type) (f : S -> A -> S * B) (g : S -> A -> S) l st d,
  map_into f st l d = (fst (in_order f st l), d ++ snd (in_order f st l)) /\
  for_each g st l = fold_left g l st.
Proof. exact (fun A B S f g l st d => conj (map_into_ok f l st d) (for_each_ok g l st)). Qed.
Print Assumptions map_and_for_each_go_in_order.
Theorem map_of_a_pure_function : forall (A B : Type) (f : A -> B) l d,
  map_into (fun (_ : unit) x => (tt, f x)) tt l d = (tt, d ++ map f l).
Proof. exact @map_pure_ok. Qed.
Print Assumptions map_of_a_pure_function.
Example filter_ex :
  filter_container (fun i => 100 + i) Nat.even [1;2;4;3;6] = Ret [2;4;6] /\
  std_remove_if (fun i => 100 + i) (fun x => negb (Nat.even x)) [1;2;4;3;6] = Ret ([2;4;6;3;104], 3) /\
  count_if Nat.even [1;2;4;3;6] = 3 /\ any Nat.even [1;3] = false /\ all Nat.even [2;3] = false /\
  map_into (fun st x => (st + x, st)) 0 [5;6;7] [9] = (18, [9;0;5;11]).
Proof. repeat split. Qed.

(** C36 *)
Theorem min_max_return_first_extreme : forall (A : Type) (less : A -> A -> bool) l,
  strict_weak_order less -> l <> [] ->
  (exists i x, min_of less l = Ret (i, x) /\ first_min less l i x) /\
  (exists i x, max_of less l = Ret (i, x) /\ first_max less l i x).
Proof. exact (fun A less l O N => conj (min_ok less l O N) (max_ok less l O N)). Qed.
Print Assumptions min_max_return_first_extreme.
Theorem min_max_of_empty_undefined : forall (A : Type) (less : A -> A -> bool),
  min_of less [] = Ub /\ max_of less [] = Ub.
Proof. exact @empty_min_max. Qed.
Print Assumptions min_max_of_empty_undefined.
(** the right argument is returned only if it is strictly smaller / larger *)
Theorem two_value_min_max : forall (A : Type) (less : A -> A -> bool), strict_weak_order less -> forall l r,
  (min2 less l r = true <-> less r l = true) /\ (max2 less l r = true <-> less l r = true) /\
  (less (if min2 less l r then l else r) (if min2 less l r then r else l) = false) /\
  (less (if max2 less l r then r else l) (if max2 less l r then l else r) = false).
Proof. exact @min2_ok. Qed.
Print Assumptions two_value_min_max.
(** order by the first component: ties are told apart by the second *)
Example min_max_ex :
  let less := fun p q : nat * nat => fst p <? fst q in
  min_of less [(3,0);(1,1);(1,2);(3,3)] = Ret (1, (1,1)) /\ max_of less [(3,0);(1,1);(1,2);(3,3)] = Ret (0, (3,0)) /\
  strict_weak_order Nat.ltb.
Proof. split; [reflexivity|split; [reflexivity|exact nat_ltb_swo]]. Qed.

(** C37 *)
Theorem sum_of_wide_signed_type : forall bits, (32 <= bits)%Z -> forall c v,
  ((forall c1 c2, c = c1 ++ c2 -> c1 <> [] -> in_range bits true (v + total c1)) ->
     sum bits true c v = Ret (v + total c)%Z) /\
  (forall c1 c2, c = c1 ++ c2 -> c1 <> [] -> ~ in_range bits true (v + total c1) -> sum bits true c v = Ub).
Proof. exact sum_signed. Qed.
Print Assumptions sum_of_wide_signed_type.
Theorem sum_of_unsigned_or_narrow_type : forall bits sgn, (0 < bits)%Z -> (sgn = false \/ (bits < 32)%Z) ->
  forall c v, in_range bits sgn v ->
  exists r k, sum bits sgn c v = Ret r /\ in_range bits sgn r /\ (r = v + total c + k * 2 ^ bits)%Z.
Proof. exact sum_modular. Qed.
Print Assumptions sum_of_unsigned_or_narrow_type.
Example sum_ex :
  sum 32 true [2147483647; 1; -5]%Z 0 = Ub /\ sum 32 true [2147483647; -5; 1]%Z 0 = Ret 2147483643%Z /\
  sum 16 true [32767; 1]%Z 0 = Ret (-32768)%Z /\ sum 32 false [4294967295; 2]%Z 0 = Ret 1%Z.
Proof. repeat split. Qed.

(** C72 *)
Theorem is_lower_means_no_upper_partial : forall (A : Type) (up low : A -> bool) s,
  is_lower up s = Ret (forallb (fun c => negb (up c)) s) /\
  is_upper low s = Ret (forallb (fun c => negb (low c)) s).
Proof. exact @is_lower_ok. Qed.
Print Assumptions is_lower_means_no_upper_partial.
Theorem is_lower_means_all_lower_refuted : exists (up low : nat -> bool) s, (forall c, up c && low c = false) /\
  is_lower up s <> Ret (forallb low s) /\ is_upper low s <> Ret (forallb up s).
Proof. exact is_lower_differs. Qed.
Print Assumptions is_lower_means_all_lower_refuted.
Example is_lower_ex : is_lower (fun c => c <? 5) [5;6;7] = Ret true /\ is_lower (fun c => c <? 5) [5;4;7] = Ret false.
Proof. split; reflexivity. Qed.

(** C98: [low], [up] are the locale's tolower and toupper, [isup], [islow] its classification *)
Theorem lower_upper_change_every_character : forall (A : Type) (low up : A -> A) s,
  (forall i, nth_error (lower low s) i = option_map low (nth_error s i)) /\
  (forall i, nth_error (upper up s) i = option_map up (nth_error s i)).
Proof. exact @case_change_ok. Qed.
Print Assumptions lower_upper_change_every_character.
Theorem lower_is_lower_upper_is_upper : forall (A : Type) (low up : A -> A) (isup islow : A -> bool) s,
  ((forall c, isup (low c) = false) -> is_lower isup (lower low s) = Ret true) /\
  ((forall c, islow (up c) = false) -> is_upper islow (upper up s) = Ret true).
Proof. exact @lower_is_lower. Qed.
Print Assumptions lower_is_lower_upper_is_upper.
Example lower_upper_ex : upper ascii_up [97; 49; 66; 122]%Z = [65; 49; 66; 90]%Z /\
  (forall c, let islow := fun z => (97 <=? z)%Z && (z <=? 122)%Z in islow (ascii_up c) = false).
Proof. split; [reflexivity|exact ascii_up_lower]. Qed.
