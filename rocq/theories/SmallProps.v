From Coq Require Import List Bool Arith ZArith Lia.
From Verif Require Import Base SeqModel SeqSpec SmallModel SmallSpec SmallProofs.
Import ListNotations.
Open Scope nat_scope.

(** C38 *)
Theorem abs_is_absolute_value_partial : forall bits sgn v, (0 < bits)%Z -> in_range bits sgn v ->
  (sgn = true -> v <> - 2 ^ (bits - 1))%Z -> abs bits sgn v = Ret (Z.abs v).
Proof. exact abs_ok. Qed.
Print Assumptions abs_is_absolute_value_partial.
Theorem abs_of_the_minimum : forall bits, (0 < bits)%Z ->
  (bits < 32 -> abs bits true (- 2 ^ (bits - 1)) = Ret (- 2 ^ (bits - 1)))%Z /\
  (32 <= bits -> abs bits true (- 2 ^ (bits - 1)) = Ub)%Z.
Proof. exact abs_min. Qed.
Print Assumptions abs_of_the_minimum.
Theorem abs_is_not_negative_refuted : exists bits v, (0 < bits)%Z /\ in_range bits true v /\
  forall r, abs bits true v = Ret r -> (r < 0)%Z.
Proof. exact abs_differs. Qed.
Print Assumptions abs_is_not_negative_refuted.
Example abs_ex : abs 32 true (-2147483647) = Ret 2147483647%Z /\ in_range 32 true (-2147483647) /\
  abs 32 true (-2147483648) = Ub /\ abs 8 true (-128) = Ret (-128)%Z /\ abs 8 false 200 = Ret 200%Z.
Proof. repeat split; vm_compute; congruence. Qed.

(** C39 *)
Theorem range_less_is_lexicographic : forall (T : Type) (ltb leb eqb : T -> T -> bool), total_order ltb leb eqb ->
  forall a b, op_lt ltb eqb a b = true <->
    (ltb (rbegin a) (rbegin b) = true \/ (rbegin a = rbegin b /\ ltb (rend a) (rend b) = true)).
Proof. exact @less_lex. Qed.
Print Assumptions range_less_is_lexicographic.
Theorem range_less_is_total_order : forall (T : Type) (ltb leb eqb : T -> T -> bool), total_order ltb leb eqb ->
  (forall a, op_lt ltb eqb a a = false) /\
  (forall a b c, op_lt ltb eqb a b = true -> op_lt ltb eqb b c = true -> op_lt ltb eqb a c = true) /\
  (forall a b : range T, a = b \/ op_lt ltb eqb a b = true \/ op_lt ltb eqb b a = true).
Proof. exact @less_total. Qed.
Print Assumptions range_less_is_total_order.
Theorem range_operators_are_consistent : forall (T : Type) (ltb leb eqb : T -> T -> bool), total_order ltb leb eqb ->
  forall a b : range T,
  (op_eq eqb a b = true <-> a = b) /\ op_ne eqb a b = negb (op_eq eqb a b) /\
  op_gt ltb eqb a b = op_lt ltb eqb b a /\
  (op_le ltb eqb a b = true <-> op_lt ltb eqb a b = true \/ a = b) /\
  (op_ge ltb eqb a b = true <-> op_gt ltb eqb a b = true \/ a = b).
Proof. exact @operators_ok. Qed.
Print Assumptions range_operators_are_consistent.
Example range_order_ex : total_order Z.ltb Z.leb Z.eqb /\
  op_lt Z.ltb Z.eqb (Range 1 5)%Z (Range 1 6)%Z = true /\ op_lt Z.ltb Z.eqb (Range 1 5)%Z (Range 2 3)%Z = true /\
  op_le Z.ltb Z.eqb (Range 2 3)%Z (Range 1 5)%Z = false /\ op_ge Z.ltb Z.eqb (Range 2 3)%Z (Range 2 3)%Z = true.
Proof. split; [exact Z_total_order|repeat split]. Qed.

(** C40 *)
Theorem overlap_before_after_partition : forall (T : Type) (ltb leb eqb : T -> T -> bool), total_order ltb leb eqb ->
  forall a b, well_formed leb a -> well_formed leb b ->
  (is_less_no_overlap leb eqb a b = true /\ is_less_no_overlap leb eqb b a = false /\ is_overlapping ltb eqb a b = false) \/
  (is_less_no_overlap leb eqb a b = false /\ is_less_no_overlap leb eqb b a = true /\ is_overlapping ltb eqb a b = false) \/
  (is_less_no_overlap leb eqb a b = false /\ is_less_no_overlap leb eqb b a = false /\ is_overlapping ltb eqb a b = true).
Proof. exact @partition. Qed.
Print Assumptions overlap_before_after_partition.
Theorem overlap_is_symmetric_and_reflexive : forall (T : Type) (ltb leb eqb : T -> T -> bool), total_order ltb leb eqb ->
  forall a b, is_overlapping ltb eqb a b = is_overlapping ltb eqb b a /\ is_overlapping ltb eqb a a = true.
Proof. exact @overlap_sym. Qed.
Print Assumptions overlap_is_symmetric_and_reflexive.
Theorem overlap_means_shared_point : forall (T : Type) (ltb leb eqb : T -> T -> bool), total_order ltb leb eqb ->
  forall a b, non_empty ltb a -> non_empty ltb b ->
  (is_overlapping ltb eqb a b = true <-> exists p, has ltb leb a p /\ has ltb leb b p).
Proof. exact @overlap_shared_point. Qed.
Print Assumptions overlap_means_shared_point.
Theorem reversed_ranges_are_both_less_refuted : exists a b : range Z,
  is_less_no_overlap Z.leb Z.eqb a b = true /\ is_less_no_overlap Z.leb Z.eqb b a = true.
Proof. exact reversed_both_less. Qed.
Print Assumptions reversed_ranges_are_both_less_refuted.
Example overlap_ex : is_overlapping Z.ltb Z.eqb (Range 1 4)%Z (Range 3 5)%Z = true /\
  is_overlapping Z.ltb Z.eqb (Range 1 3)%Z (Range 3 5)%Z = false /\ is_less_no_overlap Z.leb Z.eqb (Range 1 3)%Z (Range 3 5)%Z = true /\
  well_formed Z.leb (Range 3 3)%Z /\ is_overlapping Z.ltb Z.eqb (Range 3 3)%Z (Range 3 5)%Z = true /\ non_empty Z.ltb (Range 1 4)%Z.
Proof. repeat split. Qed.

(** C41.  Irreflexive, transitive, and total on pairwise non-overlapping ranges; but overlapping is not
    transitive, so it is not a strict weak order. *)
Theorem less_no_overlap_is_partial_order_partial : forall (T : Type) (ltb leb eqb : T -> T -> bool), total_order ltb leb eqb ->
  (forall a, is_less_no_overlap leb eqb a a = false) /\
  (forall a b c, well_formed leb a -> well_formed leb b -> well_formed leb c ->
     is_less_no_overlap leb eqb a b = true -> is_less_no_overlap leb eqb b c = true ->
     is_less_no_overlap leb eqb a c = true) /\
  (forall a b, well_formed leb a -> well_formed leb b -> is_overlapping ltb eqb a b = false ->
     is_less_no_overlap leb eqb a b = true \/ is_less_no_overlap leb eqb b a = true).
Proof. exact @nless_partial_order. Qed.
Print Assumptions less_no_overlap_is_partial_order_partial.
Theorem less_no_overlap_is_weak_order_refuted : ~ (forall a b c : range Z,
  (rbegin a <= rend a)%Z -> (rbegin b <= rend b)%Z -> (rbegin c <= rend c)%Z ->
  let lt := is_less_no_overlap Z.leb Z.eqb in
  lt a b = false -> lt b a = false -> lt b c = false -> lt c b = false -> lt a c = false /\ lt c a = false).
Proof. exact nless_not_swo. Qed.
Print Assumptions less_no_overlap_is_weak_order_refuted.
Example less_no_overlap_ex : let lt := is_less_no_overlap Z.leb Z.eqb in
  lt (Range 0 2)%Z (Range 2 3)%Z = true /\ lt (Range 2 3)%Z (Range 3 3)%Z = true /\ lt (Range 0 2)%Z (Range 3 3)%Z = true.
Proof. repeat split. Qed.

(** C73 *)
Theorem range_size_is_distance_partial : forall bits sgn (a : range Z), (32 <= bits)%Z -> (rbegin a <= rend a)%Z ->
  in_range bits sgn (rbegin a) -> in_range bits sgn (rend a) ->
  (sgn = true -> rend a - rbegin a < 2 ^ (bits - 1))%Z ->
  range_size bits sgn a = Ret (rend a - rbegin a)%Z.
Proof. exact range_size_ok. Qed.
Print Assumptions range_size_is_distance_partial.
Theorem range_size_is_defined_refuted : exists a : range Z, (rbegin a <= rend a)%Z /\
  in_range 32 true (rbegin a) /\ in_range 32 true (rend a) /\ range_size 32 true a = Ub.
Proof. exact range_size_overflows. Qed.
Print Assumptions range_size_is_defined_refuted.
Example range_size_ex : range_size 32 true (Range (-5) 2147483642)%Z = Ret 2147483647%Z /\
  range_size 32 false (Range 0 4294967295)%Z = Ret 4294967295%Z.
Proof. split; reflexivity. Qed.

(** C69 *)
Theorem file_name_is_last_component : forall path rest, Forall (fun c => c <> 0%Z) path ->
  exists n, file_name (path ++ 0%Z :: rest) = Ret n /\ n <= length path /\ last_component path (skipn n path).
Proof. exact file_name_ok. Qed.
Print Assumptions file_name_is_last_component.
(** "a/b\\c.h" *)
Example file_name_ex : file_name [97; 47; 98; 92; 99; 46; 104; 0; 7]%Z = Ret 4 /\ file_name [97; 47; 0]%Z = Ret 2 /\
  file_name [97; 0]%Z = Ret 0.
Proof. repeat split. Qed.
