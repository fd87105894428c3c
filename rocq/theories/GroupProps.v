(** Properties C151-C154: numbers in locales that group digits. *)
From Coq Require Import Ascii String List Bool Arith ZArith.
From Verif Require Import Base DigitsSpec LogTextModel LogTextSpec LogTextExamples ConvModel ConvSpec GroupModel GroupSpec GroupProofs GroupExamples.
Import ListNotations.
Local Open Scope nat_scope.
Local Open Scope list_scope.

(** C151.  [p] is the numpunct facet of the global locale. *)
Theorem str_groups_the_digits : forall p v, grouped_decimal (grouping p) (sep p) v (GroupModel.str_int p v).
Proof. exact grouped_proof. Qed.
Print Assumptions str_groups_the_digits.
Theorem str_without_separators_is_the_numeral : forall p v, ~ decimal_digit (sep p) -> sep p <> "-"%char ->
  filter (fun c => negb (Ascii.eqb c (sep p))) (GroupModel.str_int p v) = ConvModel.str_int v.
Proof. exact strip_proof. Qed.
Print Assumptions str_without_separators_is_the_numeral.
Theorem str_without_grouping_is_the_numeral_partial : forall p v, size (grouping p) 0 = None -> GroupModel.str_int p v = ConvModel.str_int v.
Proof. exact no_grouping_proof. Qed.
Print Assumptions str_without_grouping_is_the_numeral_partial.
Theorem str_with_grouping_is_the_numeral_refuted : ~ decimal 1000 (GroupModel.str_int en_US 1000) /\
  ConvModel.str_to_int true 32 (GroupModel.str_int en_US 1000) = Ret 1%Z.
Proof. exact not_decimal. Qed.
Print Assumptions str_with_grouping_is_the_numeral_refuted.
Example str_groups_the_digits_ex : GroupModel.str_int en_US (-1234567) = chars "-1,234,567" /\ GroupModel.str_int hi_IN 123456789 = chars "12,34,56,789" /\
  GroupModel.str_int (Numpunct [3; 127]%Z ".") 123456789 = chars "123456.789" /\ GroupModel.str_int en_US 999 = chars "999".
Proof. exact groups_example. Qed.

(** C152 *)
Theorem str_to_inverts_str_with_grouping : forall p signed w v, (0 < w)%Z -> representable signed w v ->
  ~ decimal_digit (sep p) -> sep p <> "-"%char -> sep p <> "+"%char ->
  GroupModel.str_to_int p signed w (GroupModel.str_int p v) = Ret v.
Proof. exact round_trip_grouped. Qed.
Print Assumptions str_to_inverts_str_with_grouping.
Example str_to_inverts_str_with_grouping_ex : ~ decimal_digit (sep en_US) /\ sep en_US <> "-"%char /\ sep en_US <> "+"%char /\
  representable true 32 (-2147483648) /\ GroupModel.str_to_int en_US true 32 (chars "-2,147,483,648") = Ret (-2147483648)%Z /\
  size (grouping (Numpunct [] ",")) 0 = None.
Proof. exact hypotheses_example. Qed.

(** C153 *)
Theorem str_to_without_separators_partial : forall p signed w s, (grouping p <> [] -> ~ In (sep p) s) ->
  GroupModel.str_to_int p signed w s = ConvModel.str_to_int signed w s.
Proof. exact no_sep_proof. Qed.
Print Assumptions str_to_without_separators_partial.
Theorem str_to_reads_across_separators : forall p signed w v sign groups rest, (0 < w)%Z -> representable signed w v -> grouping p <> [] ->
  ~ decimal_digit (sep p) -> sep p <> "-"%char -> sep p <> "+"%char ->
  Forall (Forall decimal_digit) groups -> Forall (fun x => x <> []) groups -> groups <> [] ->
  (match rest with c :: _ => ~ decimal_digit c /\ c <> sep p | [] => True end) ->
  (exists m, read 10 (concat groups) = Some m /\ ((sign = [] \/ sign = ["+"%char]) /\ v = m \/ sign = ["-"%char] /\ v = (- m)%Z)) ->
  GroupModel.str_to_int p signed w (sign ++ separated (sep p) groups ++ rest) = Ret v.
Proof. exact read_groups. Qed.
Print Assumptions str_to_reads_across_separators.
Theorem str_to_ignores_separators : forall p signed w ws c s d u, Forall blank ws -> ~ blank c -> grouping p <> [] ->
  filter (fun x => negb (Ascii.eqb x (sep p))) (c :: s) = d :: u -> ~ blank d ->
  GroupModel.str_to_int p signed w (ws ++ c :: s) = ConvModel.str_to_int signed w (d :: u).
Proof. exact ignore_proof. Qed.
Print Assumptions str_to_ignores_separators.
Theorem str_to_reads_the_number_across_separators : forall p signed w v ws c s, (0 < w)%Z -> Forall blank ws -> ~ blank c -> grouping p <> [] ->
  begins_with_number v (filter (fun x => negb (Ascii.eqb x (sep p))) (c :: s)) ->
  match filter (fun x => negb (Ascii.eqb x (sep p))) (c :: s) with d :: _ => ~ blank d | [] => True end ->
  (signed = true \/ (0 <= v)%Z) -> exists r, GroupModel.str_to_int p signed w (ws ++ c :: s) = Ret r /\ nearest signed w v r.
Proof. exact nearest_groups. Qed.
Print Assumptions str_to_reads_the_number_across_separators.
Theorem str_to_of_separators_is_zero : forall p signed w ws c s, (0 < w)%Z -> Forall blank ws -> ~ blank c -> grouping p <> [] ->
  Forall (fun x => x = sep p) (c :: s) -> GroupModel.str_to_int p signed w (ws ++ c :: s) = Ret 0%Z.
Proof. exact only_seps_proof. Qed.
Print Assumptions str_to_of_separators_is_zero.
Theorem str_to_of_separators_and_white_space_is_zero : forall p signed w ws c s d u, (0 < w)%Z -> Forall blank ws -> ~ blank c -> grouping p <> [] ->
  filter (fun x => negb (Ascii.eqb x (sep p))) (c :: s) = d :: u -> blank d ->
  GroupModel.str_to_int p signed w (ws ++ c :: s) = Ret 0%Z.
Proof. exact sep_blank_proof. Qed.
Print Assumptions str_to_of_separators_and_white_space_is_zero.
Theorem str_to_of_every_text_with_grouping : forall p signed w s, (0 < w)%Z -> grouping p <> [] ->
  Forall blank s /\ GroupModel.str_to_int p signed w s = Ub \/
  exists ws c r, s = ws ++ c :: r /\ Forall blank ws /\ ~ blank c /\
  match filter (fun x => negb (Ascii.eqb x (sep p))) (c :: r) with
  | [] => GroupModel.str_to_int p signed w s = Ret 0%Z
  | d :: u => blank d /\ GroupModel.str_to_int p signed w s = Ret 0%Z \/ ~ blank d /\ GroupModel.str_to_int p signed w s = ConvModel.str_to_int signed w (d :: u)
  end.
Proof. exact every_text_proof. Qed.
Print Assumptions str_to_of_every_text_with_grouping.
Example str_to_ignores_separators_ex : filter (fun x => negb (Ascii.eqb x (sep en_US))) (chars ",-9,99,9,99999999 km") = chars "-999999999999 km" /\
  begins_with_number (-999999999999) (chars "-999999999999 km") /\
  GroupModel.str_to_int en_US true 32 (chars " ,-9,99,9,99999999 km") = Ret (-2147483648)%Z /\ nearest true 32 (-999999999999) (-2147483648) /\
  GroupModel.str_to_int en_US true 32 (chars ",, 5") = Ret 0%Z /\ GroupModel.str_to_int en_US false 32 (chars ",,") = Ret 0%Z.
Proof. exact ignore_example. Qed.
Theorem str_to_stops_after_the_number_refuted : begins_with_number 1 (chars "1,5") /\ GroupModel.str_to_int en_US true 32 (chars "1,5") = Ret 15%Z /\
  GroupModel.str_to_int en_US true 32 (chars "10,20,30") = Ret 102030%Z /\ ConvModel.str_to_int true 32 (chars "1,5") = Ret 1%Z.
Proof. exact comma_example. Qed.
Print Assumptions str_to_stops_after_the_number_refuted.
Example str_to_reads_across_separators_ex : Forall (Forall decimal_digit) [chars "10"; chars "20"] /\ Forall (fun x => x <> []) [chars "10"; chars "20"] /\
  read 10 (concat [chars "10"; chars "20"]) = Some 1020%Z /\ separated "," [chars "10"; chars "20"] = chars "10,20".
Proof. exact read_example. Qed.

(** C154.  [num] is any way in which the file stream may write integers. *)
Theorem log_line_with_any_numbers : forall num hide e s, out (log_writer num hide e s) = out s ++ log_row_num num hide e.
Proof. exact row_num_proof. Qed.
Print Assumptions log_line_with_any_numbers.
Theorem log_line_columns_exactly_if_the_numbers_fit : forall num hide e, plain_tm (t_local e) ->
  (columns (widths hide) "|" (log_row_num num hide e) (l_message e) <->
   List.length (num (Z.rem (t_micros e) 1000000)) <= 6 /\ List.length (num (l_thread e)) <= 7 /\ (hide = false -> List.length (num (l_line e)) <= 5)).
Proof. exact columns_num_proof. Qed.
Print Assumptions log_line_columns_exactly_if_the_numbers_fit.
Theorem log_line_columns_with_thousands_partial : forall sep hide e, plain_tm (t_local e) -> (0 <= t_micros e)%Z -> (0 <= l_thread e)%Z -> (0 <= l_line e)%Z ->
  (columns (widths hide) "|" (log_row_num (put_int (Numpunct [3%Z] sep)) hide e) (l_message e) <->
   (t_micros e mod 1000000 < 100000)%Z /\ (l_thread e < 1000000)%Z /\ (hide = false -> (l_line e < 10000)%Z)).
Proof. exact thousands_columns. Qed.
Print Assumptions log_line_columns_with_thousands_partial.
Theorem log_line_columns_with_grouping_refuted : fits_columns fraction /\
  (forall s, out (log_writer (put_int en_US) true fraction s) = out s ++ chars "2024-02-29 23:05:09.123,456|  1,234|Warning |disk almost full") /\
  ~ columns (widths true) "|" (chars "2024-02-29 23:05:09.123,456|  1,234|Warning |disk almost full") (l_message fraction).
Proof. exact fraction_row. Qed.
Print Assumptions log_line_columns_with_grouping_refuted.
Example log_line_columns_with_thousands_ex : fits_columns small_fraction /\
  (forall s, out (log_writer (put_int en_US) true small_fraction s) = out s ++ chars "2024-02-29 23:05:09.12,345|  1,234|Warning |disk almost full") /\
  columns (widths true) "|" (chars "2024-02-29 23:05:09.12,345|  1,234|Warning |disk almost full") (l_message small_fraction) /\
  out (log_writer dec true small_fraction (Stream [] 0 " " false)) = chars "2024-02-29 23:05:09.012345|   1234|Warning |disk almost full".
Proof. exact small_fraction_row. Qed.
