(** Properties C101-C104: conversions of values to and from text. *)
From Coq Require Import Ascii String List Bool Arith ZArith.
From Verif Require Import Base DigitsSpec LogTextModel ConvModel ConvSpec ConvProofs ConvExamples.
Import ListNotations.
Open Scope list_scope.

(** C101 *)
Theorem str_writes_the_decimal_numeral : forall v, decimal v (str_int v).
Proof. exact decimal_proof. Qed.
Print Assumptions str_writes_the_decimal_numeral.
Theorem str_to_inverts_str : forall signed w v, (0 < w)%Z -> representable signed w v -> str_to_int signed w (str_int v) = Ret v.
Proof. exact round_trip_proof. Qed.
Print Assumptions str_to_inverts_str.
Theorem str_to_inverts_str_bool : forall b, str_to_bool (str_bool b) = Ret b.
Proof. exact round_trip_bool. Qed.
Print Assumptions str_to_inverts_str_bool.
Theorem str_of_bool : forall b, str_bool b = [if b then "1"%char else "0"%char].
Proof. exact bool_written. Qed.
Print Assumptions str_of_bool.
Example str_to_inverts_str_ex : representable true 32 (-2147483648) /\ str_int (-2147483648) = chars "-2147483648" /\
  str_to_int true 32 (chars "-2147483648") = Ret (-2147483648)%Z /\ representable false 64 18446744073709551615 /\
  str_to_int false 64 (str_int 18446744073709551615) = Ret 18446744073709551615%Z.
Proof. exact extremes. Qed.

(** C102 *)
Theorem str_to_reads_the_number_partial : forall signed w v s, (0 < w)%Z -> begins_with_number v s -> (signed = true \/ (0 <= v)%Z) ->
  exists r, str_to_int signed w s = Ret r /\ nearest signed w v r.
Proof. exact number_proof. Qed.
Print Assumptions str_to_reads_the_number_partial.
Theorem str_to_bool_reads_the_number : forall v s, begins_with_number v s -> str_to_bool s = Ret (negb (v =? 0)%Z).
Proof. exact bool_number. Qed.
Print Assumptions str_to_bool_reads_the_number.
Theorem str_to_of_other_text_is_zero : forall signed w ws c s, (0 < w)%Z -> Forall blank ws -> ~ blank c -> ~ decimal_digit c ->
  c <> "-"%char -> c <> "+"%char -> str_to_int signed w (ws ++ c :: s) = Ret 0%Z.
Proof. exact no_number_proof. Qed.
Print Assumptions str_to_of_other_text_is_zero.
Theorem str_to_unsigned_of_negative_refuted : exists s, begins_with_number (-1) s /\
  str_to_int false 32 s = Ret 4294967295%Z /\ nearest false 32 (-1) 0.
Proof. exact negative_unsigned. Qed.
Print Assumptions str_to_unsigned_of_negative_refuted.
Example str_to_reads_the_number_ex : begins_with_number (-40000) (chars " -40000 km") /\
  str_to_int true 32 (chars " -40000 km") = Ret (-40000)%Z /\ str_to_int true 16 (chars " -40000 km") = Ret (-32768)%Z /\
  str_to_int true 32 (chars " 4e2") = Ret 4%Z /\ str_to_int true 32 (chars "four") = Ret 0%Z.
Proof. exact numbers. Qed.

(** C103 *)
Theorem str_to_is_defined_refuted : str_to_int true 32 [] = Ub /\ str_to_char (chars " ") = Ub /\ str_to_bool (chars " ") = Ub.
Proof. exact undefined. Qed.
Print Assumptions str_to_is_defined_refuted.
Theorem str_to_is_defined_partial : forall s, ~ Forall blank s ->
  (forall signed w, exists v, str_to_int signed w s = Ret v) /\ (exists b, str_to_bool s = Ret b) /\ (exists c, str_to_char s = Ret c).
Proof. exact all_defined. Qed.
Print Assumptions str_to_is_defined_partial.
Theorem str_to_is_undefined_exactly_on_blank_text : forall s,
  (forall signed w, str_to_int signed w s = Ub <-> Forall blank s) /\ (str_to_bool s = Ub <-> Forall blank s) /\ (str_to_char s = Ub <-> Forall blank s).
Proof. exact all_ub. Qed.
Print Assumptions str_to_is_undefined_exactly_on_blank_text.
Example str_to_is_defined_ex : ~ Forall blank (chars "  x ") /\ str_to_char (chars "  x ") = Ret "x"%char.
Proof. exact defined_example. Qed.

(** C104 *)
Theorem str_to_string_reads_the_first_word : forall s, exists ws word rest, s = ws ++ word ++ rest /\ str_to_string s = Ret word /\
  Forall blank ws /\ Forall (fun c => ~ blank c) word /\ (word = [] -> rest = []) /\ match rest with c :: _ => blank c | [] => True end.
Proof. exact string_proof. Qed.
Print Assumptions str_to_string_reads_the_first_word.
Theorem str_to_string_inverts_str_partial : forall s, str_to_string (str_string s) = Ret s <-> Forall (fun c => ~ blank c) s.
Proof. exact string_round_trip. Qed.
Print Assumptions str_to_string_inverts_str_partial.
Theorem str_to_char_reads_the_first_character : forall ws c s, Forall blank ws -> ~ blank c -> str_to_char (ws ++ c :: s) = Ret c.
Proof. exact char_first. Qed.
Print Assumptions str_to_char_reads_the_first_character.
Theorem str_to_char_inverts_str_partial : forall c,
  (~ blank c -> str_to_char (str_char c) = Ret c) /\ (blank c -> str_to_char (str_char c) = Ub).
Proof. exact char_proof. Qed.
Print Assumptions str_to_char_inverts_str_partial.
Theorem str_to_string_inverts_str_refuted : str_to_string (str_string (chars "New York")) = Ret (chars "New").
Proof. exact new_york. Qed.
Print Assumptions str_to_string_inverts_str_refuted.
