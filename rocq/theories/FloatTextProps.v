(** Properties of str and str_to of floating-point numbers. *)
From Coq Require Import Ascii String List Bool ZArith QArith Qabs Floats.SpecFloat.
From Verif Require Import Base DigitsSpec ConvSpec LogTextModel FloatSpec FloatTextModel FloatTextSpec FloatTextProofs FloatTextUse.
Import ListNotations.
Local Open Scope list_scope.
Local Open Scope Z_scope.

(** C155: str of a number other than zero shows the nearest decimal number of six digits, ties to even *)
Theorem str_float_shows_six_digits prec emax x : a_format prec emax -> number prec emax x -> is_finite x = true -> units prec emax x <> 0 ->
  exists d k t m e, str_float prec emax x = (if sign x then ["-"%char] else []) ++ t /\ 100000 <= d < 1000000 /\
  nearest_decimal 6 (Qabs (value prec emax x)) d (k - 5) /\ number_text m e t /\ (decimal_value m e == decimal_value d (k - 5))%Q /\ form k t.
Proof. exact (fun F => six_digits_shown prec emax F x). Qed.
Print Assumptions str_float_shows_six_digits.

(** C155: the text is off by five millionths at most *)
Theorem str_float_error prec emax x : a_format prec emax -> number prec emax x -> is_finite x = true ->
  exists sg m e t, str_float prec emax x = sg ++ t /\ sign_text (sign x) sg /\ number_text m e t /\
  (Qabs (inject_Z (if sign x then -1 else 1) * decimal_value m e - value prec emax x) <= (1 # 200000) * Qabs (value prec emax x))%Q.
Proof. exact (fun F => shown_error prec emax F x). Qed.
Print Assumptions str_float_error.

(** C155: integers of up to six digits are written like integers, and read back *)
Theorem str_float_of_integer prec emax x n : a_format prec emax -> 2 * 10 ^ 6 < 2 ^ (prec - 1) -> number prec emax x -> is_finite x = true ->
  units prec emax x = n * one prec emax -> n <> 0 -> Z.abs n < 10 ^ 6 ->
  decimal n (str_float prec emax x) /\ str_to_float prec emax (str_float prec emax x) = Ret x.
Proof. exact (fun F => integer_shown prec emax F x n). Qed.
Print Assumptions str_float_of_integer.

(** C155: zeros keep their sign *)
Theorem str_float_of_others prec emax :
  (forall s, str_float prec emax (S754_zero s) = chars (if s then "-0" else "0")) /\
  (forall s, str_float prec emax (S754_infinity s) = chars (if s then "-inf" else "inf")) /\ str_float prec emax S754_nan = chars "nan".
Proof. exact (other_shown prec emax). Qed.
Print Assumptions str_float_of_others.

(** C156: str_to of a decimal number is the nearest number, ties to even *)
Theorem str_to_float_nearest prec emax ws s sg m e t rest : a_format prec emax -> Forall blank ws -> sign_text s sg -> number_text m e t -> ends_number rest ->
  exists x, str_to_float prec emax (ws ++ sg ++ t ++ rest) = Ret x /\ sign x = s /\
  nearest_number prec emax (inject_Z (if s then -1 else 1) * decimal_value m e) x.
Proof. exact (fun F => read_nearest_proof prec emax F ws s sg m e t rest). Qed.
Print Assumptions str_to_float_nearest.

(** C156: beyond the largest number str_to gives the largest number, not an infinity *)
Theorem str_to_float_overflow prec emax ws s sg m e t rest : a_format prec emax -> Forall blank ws -> sign_text s sg -> number_text m e t -> ends_number rest ->
  overflows prec emax (inject_Z (if s then -1 else 1) * decimal_value m e) ->
  exists x, str_to_float prec emax (ws ++ sg ++ t ++ rest) = Ret x /\ sign x = s /\ number prec emax x /\ is_finite x = true /\
  (forall y, number prec emax y -> is_finite y = true -> Z.abs (units prec emax y) <= Z.abs (units prec emax x)).
Proof. exact (fun F => read_overflow_proof prec emax F ws s sg m e t rest). Qed.
Print Assumptions str_to_float_overflow.

(** C156: a text that does not begin with a number is read as zero *)
Theorem str_to_float_without_number prec emax ws c s : Forall blank ws -> ~ blank c -> ~ decimal_digit c -> c <> "-"%char -> c <> "+"%char -> c <> "."%char ->
  str_to_float prec emax (ws ++ c :: s) = Ret (S754_zero false).
Proof. exact (str_to_other prec emax ws c s). Qed.
Print Assumptions str_to_float_without_number.

(** C156: and so is a number that ends in an exponent without digits *)
Theorem str_to_float_without_exponent prec emax ws s sg m t c esg rest : Forall blank ws -> sign_text s sg ->
  (exists f, number_text m (- Z.of_nat f) t /\ ~ In "e"%char t /\ ~ In "E"%char t) -> (c = "e" \/ c = "E")%char ->
  (esg = [] \/ esg = ["-"%char] \/ esg = ["+"%char]) ->
  (match rest with c :: _ => ~ decimal_digit c /\ (esg = [] -> c <> "-"%char /\ c <> "+"%char) | [] => True end) ->
  str_to_float prec emax (ws ++ sg ++ t ++ c :: esg ++ rest) = Ret (S754_zero false).
Proof. exact (str_to_no_exponent prec emax ws s sg m t c esg rest). Qed.
Print Assumptions str_to_float_without_exponent.

(** C156: the result is undefined exactly for blank texts *)
Theorem str_to_float_undefined prec emax s : str_to_float prec emax s = Ub <-> Forall blank s.
Proof. exact (str_to_blank prec emax s). Qed.
Print Assumptions str_to_float_undefined.

(** C156: the text of an infinity is not read as one *)
Theorem str_to_float_infinity_refuted : exists x, number 53 1024 x /\ is_finite x = false /\
  str_to_float 53 1024 (chars "inf") = Ret (S754_zero false) /\ str_float 53 1024 x = chars "inf".
Proof. exact read_inf_refuted_proof. Qed.
Print Assumptions str_to_float_infinity_refuted.

(** C157: str_to does not undo str *)
Theorem str_to_float_inverts_str_refuted : exists x y, number 53 1024 x /\ is_finite x = true /\ units 53 1024 x = 1234567 * one 53 1024 /\
  str_float 53 1024 x = chars "1.23457e+06" /\ str_to_float 53 1024 (str_float 53 1024 x) = Ret y /\ units 53 1024 y = 1234570 * one 53 1024.
Proof. exact inverts_refuted_proof. Qed.
Print Assumptions str_to_float_inverts_str_refuted.

(** C157: it does for the nearest numbers of decimal numbers of up to six digits *)
Theorem str_to_float_inverts_str_of_six_digits prec emax x m e : a_format prec emax -> 2 * 10 ^ 6 < 2 ^ (prec - 1) -> 0 < m < 10 ^ 6 -> normal prec emax x ->
  ~ overflows prec emax (inject_Z (if sign x then -1 else 1) * decimal_value m e) ->
  nearest_number prec emax (inject_Z (if sign x then -1 else 1) * decimal_value m e) x ->
  str_to_float prec emax (str_float prec emax x) = Ret x.
Proof. exact (fun F P => round_trip prec emax F P x m e). Qed.
Print Assumptions str_to_float_inverts_str_of_six_digits.

(** C157: and only for them *)
Theorem str_to_float_inverts_str_only prec emax x : a_format prec emax -> number prec emax x -> is_finite x = true -> str_to_float prec emax (str_float prec emax x) = Ret x ->
  exists m e, 0 <= m < 10 ^ 6 /\ nearest_number prec emax (inject_Z (if sign x then -1 else 1) * decimal_value m e) x.
Proof. exact (fun F => back_only prec emax F x). Qed.
Print Assumptions str_to_float_inverts_str_only.

(** C157: the numbers below 10^5 times the least positive number are among them *)
Theorem str_to_float_inverts_str_of_small prec emax x : a_format prec emax -> number prec emax x -> is_finite x = true -> Z.abs (units prec emax x) < 10 ^ 5 ->
  str_to_float prec emax (str_float prec emax x) = Ret x.
Proof. exact (fun F => back_small prec emax F x). Qed.
Print Assumptions str_to_float_inverts_str_of_small.

(** C157: the others are off by a hundred-thousandth at most *)
Theorem str_to_float_of_str_error prec emax x : a_format prec emax -> number prec emax x -> is_finite x = true ->
  exists y, str_to_float prec emax (str_float prec emax x) = Ret y /\ number prec emax y /\ is_finite y = true /\ sign y = sign x /\
  (Qabs (value prec emax y - value prec emax x) <= (1 # 100000) * Qabs (value prec emax x))%Q.
Proof. exact (fun F => back_error prec emax F x). Qed.
Print Assumptions str_to_float_of_str_error.

(** C157: a text of up to six digits is read and written back as the same number *)
Theorem str_of_str_to_float prec emax ws s sg m e t rest : a_format prec emax -> 2 * 10 ^ 6 < 2 ^ (prec - 1) ->
  Forall blank ws -> sign_text s sg -> number_text m e t -> ends_number rest -> 0 < m < 10 ^ 6 ->
  ~ overflows prec emax (inject_Z (if s then -1 else 1) * decimal_value m e) ->
  exists x, str_to_float prec emax (ws ++ sg ++ t ++ rest) = Ret x /\
  (normal prec emax x -> exists m' e' t', str_float prec emax x = (if s then ["-"%char] else []) ++ t' /\ number_text m' e' t' /\
     (decimal_value m' e' == decimal_value m e)%Q /\ str_to_float prec emax (str_float prec emax x) = Ret x).
Proof. exact (fun F P => text_round_trip prec emax F P ws s sg m e t rest). Qed.
Print Assumptions str_of_str_to_float.

(** C157: infinities and NaN come back as zero *)
Theorem str_to_float_of_str_not_finite prec emax x : is_finite x = false -> str_to_float prec emax (str_float prec emax x) = Ret (S754_zero false).
Proof. exact (back_not_finite prec emax x). Qed.
Print Assumptions str_to_float_of_str_not_finite.
