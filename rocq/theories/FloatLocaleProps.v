(** Property C190: str and str_to of floating-point numbers in locales with another decimal point or grouping. *)
From Coq Require Import Ascii String List Bool ZArith QArith Qabs Floats.SpecFloat.
From Verif Require Import Base DigitsSpec ConvSpec LogTextModel GroupModel GroupSpec GroupExamples FloatModel FloatSpec FloatTextModel FloatTextSpec FloatTextExamples
  FloatLocaleModel FloatLocaleSpec FloatLocaleProofs FloatLocaleUse FloatLocaleExamples.
Import ListNotations.
Local Open Scope list_scope.
Local Open Scope Z_scope.
Notation str_in := FloatLocaleModel.str_float.
Notation str_to_in := FloatLocaleModel.str_to_float.

(** str writes the number of the classic locale with groups before the point and the locale's point *)
Theorem str_float_in_a_locale prec emax (p : floatpunct) x : a_format prec emax -> number prec emax x -> is_finite x = true ->
  localised (grouping p) (sep p) (point p) (FloatTextModel.str_float prec emax x) (str_in prec emax p x).
Proof. exact (fun F => localised_proof prec emax F p x). Qed.
Print Assumptions str_float_in_a_locale.
Theorem str_float_not_finite_in_a_locale prec emax (p : floatpunct) x : is_finite x = false -> str_in prec emax p x = FloatTextModel.str_float prec emax x.
Proof. exact (not_finite_shown prec emax p x). Qed.
Print Assumptions str_float_not_finite_in_a_locale.

(** integers of up to six digits are written like integers *)
Theorem str_float_of_integer_in_a_locale prec emax (p : floatpunct) x n : a_format prec emax -> number prec emax x -> is_finite x = true -> 2 * 10 ^ 6 < 2 ^ (prec - 1) ->
  units prec emax x = n * one prec emax -> n <> 0 -> Z.abs n < 10 ^ 6 -> str_in prec emax p x = GroupModel.str_int p n.
Proof. exact (fun F => local_integer prec emax F p x n). Qed.
Print Assumptions str_float_of_integer_in_a_locale.
Example str_float_in_a_locale_ex : let x := of_int 53 1024 (-123456) in number 53 1024 x /\ is_finite x = true /\ units 53 1024 x = -123456 * one 53 1024 /\ str_in 53 1024 us x = GroupModel.str_int en_US (-123456).
Proof. exact integer_example. Qed.

(** without groups and with a point it is the classic locale, for every number and every text *)
Theorem float_text_in_the_classic_locale prec emax (p : floatpunct) : size (grouping p) 0 = None -> point p = "."%char ->
  (forall x, str_in prec emax p x = FloatTextModel.str_float prec emax x) /\ (forall s, str_to_in prec emax p s = FloatTextModel.str_to_float prec emax s).
Proof. exact (fun G P => conj (classic_str p G P prec emax) (classic_str_to p G P prec emax)). Qed.
Print Assumptions float_text_in_the_classic_locale.

(** str_to of a number in a locale is the nearest number, whatever sizes the groups have *)
Theorem str_to_float_nearest_in_a_locale prec emax (p : floatpunct) ws s sg m e t rest : a_format prec emax -> proper (grouping p) (sep p) (point p) -> Forall blank ws -> sign_text s sg ->
  local_number (grouping p) (sep p) (point p) m e t -> ends_local (grouping p) (sep p) (point p) t rest ->
  exists x, str_to_in prec emax p (ws ++ sg ++ t ++ rest) = Ret x /\ sign x = s /\ nearest_number prec emax (inject_Z (if s then -1 else 1) * decimal_value m e) x.
Proof. exact (local_nearest prec emax p ws s sg m e t rest). Qed.
Print Assumptions str_to_float_nearest_in_a_locale.
Theorem str_to_float_same_in_all_locales prec emax (p : floatpunct) ws s sg m e t rest ws' t' rest' : proper (grouping p) (sep p) (point p) -> Forall blank ws -> sign_text s sg ->
  local_number (grouping p) (sep p) (point p) m e t -> ends_local (grouping p) (sep p) (point p) t rest -> Forall blank ws' -> number_text m e t' -> ends_number rest' ->
  str_to_in prec emax p (ws ++ sg ++ t ++ rest) = FloatTextModel.str_to_float prec emax (ws' ++ sg ++ t' ++ rest').
Proof. exact (same_value prec emax p ws s sg m e t rest ws' t' rest'). Qed.
Print Assumptions str_to_float_same_in_all_locales.
Example str_to_float_nearest_in_a_locale_ex : local_number (grouping de) (sep de) (point de) 12345 (-1 + 1) (chars "1.234,5e1") /\ ends_local (grouping de) (sep de) (point de) (chars "1.234,5e1") (chars ".5,7") /\
  localised (grouping de) (sep de) (point de) (chars "-1234.5") (chars "-1.234,5").
Proof. exact number_example. Qed.

(** str_to of what str wrote in the same locale is the same number as in the classic locale (C157 says which) *)
Theorem str_to_float_of_str_in_a_locale prec emax (p : floatpunct) x : a_format prec emax -> proper (grouping p) (sep p) (point p) -> number prec emax x ->
  str_to_in prec emax p (str_in prec emax p x) = FloatTextModel.str_to_float prec emax (FloatTextModel.str_float prec emax x).
Proof. exact (str_back prec emax p x). Qed.
Print Assumptions str_to_float_of_str_in_a_locale.
Example str_to_float_of_str_in_a_locale_ex : proper (grouping us) (sep us) (point us) /\ proper (grouping de) (sep de) (point de) /\ proper (grouping fr) (sep fr) (point fr) /\ ~ proper (grouping bad) (sep bad) (point bad) /\
  size (grouping fr) 0 = None /\ size (grouping de) 0 <> None.
Proof. exact proper_example. Qed.
(** not if the separator is the point *)
Theorem str_to_float_of_str_with_one_separator_refuted : exists p x y, number 53 1024 x /\ is_finite x = true /\ str_to_in 53 1024 p (str_in 53 1024 p x) = Ret y /\ y <> x /\
  FloatTextModel.str_to_float 53 1024 (FloatTextModel.str_float 53 1024 x) = Ret x.
Proof. exact confusing_refuted. Qed.
Print Assumptions str_to_float_of_str_with_one_separator_refuted.

(** a number written in one locale is another number in another one *)
Theorem str_to_float_of_another_locale_refuted : str_to_in 53 1024 de (chars "3.14") = Ret (read_double "314") /\ FloatTextModel.str_to_float 53 1024 (str_in 53 1024 de (read_double "3.14")) = Ret (read_double "3") /\
  FloatTextModel.str_to_float 53 1024 (str_in 53 1024 us (read_double "123456")) = Ret (read_double "123") /\ str_in 53 1024 de (read_double "3.14") = chars "3,14".
Proof. exact other_locale. Qed.
Print Assumptions str_to_float_of_another_locale_refuted.
(** but a text without a point and without separators is the same *)
Theorem str_to_float_without_a_point prec emax (p : floatpunct) s : ~ In "."%char s -> ~ In (point p) s -> (size (grouping p) 0 <> None -> ~ In (sep p) s) ->
  str_to_in prec emax p s = FloatTextModel.str_to_float prec emax s.
Proof. exact (plain_same prec emax p s). Qed.
Print Assumptions str_to_float_without_a_point.

(** a separator in front, or two in a row: zero *)
Theorem str_to_float_of_a_leading_separator prec emax (p : floatpunct) ws s sg rest : proper (grouping p) (sep p) (point p) -> size (grouping p) 0 <> None -> Forall blank ws -> sign_text s sg -> ~ blank (sep p) ->
  str_to_in prec emax p (ws ++ sg ++ sep p :: rest) = Ret (S754_zero false).
Proof. exact (sep_first prec emax p ws s sg rest). Qed.
Print Assumptions str_to_float_of_a_leading_separator.
Theorem str_to_float_of_two_separators prec emax (p : floatpunct) ws s sg groups rest : proper (grouping p) (sep p) (point p) -> size (grouping p) 0 <> None -> Forall blank ws -> sign_text s sg -> groups <> [] ->
  Forall decimal_digit (concat groups) -> Forall (fun x => x <> []) groups -> str_to_in prec emax p (ws ++ sg ++ separated (sep p) groups ++ sep p :: sep p :: rest) = Ret (S754_zero false).
Proof. exact (sep_twice prec emax p ws s sg groups rest). Qed.
Print Assumptions str_to_float_of_two_separators.
Theorem str_to_float_undefined_in_a_locale prec emax p s : str_to_in prec emax p s = Ub <-> Forall blank s.
Proof. exact (local_blank prec emax p s). Qed.
Print Assumptions str_to_float_undefined_in_a_locale.
