(** Properties C105 and C128: the case-insensitive functions never use a destroyed facet; what they return and when they throw. *)
From Coq Require Import List Bool Arith.
From Verif Require Import Base LocaleModel LocaleSpec LocaleProofs LocaleExamples.
Import ListNotations.

(** C105 *)
(** the functions iequals, istarts_with, upper, ... in both configurations: defined, and with the rules of the right locale (C128) *)
Theorem ignore_case_functions_are_defined : forall C installed has_ctype (toupper : nat -> C -> C) eqb name_of no_static p t,
  forallb only_calls p = true -> as_it_should installed has_ctype toupper eqb name_of no_static p t.
Proof. exact @calls_proof. Qed.
Print Assumptions ignore_case_functions_are_defined.
(** comparison objects of the default locales, with local statics *)
Theorem ignore_case_objects_are_defined_partial : forall C installed has_ctype (toupper : nat -> C -> C) eqb name_of p t,
  forallb named_only p = true -> as_it_should installed has_ctype toupper eqb name_of false p t.
Proof. exact @static_proof. Qed.
Print Assumptions ignore_case_objects_are_defined_partial.
(** comparison objects of a locale that is kept, in both configurations *)
Theorem ignore_case_objects_with_kept_locale : forall C installed has_ctype (toupper : nat -> C -> C) eqb name_of no_static p c x q t n a b w,
  forallb (keeps_locale x) q = true -> forallb (keeps_cmp c) q = true ->
  run installed has_ctype toupper eqb name_of no_static p (empty t) = Some (Ret w) ->
  option_map (fun i => locale_name i x) (should_all installed has_ctype toupper eqb name_of p (start t)) = Some (Some n) -> has_ctype n = true ->
  run installed has_ctype toupper eqb name_of no_static (p ++ CmpOf c x :: q) (empty t) <> Some Ub ->
  as_it_should installed has_ctype toupper eqb name_of no_static (p ++ CmpOf c x :: q ++ [CmpUse c a b]) t.
Proof. exact @kept_proof. Qed.
Print Assumptions ignore_case_objects_with_kept_locale.
(** with PLUTO_LOCALE_NO_STATIC a default-constructed object refers to a destroyed facet *)
Theorem ignore_case_objects_without_statics_refuted : forall C installed has_ctype (toupper : nat -> C -> C) eqb name_of c n a b t,
  installed (name_of n) = true -> has_ctype (name_of n) = true ->
  run installed has_ctype toupper eqb name_of true [CmpNamed c n; CmpUse c a b] (empty t) = Some Ub.
Proof. exact @no_static_undefined. Qed.
Print Assumptions ignore_case_objects_without_statics_refuted.
(** so does an object built from a temporary locale, in both configurations *)
Theorem ignore_case_objects_of_temporaries_refuted : forall C installed has_ctype (toupper : nat -> C -> C) eqb name_of no_static c n a b t,
  installed n = true -> has_ctype n = true ->
  run installed has_ctype toupper eqb name_of no_static [CmpTemp c n; CmpUse c a b] (empty t) = Some Ub.
Proof. exact @temporary_undefined. Qed.
Print Assumptions ignore_case_objects_of_temporaries_refuted.
Example ignore_case_objects_ex : exists p w, forallb named_only p = true /\ run here facet up Nat.eqb std' false p (empty none) = Some (Ret w) /\
  events w = [Result true; Result false; Result false; Result true] /\
  p = [CmpNamed 0 DefaultLocale; CmpCopy 0 1; LNew 5 0; CmpUse 1 13 113; LDrop 5; CmpUse 0 3 104; CallNamed CLocale 13 113; CallNamed SystemLocale 13 113].
Proof. exact static_example. Qed.
Example ignore_case_kept_ex : exists w v, run here facet up Nat.eqb std' true [LNew 5 1] (empty none) = Some (Ret w) /\
  option_map (fun i => locale_name i 5) (should_all here facet up Nat.eqb std' [LNew 5 1] (start none)) = Some (Some 1) /\
  run here facet up Nat.eqb std' true ([LNew 5 1] ++ CmpOf 0 5 :: [LCopy 5 6; LDrop 6]) (empty none) <> Some Ub /\
  forallb (keeps_locale 5) [LCopy 5 6; LDrop 6 : stmt nat] = true /\ forallb (keeps_cmp 0) [LCopy 5 6; LDrop 6 : stmt nat] = true /\
  run here facet up Nat.eqb std' true ([LNew 5 1] ++ CmpOf 0 5 :: [LCopy 5 6; LDrop 6] ++ [CmpUse 0 50 150]) (empty none) = Some (Ret v) /\ events v = [Result true].
Proof. exact kept_example. Qed.

(** C128 *)
(** whenever a program with locales does not end in undefined behaviour, it saw what it should have seen *)
Theorem locale_functions_use_their_locale : forall C installed has_ctype (toupper : nat -> C -> C) eqb name_of no_static p t,
  run installed has_ctype toupper eqb name_of no_static p (empty t) <> Some Ub -> as_it_should installed has_ctype toupper eqb name_of no_static p t.
Proof. exact @not_ub_ok. Qed.
Print Assumptions locale_functions_use_their_locale.
(** no exception when the locales are installed and have the facet *)
Theorem locale_functions_do_not_throw_partial : forall C installed has_ctype (toupper : nat -> C -> C) eqb name_of no_static p t w,
  Forall (good_stmt installed has_ctype name_of) p -> run installed has_ctype toupper eqb name_of no_static p (empty t) = Some (Ret w) ->
  forall e, In e (events w) -> exists b, e = Result b.
Proof. exact @quiet_proof. Qed.
Print Assumptions locale_functions_do_not_throw_partial.
(** a function called without a locale throws where en_US.UTF-8 is not installed *)
Theorem default_locale_does_not_throw_refuted : forall C has_ctype (toupper : nat -> C -> C) eqb name_of no_static a b t,
  name_of DefaultLocale <> name_of CLocale ->
  exists installed w, installed (name_of CLocale) = true /\
  run installed has_ctype toupper eqb name_of no_static [CallNamed DefaultLocale a b] (empty t) = Some (Ret w) /\ events w = [RuntimeError].
Proof. exact default_throws. Qed.
Print Assumptions default_locale_does_not_throw_refuted.
(** the documented string types include those whose characters have no facet in the standard locales *)
Theorem locale_functions_accept_every_character_type_refuted : forall C installed (toupper : nat -> C -> C) eqb name_of no_static n a b s t,
  installed n = true ->
  exists w, run installed (fun _ => false) toupper eqb name_of no_static [LNew 0 n; CmpOf 1 0; CallOf 0 a b; UpperOf s 0] (empty t) = Some (Ret w) /\
  events w = [BadCast; BadCast; BadCast] /\ text w = t.
Proof. exact missing_facet_throws. Qed.
Print Assumptions locale_functions_accept_every_character_type_refuted.
Example locale_functions_ex : exists p w, forallb only_calls p = true /\ run here facet up Nat.eqb std true p (empty (fun _ => [3; 50])) = Some (Ret w) /\
  events w = [RuntimeError; BadCast; RuntimeError; Result false] /\ text w 0 = [103; 50] /\ text w 1 = [103; 150] /\ text w 2 = [3; 50] /\
  p = [UpperNamed 0 CLocale; UpperNamed 1 SystemLocale; UpperNamed 2 DefaultLocale; LNew 7 3; UpperOf 2 7; LNew 8 2; LNew 8 0; CallOf 8 50 150].
Proof. exact calls_example. Qed.
Example locale_no_throw_ex : Forall (good_stmt here facet std') [LNew 5 1; CallOf 5 50 150; CallNamed DefaultLocale 3 103; UpperNamed 0 CLocale] /\
  exists w, run here facet up Nat.eqb std' false [LNew 5 1; CallOf 5 50 150; CallNamed DefaultLocale 3 103; UpperNamed 0 CLocale] (empty none) = Some (Ret w) /\
  events w = [Result true; Result true].
Proof. exact quiet_example. Qed.
