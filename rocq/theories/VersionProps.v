(** C162 and C163. *)
From Coq Require Import List Bool ZArith String Ascii.
From Verif Require Import VersionModel VersionSpec VersionProofs VersionExamples.
Import ListNotations.
Open Scope Z_scope.

(** C162.  For the values of the published standards the macros say whether the standard is at least the one named. *)
Theorem version_macros_of_standards : forall e s t, no_user e -> speaks e s -> (has e t = true <-> at_least s t).
Proof. exact has_of_official. Qed.
Print Assumptions version_macros_of_standards.
Example version_macros_of_standards_ex : (no_user (gcc 201703) /\ speaks (gcc 201703) S17 /\ at_least S17 S14 /\ ~ at_least S17 S20 /\ has (gcc 201703) S14 = true /\
  has (gcc 201703) S20 = false /\ has (gcc 201703) S17 = true) /\
  (no_user (msvc 202002) /\ speaks (msvc 202002) S20 /\ has (msvc 202002) S20 = true /\ has (msvc 202002) S23 = false).
Proof. exact (conj gcc_17 msvc_20). Qed.
(** drafts: 1 although the version is not yet that of the standard *)
Theorem version_macros_of_drafts_refuted : exists e s v, no_user e /\ cplusplus e = Some v /\ (exists w, official s w /\ v < w) /\ has e s = true.
Proof. exact refuted_draft. Qed.
Print Assumptions version_macros_of_drafts_refuted.
Example version_macros_of_drafts_refuted_ex : no_user (gcc 201300) /\ has (gcc 201300) S14 = true /\ 201300 < 201402.
Proof. exact draft. Qed.
(** a macro is 1 exactly if one of the compiler's values is greater than that of the standard before *)
Theorem version_macros_of_any_value : forall e s, no_user e -> s <> S98 ->
  (has e s = true <-> exists w, (cplusplus e = Some w \/ msvc_lang e = Some w) /\ before s < w).
Proof. exact has_means_newer. Qed.
Print Assumptions version_macros_of_any_value.
Example version_macros_of_any_value_ex : no_user (gcc 201703) /\ speaks (gcc 201703) S17 /\ at_least S17 S14 /\ ~ at_least S17 S20 /\ has (gcc 201703) S14 = true /\
  has (gcc 201703) S20 = false /\ has (gcc 201703) S17 = true.
Proof. exact gcc_17. Qed.
Theorem version_macros_go_down : forall e s t, no_user e -> at_least s t -> has e s = true -> has e t = true.
Proof. exact has_down. Qed.
Print Assumptions version_macros_go_down.
Example version_macros_go_down_ex : no_user (gcc 201703) /\ speaks (gcc 201703) S17 /\ at_least S17 S14 /\ ~ at_least S17 S20 /\ has (gcc 201703) S14 = true /\
  has (gcc 201703) S20 = false /\ has (gcc 201703) S17 = true.
Proof. exact gcc_17. Qed.
(** with a macro defined by the user they need not *)
Theorem version_macros_go_down_refuted : exists e, has e S20 = true /\ has e S17 = false.
Proof. exact refuted_user. Qed.
Print Assumptions version_macros_go_down_refuted.
Theorem feature_macros : forall e, no_user e ->
  has_format e = has e S20 && available e "format" /\ has_source_location e = has e S20 && available e "source_location" /\
  has_32_bit_wchar e = negb (win32 e) /\ filesystem_is_experimental e = negb (has e S17).
Proof. exact features. Qed.
Print Assumptions feature_macros.
Theorem text_macros : forall e s, no_user e -> speaks e s ->
  (at_least s S20 -> nodiscard_constexpr e = ["[[nodiscard]]"; "constexpr"]%string) /\
  (at_least s S17 -> ~ at_least s S20 -> nodiscard_constexpr e = ["[[nodiscard]]"; "inline"]%string) /\
  (~ at_least s S17 -> nodiscard_constexpr e = ["inline"]%string) /\
  (at_least s S17 <-> filesystem_namespace e = "std::filesystem"%string) /\
  (~ at_least s S17 <-> filesystem_namespace e = "std::experimental::filesystem"%string).
Proof. exact texts. Qed.
Print Assumptions text_macros.
Example feature_and_text_macros_ex : no_user (lacks "format" 202002) /\ speaks (lacks "format" 202002) S20 /\ builds (lacks "format" 202002) = true /\
  belongs S20 "format" /\ In "span"%string (included (lacks "format" 202002)) /\ ~ In "format"%string (included (lacks "format" 202002)) /\
  has_format (lacks "format" 202002) = false /\ has_format (gcc 202002) = true.
Proof. exact no_format. Qed.
(** definitions made before the header is included are kept *)
Theorem macros_of_the_user_are_kept : forall e b,
  (user e Cxx11 = Some b -> has e S11 = b) /\ (user e Cxx14 = Some b -> has e S14 = b) /\ (user e Cxx17 = Some b -> has e S17 = b) /\
  (user e Cxx20 = Some b -> has e S20 = b) /\ (user e Cxx23 = Some b -> has e S23 = b) /\ (user e Cxx26 = Some b -> has e S26 = b) /\
  (user e Format = Some b -> has_format e = b) /\ (user e SourceLocation = Some b -> has_source_location e = b) /\
  (user e Wchar32 = Some b -> has_32_bit_wchar e = b) /\ (user e Experimental = Some b -> filesystem_is_experimental e = b).
Proof. exact user_kept_proof. Qed.
Print Assumptions macros_of_the_user_are_kept.
Example version_string_ex : version_string = (digit version_major ++ "." ++ digit version_minor ++ "." ++ digit version_patch)%string.
Proof. exact eq_refl. Qed.

(** C163.  standard.hpp includes the headers of the standard that are available and no others. *)
Theorem standard_includes_the_standard : forall e s, no_user e -> speaks e s -> s <> S98 -> builds e = true ->
  forall h, In h (included e) <-> belongs s h /\ available e h = true.
Proof. exact included_exact. Qed.
Print Assumptions standard_includes_the_standard.
Example standard_includes_the_standard_ex : no_user (lacks "format" 202002) /\ speaks (lacks "format" 202002) S20 /\ builds (lacks "format" 202002) = true /\
  belongs S20 "format" /\ In "span"%string (included (lacks "format" 202002)) /\ ~ In "format"%string (included (lacks "format" 202002)) /\
  has_format (lacks "format" 202002) = false /\ has_format (gcc 202002) = true.
Proof. exact no_format. Qed.
Theorem standard_builds : forall e s, no_user e -> speaks e s -> s <> S98 -> complete_up_to_14 e s -> builds e = true.
Proof. exact complete_builds. Qed.
Print Assumptions standard_builds.
Example standard_builds_ex : complete_up_to_14 (gcc 201703) S17 /\ belongs S17 "ciso646" /\ ~ belongs S20 "ciso646" /\ ~ belongs S17 "codecvt".
Proof. exact complete_17. Qed.
Theorem standard_builds_refuted : exists e, no_user e /\ speaks e S98 /\ complete_up_to_14 e S98 /\ builds e = false.
Proof. exact fails_98. Qed.
Print Assumptions standard_builds_refuted.
(** C++ 98: it needs five headers that C++ 98 does not have *)
Theorem standard_needs_headers_of_11 : forall e, no_user e -> speaks e S98 -> builds e = true -> forall h, In h ["ccomplex"; "codecvt"; "cstdalign"; "cstdbool"; "ctgmath"]%string -> available e h = true /\ ~ belongs S98 h.
Proof. exact builds_98. Qed.
Print Assumptions standard_needs_headers_of_11.
Example standard_needs_headers_of_11_ex : no_user (gcc 199711) /\ speaks (gcc 199711) S98 /\ builds (gcc 199711) = true /\ belongs S11 "ccomplex".
Proof. exact all_98. Qed.
