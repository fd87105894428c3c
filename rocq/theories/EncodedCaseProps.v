(** Property C193: changes of case and comparisons without case on encoded text. *)
From Coq Require Import ZArith List Bool.
From Verif Require Import Base UnicodeModel UnicodeSpec UnicodeTextSpec EncodedSpec StringModel SeqModel EncodedExamples EncodedCase.
Import ListNotations.
Open Scope Z_scope.

Theorem change_of_case_in_text : forall p s f, case_map p s f -> forall a cs, means p s a cs -> means p s (upper f a) (upper f cs) /\ means p s (lower f a) (lower f cs).
Proof. exact (fun p s f F a cs A => conj (upper_text p s f F a cs A) (upper_text p s f F a cs A)). Qed.
Print Assumptions change_of_case_in_text.
Theorem change_of_case_and_conversion_commute : forall p src dst f a m, case_map p src f -> case_map p dst f -> converted p src dst a m ->
  converted p src dst (upper f a) (upper f m).
Proof. exact upper_converted. Qed.
Print Assumptions change_of_case_and_conversion_commute.
Theorem iequals_of_texts : forall p s f, case_map p s f -> forall a b cs ds, means p s a cs -> means p s b ds -> iequals f a b = iequals f cs ds.
Proof. exact iequals_text. Qed.
Print Assumptions iequals_of_texts.
Theorem ifind_in_text : forall p s f, case_map p s f -> forall a cs t ds, means p s a cs -> means p s t ds -> ds <> [] ->
  same_place p s a cs (ifind f a t) (ifind f cs ds) /\ same_place p s a cs (irfind f a t) (irfind f cs ds).
Proof. exact ifind_text. Qed.
Print Assumptions ifind_in_text.
Theorem icontains_in_text : forall p s f, case_map p s f -> forall a cs t ds, means p s a cs -> means p s t ds -> icontains f a t = icontains f cs ds /\
  (forall cxx20, istarts_with f cxx20 a t = istarts_with f cxx20 cs ds) /\ (forall cxx20, iends_with f cxx20 a t = iends_with f cxx20 cs ds).
Proof. exact icontains_text. Qed.
Print Assumptions icontains_in_text.
Theorem is_lower_of_text : forall p s q a cs, (forall c, q c = true -> whole p s c) -> means p s a cs -> is_lower q a = is_lower q cs /\ is_upper q a = is_upper q cs.
Proof. exact is_lower_text. Qed.
Print Assumptions is_lower_of_text.
Theorem classic_locale_changes_whole_characters : forall p s, case_map p s classic_upper /\ case_map p s classic_lower.
Proof. exact classic_case. Qed.
Print Assumptions classic_locale_changes_whole_characters.
Example change_of_case_ex : means linux SChar [97; -61; -87] [97; 0xE9] /\ upper classic_upper [97; -61; -87] = [65; -61; -87] /\ upper classic_upper [97; 0xE9] = [65; 0xE9] /\
  ifind classic_upper [-61; -87; 97] [65] = 2%nat /\ ifind classic_upper [0xE9; 97] [65] = 1%nat.
Proof. exact case_example. Qed.
Theorem change_of_case_in_any_locale_refuted : exists p a cs b ds, means p SChar a cs /\ ~ text p SChar (lower latin1_lower a) /\ means p SChar b ds /\ ~ text p SChar (upper latin1_upper b).
Proof. exact latin1_breaks_somewhere. Qed.
Print Assumptions change_of_case_in_any_locale_refuted.
