(** Concrete conversions to and from text. *)
From Coq Require Import Ascii String List Bool Arith ZArith Lia.
From Verif Require Import Base DigitsSpec LogTextModel ConvModel ConvSpec ConvProofs.
Import ListNotations.
Open Scope list_scope.

Lemma extremes : representable true 32 (-2147483648) /\ str_int (-2147483648) = chars "-2147483648" /\
  str_to_int true 32 (chars "-2147483648") = Ret (-2147483648)%Z /\ representable false 64 18446744073709551615 /\
  str_to_int false 64 (str_int 18446744073709551615) = Ret 18446744073709551615%Z.
Proof. split; [cbn; lia|]. split; [reflexivity|]. split; [reflexivity|]. split; [cbn; lia|reflexivity]. Qed.
Lemma negative_unsigned : exists s, begins_with_number (-1) s /\ str_to_int false 32 s = Ret 4294967295%Z /\ nearest false 32 (-1) 0.
Proof.
  exists (chars "-1"). split; [exact (str_begins (-1))|]. split; [reflexivity|]. split; [cbn; lia|]. intros r' H. unfold representable in H. lia.
Qed.
Lemma numbers : begins_with_number (-40000) (chars " -40000 km") /\
  str_to_int true 32 (chars " -40000 km") = Ret (-40000)%Z /\ str_to_int true 16 (chars " -40000 km") = Ret (-32768)%Z /\
  str_to_int true 32 (chars " 4e2") = Ret 4%Z /\ str_to_int true 32 (chars "four") = Ret 0%Z.
Proof.
  split; [|repeat split; reflexivity]. exists (chars " "), (chars "-"), (chars "40000"), (chars " km"), 40000%Z.
  split; [reflexivity|]. split; [repeat constructor|]. split; [discriminate|]. split; [cbn; repeat constructor; cbn; tauto|]. split; [reflexivity|].
  split; [cbn; intuition discriminate|]. right. split; reflexivity.
Qed.
Lemma undefined : str_to_int true 32 [] = Ub /\ str_to_char (chars " ") = Ub /\ str_to_bool (chars " ") = Ub.
Proof. repeat split. Qed.
Lemma all_defined s : ~ Forall blank s ->
  (forall signed w, exists v, str_to_int signed w s = Ret v) /\ (exists b, str_to_bool s = Ret b) /\ (exists c, str_to_char s = Ret c).
Proof.
  intros H. split; [intros; apply defined_proof, H|]. split.
  - unfold str_to_bool. destruct (defined_proof true 64 s H) as (v & ->). eauto.
  - unfold str_to_char. rewrite <- skip_all in H. destruct (skip_ws s); [tauto|eauto].
Qed.
Lemma all_ub s : (forall signed w, str_to_int signed w s = Ub <-> Forall blank s) /\ (str_to_bool s = Ub <-> Forall blank s) /\ (str_to_char s = Ub <-> Forall blank s).
Proof. split; [intros; apply ub_proof|]. split; [apply ub_bool_proof|apply ub_char_proof]. Qed.
Lemma defined_example : ~ Forall blank (chars "  x ") /\ str_to_char (chars "  x ") = Ret "x"%char.
Proof. split; [|reflexivity]. rewrite <- skip_all. discriminate. Qed.
Lemma new_york : str_to_string (str_string (chars "New York")) = Ret (chars "New").
Proof. reflexivity. Qed.
