(** Concrete programs with locales. *)
From Coq Require Import List Bool Arith.
From Verif Require Import Base LocaleModel LocaleSpec LocaleProofs.
Import ListNotations.

(** locale 0 ("C") has the letters 1-9 with upper case 101-109, locale 1 the letters 1-99; locale 2 is not installed;
    locale 3 has no facet for the character type *)
Definition up (n a : nat) : nat := if a <? (if n =? 0 then 10 else 100) then a + 100 else a.
Definition here (n : nat) : bool := negb (n =? 2).
Definition facet (n : nat) : bool := negb (n =? 3).
Definition std (m : named) : nat := match m with CLocale => 0 | SystemLocale => 1 | DefaultLocale => 2 end.
Definition std' (m : named) : nat := match m with CLocale => 0 | _ => 1 end.
Definition none : nat -> list nat := fun _ => [].

Lemma no_static_undefined C installed has_ctype (toupper : nat -> C -> C) eqb name_of c n a b t :
  installed (name_of n) = true -> has_ctype (name_of n) = true ->
  run installed has_ctype toupper eqb name_of true [CmpNamed c n; CmpUse c a b] (empty t) = Some Ub.
Proof.
  intros I H. cbn [run step]. unfold with_named, make. rewrite I. unfold with_temporary, use_facet. change (name _ _) with (name_of n). rewrite H. unfold with_var.
  cbn [cmps set_cmp set_temporary]. rewrite lookup_bind, Nat.eqb_refl. reflexivity.
Qed.
Lemma temporary_undefined C installed has_ctype (toupper : nat -> C -> C) eqb name_of ns c n a b t :
  installed n = true -> has_ctype n = true ->
  run installed has_ctype toupper eqb name_of ns [CmpTemp c n; CmpUse c a b] (empty t) = Some Ub.
Proof.
  intros I H. cbn [run step]. unfold make. rewrite I. unfold with_temporary, use_facet. change (name _ _) with (n). rewrite H. unfold with_var.
  cbn [cmps set_cmp set_temporary]. rewrite lookup_bind, Nat.eqb_refl. reflexivity.
Qed.
Lemma static_example : exists p w, forallb named_only p = true /\ run here facet up Nat.eqb std' false p (empty none) = Some (Ret w) /\
  events w = [Result true; Result false; Result false; Result true] /\
  p = [CmpNamed 0 DefaultLocale; CmpCopy 0 1; LNew 5 0; CmpUse 1 13 113; LDrop 5; CmpUse 0 3 104; CallNamed CLocale 13 113; CallNamed SystemLocale 13 113].
Proof. eexists. eexists. split; [|split; [|split; [|reflexivity]]]; vm_compute; reflexivity. Qed.
Lemma calls_example : exists p w, forallb only_calls p = true /\ run here facet up Nat.eqb std true p (empty (fun _ => [3; 50])) = Some (Ret w) /\
  events w = [RuntimeError; BadCast; RuntimeError; Result false] /\ text w 0 = [103; 50] /\ text w 1 = [103; 150] /\ text w 2 = [3; 50] /\
  p = [UpperNamed 0 CLocale; UpperNamed 1 SystemLocale; UpperNamed 2 DefaultLocale; LNew 7 3; UpperOf 2 7; LNew 8 2; LNew 8 0; CallOf 8 50 150].
Proof. eexists. eexists. split; [|split; [|split; [|split; [|split; [|split; [|reflexivity]]]]]]; vm_compute; reflexivity. Qed.
Lemma kept_example : exists w v, run here facet up Nat.eqb std' true [LNew 5 1] (empty none) = Some (Ret w) /\
  option_map (fun i => locale_name i 5) (should_all here facet up Nat.eqb std' [LNew 5 1] (start none)) = Some (Some 1) /\
  run here facet up Nat.eqb std' true ([LNew 5 1] ++ CmpOf 0 5 :: [LCopy 5 6; LDrop 6]) (empty none) <> Some Ub /\
  forallb (keeps_locale 5) [LCopy 5 6; LDrop 6 : stmt nat] = true /\ forallb (keeps_cmp 0) [LCopy 5 6; LDrop 6 : stmt nat] = true /\
  run here facet up Nat.eqb std' true ([LNew 5 1] ++ CmpOf 0 5 :: [LCopy 5 6; LDrop 6] ++ [CmpUse 0 50 150]) (empty none) = Some (Ret v) /\ events v = [Result true].
Proof.
  eexists. eexists. split; [vm_compute; reflexivity|]. split; [vm_compute; reflexivity|]. split; [vm_compute; discriminate|]. split; [reflexivity|]. split; [reflexivity|].
  split; vm_compute; reflexivity.
Qed.
Lemma quiet_example : Forall (good_stmt here facet std') [LNew 5 1; CallOf 5 50 150; CallNamed DefaultLocale 3 103; UpperNamed 0 CLocale] /\
  exists w, run here facet up Nat.eqb std' false [LNew 5 1; CallOf 5 50 150; CallNamed DefaultLocale 3 103; UpperNamed 0 CLocale] (empty none) = Some (Ret w) /\
  events w = [Result true; Result true].
Proof. split; [repeat constructor|]. eexists. split; vm_compute; reflexivity. Qed.
(** the default locale is not installed; the locale has no facet for the character type *)
Lemma default_throws C has_ctype (toupper : nat -> C -> C) eqb name_of ns a b t :
  name_of DefaultLocale <> name_of CLocale ->
  exists installed w, installed (name_of CLocale) = true /\
  run installed has_ctype toupper eqb name_of ns [CallNamed DefaultLocale a b] (empty t) = Some (Ret w) /\ events w = [RuntimeError].
Proof.
  intros N. exists (fun n => n =? name_of CLocale). eexists. split; [apply Nat.eqb_refl|]. cbn. unfold with_named, static_facet, make. cbn.
  apply Nat.eqb_neq in N. rewrite N. destruct ns; split; reflexivity.
Qed.
Lemma missing_facet_throws C installed (toupper : nat -> C -> C) eqb name_of ns n a b s t : installed n = true ->
  exists w, run installed (fun _ => false) toupper eqb name_of ns [LNew 0 n; CmpOf 1 0; CallOf 0 a b; UpperOf s 0] (empty t) = Some (Ret w) /\
  events w = [BadCast; BadCast; BadCast] /\ text w = t.
Proof. intros I. eexists. cbn. unfold make. rewrite I. cbn. split; [reflexivity|]. split; reflexivity. Qed.
