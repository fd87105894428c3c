(** Concrete numbers in locales with another decimal point or grouping. *)
From Coq Require Import Ascii String List Bool Arith ZArith QArith Qabs Floats.SpecFloat Lia.
From Verif Require Import Base DigitsSpec LogTextModel ConvSpec ConvModel GroupModel GroupSpec GroupExamples FloatModel FloatSpec FloatTextModel FloatTextSpec FloatTextExamples
  FloatLocaleModel FloatLocaleSpec FloatLocaleProofs FloatLocaleUse.
Import ListNotations.
Local Open Scope list_scope.
Local Open Scope Z_scope.

(** en_US, de_DE, and fr_FR without grouping *)
Definition us := Floatpunct en_US ".".
Definition de := Floatpunct (Numpunct [3] ".") ",".
Definition fr := Floatpunct (Numpunct [] " ") ",".
(** the separator is the point *)
Definition bad := Floatpunct (Numpunct [3] ".") ".".
Notation str_in p x := (FloatLocaleModel.str_float 53 1024 p (read_double x)).
Notation read_in p s := (FloatLocaleModel.str_to_float 53 1024 p (chars s)).

Lemma free_cases : free "," /\ free "." /\ ~ blank "," /\ ~ blank ".".
Proof. unfold free, decimal_digit, blank. cbn. repeat split; intuition discriminate. Qed.
Lemma proper_example : proper (grouping us) (sep us) (point us) /\ proper (grouping de) (sep de) (point de) /\ proper (grouping fr) (sep fr) (point fr) /\ ~ proper (grouping bad) (sep bad) (point bad) /\
  size (grouping fr) 0 = None /\ size (grouping de) 0 <> None.
Proof.
  destruct free_cases as (A & B & C & D). split; [|split; [|split; [|split; [|split; [reflexivity|discriminate]]]]].
  - split; [exact B|]. split; [exact D|]. intros _. split; [exact A|discriminate].
  - split; [exact A|]. split; [exact C|]. intros _. split; [exact B|discriminate].
  - split; [exact A|]. split; [exact C|]. intros H. exfalso. apply H. reflexivity.
  - intros (_ & _ & H). destruct (H ltac:(discriminate)) as [_ H']. apply H'. reflexivity.
Qed.
Lemma shown_example : map (fun x => str_in de x) ["1234.5"; "-123456"; "0.5"; "1e10"; "1.5e10"; "-7"; "12"]%string = map chars ["1.234,5"; "-123.456"; "0,5"; "1e+10"; "1,5e+10"; "-7"; "12"]%string /\
  str_in us "-123456" = chars "-123,456" /\ str_in fr "1234.5" = chars "1234,5" /\ FloatLocaleModel.str_float 53 1024 de (S754_infinity true) = chars "-inf".
Proof. vm_compute. repeat split. Qed.
Lemma read_example : read_in de "1.234,5e1 m" = Ret (read_double "12345") /\ read_in de "-,5" = Ret (read_double "-0.5") /\ read_in us "1,2,3" = Ret (read_double "123") /\ read_in us ",5" = Ret (S754_zero false) /\
  read_in us "1,,5" = Ret (S754_zero false) /\ read_in fr " 2,5" = Ret (read_double "2.5") /\ read_in us "1.5,5" = Ret (read_double "1.5") /\ read_in de "1.234,5e1.5,7" = Ret (read_double "12345").
Proof. vm_compute. repeat split. Qed.
Lemma number_example : local_number (grouping de) (sep de) (point de) 12345 (-1 + 1) (chars "1.234,5e1") /\ ends_local (grouping de) (sep de) (point de) (chars "1.234,5e1") (chars ".5,7") /\
  localised (grouping de) (sep de) (point de) (chars "-1234.5") (chars "-1.234,5").
Proof.
  assert (D : forall c, In c (chars "0123456789") -> decimal_digit c) by (intros c H; exact H). split; [|split].
  - exists [chars "1"; chars "234"], [","%char], (chars "5"), (chars "e1"), 1. split; [reflexivity|]. split; [discriminate|]. split; [repeat (constructor; [apply D; cbn; tauto|]); constructor|]. split; [reflexivity|]. split; [right; reflexivity|].
    split; [|split; [reflexivity|split; [repeat (constructor; [discriminate|]); constructor|discriminate]]].
    right. exists "e"%char, [], ["1"%char], 1. split; [reflexivity|]. split; [left; reflexivity|]. split; [discriminate|]. split; [repeat (constructor; [apply D; cbn; tauto|]); constructor|]. split; [reflexivity|]. left. auto.
  - unfold decimal_digit. cbn. split; [intuition discriminate|]. split; [intuition discriminate|tauto].
  - exists ["-"%char], (chars "1234"), (chars "5"), [], (chars "1.234"). split; [reflexivity|]. split; [auto|]. split; [discriminate|]. split; [repeat (constructor; [apply D; cbn; tauto|]); constructor|]. split; [exists 0; left; auto|]. split; [|reflexivity].
    exists [chars "1"; chars "234"]. split; [reflexivity|]. split; [cbn; split; [reflexivity|intros n [= <-]; cbn; lia]|]. split; [reflexivity|]. intros _. repeat (constructor; [discriminate|]); constructor.
Qed.
(** a text of another locale *)
Lemma other_locale : read_in de "3.14" = Ret (read_double "314") /\ FloatTextModel.str_to_float 53 1024 (str_in de "3.14") = Ret (read_double "3") /\
  FloatTextModel.str_to_float 53 1024 (str_in us "123456") = Ret (read_double "123") /\ str_in de "3.14" = chars "3,14".
Proof. vm_compute. repeat split. Qed.
Lemma confusing : number 53 1024 (read_double "1.5") /\ is_finite (read_double "1.5") = true /\ read_in bad "1.5" = Ret (read_double "15") /\ str_in bad "1.5" = chars "1.5" /\
  FloatTextModel.str_to_float 53 1024 (FloatTextModel.str_float 53 1024 (read_double "1.5")) = Ret (read_double "1.5") /\ read_double "15" <> read_double "1.5".
Proof. do 5 (split; [vm_compute; reflexivity|]). vm_compute. discriminate. Qed.
Lemma confusing_refuted : exists p x y, number 53 1024 x /\ is_finite x = true /\ FloatLocaleModel.str_to_float 53 1024 p (FloatLocaleModel.str_float 53 1024 p x) = Ret y /\ y <> x /\
  FloatTextModel.str_to_float 53 1024 (FloatTextModel.str_float 53 1024 x) = Ret x.
Proof. destruct confusing as (A & B & C & D & E & N). exists bad, (read_double "1.5"), (read_double "15"). rewrite D. exact (conj A (conj B (conj C (conj N E)))). Qed.
Lemma integer_example : let x := of_int 53 1024 (-123456) in number 53 1024 x /\ is_finite x = true /\ units 53 1024 x = -123456 * one 53 1024 /\ FloatLocaleModel.str_float 53 1024 us x = GroupModel.str_int en_US (-123456).
Proof. do 3 (split; [vm_compute; reflexivity|]). vm_compute. reflexivity. Qed.
