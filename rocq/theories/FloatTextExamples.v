(** Cases of the properties of str and str_to of floating-point numbers. *)
From Coq Require Import Ascii String List Bool ZArith QArith Qabs Floats.SpecFloat Lia.
From Verif Require Import Base DigitsSpec ConvSpec LogTextModel FloatModel FloatSpec FloatTextModel FloatTextSpec FloatTextRound FloatTextNumber FloatTextProofs FloatTextUse.
Import ListNotations.
Local Open Scope list_scope.
Local Open Scope Z_scope.
Notation str_double := (str_float 53 1024).
Notation str_to_double := (str_to_float 53 1024).
Definition read_double (s : string) : spec_float := match str_to_double (chars s) with Ret x => x | _ => S754_nan end.

(** the double nearest to 0.1 *)
Example tenth : str_to_double (chars "0.1") = Ret (S754_finite false 7205759403792794 (-56)).
Proof. vm_compute. reflexivity. Qed.
Example formats : a_format 53 1024 /\ 2 * 10 ^ 6 < 2 ^ (53 - 1) /\ a_format 24 128 /\ 2 * 10 ^ 6 < 2 ^ (24 - 1) /\ a_format 64 16384 /\ 2 * 10 ^ 6 < 2 ^ (64 - 1).
Proof. repeat split; vm_compute; reflexivity. Qed.
(** C155 *)
Example shown : map (fun s => str_double (read_double s)) ["0.1"; "123456789"; "9999995"; "999999.5"; "0.0001"; "0.00001"; "-2.5e-10"; "1e300"; "100000"; "4e-324"; "-0"]%string =
  map chars ["0.1"; "1.23457e+08"; "1e+07"; "1e+06"; "0.0001"; "1e-05"; "-2.5e-10"; "1e+300"; "100000"; "4.94066e-324"; "-0"]%string.
Proof. vm_compute. reflexivity. Qed.
Example ties : map (fun s => str_double (read_double s)) ["1234565"; "1234575"; "0.5"; "1000005"]%string = map chars ["1.23456e+06"; "1.23458e+06"; "0.5"; "1e+06"]%string.
Proof. vm_compute. reflexivity. Qed.
Example shown_case : number 53 1024 (read_double "123456789") /\ is_finite (read_double "123456789") = true /\ units 53 1024 (read_double "123456789") <> 0.
Proof. repeat split; vm_compute; congruence. Qed.
Example integer_case : let x := of_int 53 1024 (-4096) in number 53 1024 x /\ is_finite x = true /\ units 53 1024 x = -4096 * one 53 1024 /\ str_double x = chars "-4096".
Proof. repeat split; vm_compute; reflexivity. Qed.
(** C156 *)
Example number_case : number_text 12345 (-5) (chars "12.345e-2") /\ number_text 5 (-1) (chars ".5") /\ number_text 7 0 (chars "7.") /\ number_text 1 22 (chars "1E+22").
Proof.
  assert (D : forall c, In c (chars "0123456789") -> decimal_digit c) by (intros c H; exact H).
  split; [|split; [|split]].
  - exists (chars "12"), ["."%char], (chars "345"), (chars "e-2"), (-2). split; [reflexivity|]. split; [discriminate|]. split; [repeat (constructor; [apply D; cbn; tauto|]); constructor|]. split; [reflexivity|]. split; [right; reflexivity|]. split; [|reflexivity].
    right. exists "e"%char, ["-"%char], ["2"%char], 2. split; [reflexivity|]. split; [left; reflexivity|]. split; [discriminate|]. split; [repeat (constructor; [apply D; cbn; tauto|]); constructor|]. split; [reflexivity|]. right. split; reflexivity.
  - exists [], ["."%char], ["5"%char], [], 0. split; [reflexivity|]. split; [discriminate|]. split; [repeat (constructor; [apply D; cbn; tauto|]); constructor|]. split; [reflexivity|]. split; [right; reflexivity|]. split; [left; auto|reflexivity].
  - exists ["7"%char], ["."%char], [], [], 0. split; [reflexivity|]. split; [discriminate|]. split; [repeat (constructor; [apply D; cbn; tauto|]); constructor|]. split; [reflexivity|]. split; [right; reflexivity|]. split; [left; auto|reflexivity].
  - exists ["1"%char], [], [], (chars "E+22"), 22. split; [reflexivity|]. split; [discriminate|]. split; [repeat (constructor; [apply D; cbn; tauto|]); constructor|]. split; [reflexivity|]. split; [left; auto|]. split; [|reflexivity].
    right. exists "E"%char, ["+"%char], ["2"; "2"]%char, 22. split; [reflexivity|]. split; [right; reflexivity|]. split; [discriminate|]. split; [repeat (constructor; [apply D; cbn; tauto|]); constructor|]. split; [reflexivity|]. left. split; [right|]; reflexivity.
Qed.
Example read_case : str_to_double (chars "  +12.345e-2 m") = str_to_double (chars "0.12345") /\ str_to_double (chars "1e400") = Ret (largest 53 1024 false) /\ str_to_double (chars "-1e-400") = Ret (S754_zero true).
Proof. repeat split; vm_compute; reflexivity. Qed.
(** half way between two doubles: 2^53 + 1 is read as 2^53, 2^53 + 3 as 2^53 + 4 *)
Example read_ties : str_to_double (chars "9007199254740993") = Ret (of_int 53 1024 9007199254740992) /\ str_to_double (chars "9007199254740995") = Ret (of_int 53 1024 9007199254740996).
Proof. split; vm_compute; reflexivity. Qed.
Example overflow_case : overflows 53 1024 (inject_Z 1 * decimal_value 1 400) /\ ~ overflows 53 1024 (inject_Z 1 * decimal_value 1 300).
Proof. split; [vm_compute; discriminate|]. intros C. vm_compute in C. apply C. reflexivity. Qed.
Example other_case : str_to_double (chars " nan") = Ret (S754_zero false) /\ str_to_double (chars "1e") = Ret (S754_zero false) /\ str_to_double (chars "-2.5e+x") = Ret (S754_zero false) /\ str_to_double (chars "-") = Ret (S754_zero false) /\ str_to_double (chars " ") = Ub.
Proof. repeat split; vm_compute; reflexivity. Qed.
(** C157 *)
Example six_case : let x := read_double "0.1" in normal 53 1024 x /\ ~ overflows 53 1024 (inject_Z 1 * decimal_value 1 (-1)) /\ nearest_number 53 1024 (inject_Z 1 * decimal_value 1 (-1)) x /\ str_to_double (str_double x) = Ret x.
Proof.
  cbn zeta. split; [vm_compute; discriminate|]. split; [intros C; vm_compute in C; apply C; reflexivity|]. split; [|vm_compute; reflexivity].
  replace (read_double "0.1") with (to_float 53 1024 false 1 (-1)) by (vm_compute; reflexivity). apply to_float_nearest; [split; reflexivity|lia].
Qed.
Example not_six : let x := read_double "3.14159265" in str_double x = chars "3.14159" /\ str_to_double (str_double x) <> Ret x.
Proof. split; [vm_compute; reflexivity|]. vm_compute. discriminate. Qed.
Example small_case : let x := read_double "1.5e-319" in units 53 1024 x = 30360 /\ str_to_double (str_double x) = Ret x.
Proof. split; vm_compute; reflexivity. Qed.
Example text_case : str_double (read_double "  -0.00012300e7km") = chars "-1230" /\ str_double (read_double "123456e-300") = chars "1.23456e-295".
Proof. split; vm_compute; reflexivity. Qed.
