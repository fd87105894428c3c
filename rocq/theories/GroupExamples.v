(** Concrete numbers in locales that group digits. *)
From Coq Require Import Ascii String List Bool Arith ZArith Lia.
From Verif Require Import Base DigitsSpec LogTextModel LogTextSpec LogTextProofs LogTextExamples ConvModel ConvSpec ConvProofs GroupModel GroupSpec GroupProofs.
Import ListNotations.
Local Open Scope nat_scope.
Local Open Scope list_scope.

(** en_US, and hi_IN: the last three digits, then groups of two *)
Definition en_US := Numpunct [3%Z] ",".
Definition hi_IN := Numpunct [3; 2]%Z ",".
Lemma groups_example : GroupModel.str_int en_US (-1234567) = chars "-1,234,567" /\ GroupModel.str_int hi_IN 123456789 = chars "12,34,56,789" /\
  GroupModel.str_int (Numpunct [3; 127]%Z ".") 123456789 = chars "123456.789" /\ GroupModel.str_int en_US 999 = chars "999".
Proof. vm_compute. repeat split. Qed.
Lemma not_decimal : ~ decimal 1000 (GroupModel.str_int en_US 1000) /\ ConvModel.str_to_int true 32 (GroupModel.str_int en_US 1000) = Ret 1%Z.
Proof.
  split; [|reflexivity]. intros (ds & (_ & R & _) & E). cbn in E. change (GroupModel.str_int en_US 1000) with (chars "1,000") in E. subst ds. vm_compute in R. discriminate.
Qed.
Lemma hypotheses_example : ~ decimal_digit (sep en_US) /\ sep en_US <> "-"%char /\ sep en_US <> "+"%char /\
  representable true 32 (-2147483648) /\ GroupModel.str_to_int en_US true 32 (chars "-2,147,483,648") = Ret (-2147483648)%Z /\
  size (grouping (Numpunct [] ",")) 0 = None.
Proof.
  split; [|split; [discriminate|split; [discriminate|split; [cbn; lia|split; reflexivity]]]].
  unfold decimal_digit, en_US. cbn. intuition discriminate.
Qed.
(** "1,5" begins with the number 1, or is one and a half in Germany *)
Lemma comma_example : begins_with_number 1 (chars "1,5") /\ GroupModel.str_to_int en_US true 32 (chars "1,5") = Ret 15%Z /\
  GroupModel.str_to_int en_US true 32 (chars "10,20,30") = Ret 102030%Z /\ ConvModel.str_to_int true 32 (chars "1,5") = Ret 1%Z.
Proof.
  split; [|vm_compute; repeat split].
  exists [], [], (chars "1"), (chars ",5"), 1%Z. repeat split; try discriminate; try (constructor; [cbn; tauto|constructor]).
  - constructor.
  - cbn. intuition discriminate.
  - left. split; [left|]; reflexivity.
Qed.
Lemma read_example : Forall (Forall decimal_digit) [chars "10"; chars "20"] /\ Forall (fun x => x <> []) [chars "10"; chars "20"] /\
  read 10 (concat [chars "10"; chars "20"]) = Some 1020%Z /\ separated "," [chars "10"; chars "20"] = chars "10,20".
Proof.
  split; [repeat constructor; cbn; tauto|]. split; [repeat constructor; discriminate|]. split; reflexivity.
Qed.

Lemma ignore_example : filter (fun x => negb (Ascii.eqb x (sep en_US))) (chars ",-9,99,9,99999999 km") = chars "-999999999999 km" /\
  begins_with_number (-999999999999) (chars "-999999999999 km") /\
  GroupModel.str_to_int en_US true 32 (chars " ,-9,99,9,99999999 km") = Ret (-2147483648)%Z /\ nearest true 32 (-999999999999) (-2147483648) /\
  GroupModel.str_to_int en_US true 32 (chars ",, 5") = Ret 0%Z /\ GroupModel.str_to_int en_US false 32 (chars ",,") = Ret 0%Z.
Proof.
  assert (E : GroupModel.str_to_int en_US true 32 (chars " ,-9,99,9,99999999 km") = Ret (-2147483648)%Z) by (vm_compute; reflexivity).
  assert (N : begins_with_number (-999999999999) (chars "-999999999999 km")).
  { exists [], ["-"%char], (chars "999999999999"), (chars " km"), 999999999999%Z.
    split; [reflexivity|]. split; [constructor|]. split; [discriminate|]. split; [|split; [vm_compute; reflexivity|split]].
    - unfold chars; cbn [list_ascii_of_string]. repeat (apply Forall_cons; [cbn; tauto|]). apply Forall_nil.
    - cbn. intuition discriminate.
    - right. split; reflexivity. }
  split; [reflexivity|]. split; [exact N|]. split; [exact E|]. split; [|split; vm_compute; reflexivity].
  destruct (nearest_groups en_US true 32 (-999999999999) (chars " ") "," (chars "-9,99,9,99999999 km")) as (r & Er & Nr); [lia| | |discriminate|exact N| |left; reflexivity|].
  - apply Forall_cons; [cbn; tauto|apply Forall_nil].
  - cbn. intuition discriminate.
  - cbn. intuition discriminate.
  - change (chars " " ++ ","%char :: chars "-9,99,9,99999999 km") with (chars " ,-9,99,9,99999999 km") in Er. rewrite E in Er. injection Er as <-. exact Nr.
Qed.

(** a line at 123456 microseconds *)
Definition fraction := LogLine sample_tm 1709247909123456 1234 5 (chars "/src/main.cpp") 77 (chars "run") (chars "disk almost full").
Definition small_fraction := LogLine sample_tm 1709247909012345 1234 5 (chars "/src/main.cpp") 77 (chars "run") (chars "disk almost full").
Lemma fraction_row : fits_columns fraction /\ (forall s, out (log_writer (put_int en_US) true fraction s) = out s ++ chars "2024-02-29 23:05:09.123,456|  1,234|Warning |disk almost full") /\
  ~ columns (widths true) "|" (chars "2024-02-29 23:05:09.123,456|  1,234|Warning |disk almost full") (l_message fraction).
Proof.
  split; [unfold fits_columns, plain_tm, fraction; cbn; lia|].
  assert (E : log_row_num (put_int en_US) true fraction = chars "2024-02-29 23:05:09.123,456|  1,234|Warning |disk almost full") by (vm_compute; reflexivity).
  split; [intros s; rewrite row_num_proof, E; reflexivity|]. rewrite <- E. intros C.
  apply (thousands_columns "," true fraction) in C; [destruct C as [C _]; vm_compute in C; discriminate| | | |]; unfold plain_tm, fraction; cbn; lia.
Qed.
Lemma small_fraction_row : fits_columns small_fraction /\ (forall s, out (log_writer (put_int en_US) true small_fraction s) = out s ++ chars "2024-02-29 23:05:09.12,345|  1,234|Warning |disk almost full") /\
  columns (widths true) "|" (chars "2024-02-29 23:05:09.12,345|  1,234|Warning |disk almost full") (l_message small_fraction) /\
  out (log_writer dec true small_fraction (Stream [] 0 " " false)) = chars "2024-02-29 23:05:09.012345|   1234|Warning |disk almost full".
Proof.
  split; [unfold fits_columns, plain_tm, small_fraction; cbn; lia|].
  assert (E : log_row_num (put_int en_US) true small_fraction = chars "2024-02-29 23:05:09.12,345|  1,234|Warning |disk almost full") by (vm_compute; reflexivity).
  split; [intros s; rewrite row_num_proof, E; reflexivity|]. split; [|vm_compute; reflexivity]. rewrite <- E.
  apply (thousands_columns "," true small_fraction); unfold plain_tm, small_fraction; cbn [t_local t_micros l_thread l_line sample_tm year month day hour minute second]; try lia.
  split; [reflexivity|]. split; [lia|discriminate].
Qed.
