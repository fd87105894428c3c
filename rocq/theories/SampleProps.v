(** Property C183: the writers of the example programs. *)
From Coq Require Import Ascii String List Bool Arith ZArith.
From Verif Require Import Base LogTextModel LogTextSpec LogTextProofs LogTextExamples StampSpec SampleModel SampleSpec SampleProofs SampleExamples.
Import ListNotations.
Open Scope nat_scope.
Open Scope list_scope.

Theorem split_example_columns_partial : forall pid e s, fits_columns e -> (0 <= pid < 10000000)%Z ->
  exists t, out (split_log_writer pid e s) = out s ++ t /\ columns split_widths "|" t (l_message e).
Proof. exact split_aligned_proof. Qed.
Print Assumptions split_example_columns_partial.
Example split_example_columns_ex : fits_columns sample /\
  out (split_log_writer 321 sample fresh) =
  chars "2024-02-29 23:05:09.000042|    321|   1234|a_very_long_file_nam|   77|run                 |disk almost full".
Proof. exact split_ex. Qed.
Theorem split_example_header_columns : forall s, exists t1 t2, out (split_header_writer s) = out s ++ t1 ++ [newline] ++ t2 /\
  columns split_widths "|" t1 (chars "Message") /\ columns split_widths "+" t2 (repeat "-"%char 7) /\ ~ In newline t1 /\ ~ In newline t2.
Proof. exact split_header_proof. Qed.
Print Assumptions split_example_header_columns.
Theorem split_example_one_file_for_each_level : forall l l', (0 <= l <= 8)%Z -> (0 <= l' <= 8)%Z -> split_file l = split_file l' -> l = l'.
Proof. exact split_file_proof. Qed.
Print Assumptions split_example_one_file_for_each_level.

Theorem setters_example_shows_the_entry : forall pid e s, width s = 0 -> (0 <= t_micros e)%Z -> (0 <= pid)%Z -> (0 <= l_thread e)%Z ->
  exists ms p th file ln, number (millis e) ms /\ number pid p /\ number (l_thread e) th /\ last_part (l_file e) file /\ signed (l_line e) ln /\
  out (setters_log_writer pid e s) = out s ++ chars "[" ++ put_time (t_local e) ++ ms ++ chars "] [" ++ p ++ chars ":" ++ th ++ chars "] [" ++
    file ++ chars ":" ++ ln ++ chars "] [" ++ chars (log_level_to_shortened (l_level e)) ++ chars "] " ++ l_message e /\
  width (setters_log_writer pid e s) = 0.
Proof. exact setters_shows_proof. Qed.
Print Assumptions setters_example_shows_the_entry.
Theorem setters_example_time_partial : forall pid e s, width s = 0 -> (0 <= t_micros e)%Z ->
  exists f rest, out (setters_log_writer pid e s) = out s ++ chars "[" ++ put_time (t_local e) ++ f ++ chars "] " ++ rest /\ number (millis e) f /\
  (fraction f (millis e) <-> millis e = 0 \/ 100 <= millis e)%Z.
Proof. exact setters_proof. Qed.
Print Assumptions setters_example_time_partial.
Theorem setters_example_time_refuted : exists pid e e' s, width s = 0 /\ plain_tm (t_local e) /\ t_local e = t_local e' /\ (0 <= t_micros e < t_micros e')%Z /\
  text_compare (out (setters_log_writer pid e s)) (out (setters_log_writer pid e' s)) = Gt /\
  exists f rest, out (setters_log_writer pid e s) = chars "[" ++ put_time (t_local e) ++ f ++ chars "] " ++ rest /\ fraction f 900 /\ millis e = 9%Z.
Proof. exact setters_time_refuted_proof. Qed.
Print Assumptions setters_example_time_refuted.
Example setters_example_ex : out (setters_log_writer 5 at_9 fresh) = chars "[2024-02-29 23:05:09.9] [5:1] [a.cpp:7] [INF] first" /\
  out (setters_log_writer 5 at_10 fresh) = chars "[2024-02-29 23:05:09.10] [5:1] [a.cpp:8] [INF] second".
Proof. exact setters_ex. Qed.
