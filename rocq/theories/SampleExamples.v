From Coq Require Import Ascii String List Bool Arith ZArith Lia.
From Verif Require Import Base LogTextModel LogTextSpec LogTextProofs LogTextExamples StampSpec SampleModel SampleSpec SampleProofs.
Import ListNotations.
Open Scope nat_scope.
Open Scope list_scope.

Definition fresh : stream := Stream [] 0 " " false.
Lemma split_ex : fits_columns sample /\
  out (split_log_writer 321 sample fresh) =
  chars "2024-02-29 23:05:09.000042|    321|   1234|a_very_long_file_nam|   77|run                 |disk almost full".
Proof. split; [unfold fits_columns, plain_tm, sample; cbn; lia|vm_compute; reflexivity]. Qed.
Lemma split_header_ex : out (split_header_writer fresh) =
  chars "Timestamp                 |PID    |TID    |File Name           |Line |Function            |Message" ++ [newline] ++
  chars "--------------------------+-------+-------+--------------------+-----+--------------------+-------".
Proof. vm_compute. reflexivity. Qed.
(** 9 and 10 milliseconds after the same second *)
Definition at_9 : log_line := LogLine sample_tm 1709247909009000 1 3 (chars "a.cpp") 7 [] (chars "first").
Definition at_10 : log_line := LogLine sample_tm 1709247909010000 1 3 (chars "a.cpp") 8 [] (chars "second").
Lemma setters_ex : out (setters_log_writer 5 at_9 fresh) = chars "[2024-02-29 23:05:09.9] [5:1] [a.cpp:7] [INF] first" /\
  out (setters_log_writer 5 at_10 fresh) = chars "[2024-02-29 23:05:09.10] [5:1] [a.cpp:8] [INF] second".
Proof. split; vm_compute; reflexivity. Qed.
Theorem setters_time_refuted_proof : exists pid e e' s, width s = 0 /\ plain_tm (t_local e) /\ t_local e = t_local e' /\ (0 <= t_micros e < t_micros e')%Z /\
  text_compare (out (setters_log_writer pid e s)) (out (setters_log_writer pid e' s)) = Gt /\
  exists f rest, out (setters_log_writer pid e s) = chars "[" ++ put_time (t_local e) ++ f ++ chars "] " ++ rest /\ fraction f 900 /\ millis e = 9%Z.
Proof.
  exists 5%Z, at_9, at_10, fresh. split; [reflexivity|]. split; [unfold plain_tm; cbn; lia|]. split; [reflexivity|]. split; [cbn; lia|]. split; [vm_compute; reflexivity|].
  exists (chars "9"), (chars "[5:1] [a.cpp:7] [INF] first"). split; [vm_compute; reflexivity|]. split; vm_compute; reflexivity.
Qed.
