(** Property C181: a log file can be read back. *)
From Coq Require Import Ascii String List Bool Arith ZArith.
From Verif Require Import Base LogTextModel LogTextSpec LogTextExamples LogReadSpec LogReadProofs LogReadExamples.
Import ListNotations.
Local Open Scope list_scope.

(** C181 *)
Theorem log_file_is_read_back_partial : forall hide l l' s s', Forall readable l -> Forall readable l' -> out s = out s' ->
  (out (write_all hide l s) = out (write_all hide l' s') <-> Forall2 (same_visible hide) l l').
Proof. exact read_back_proof. Qed.
Print Assumptions log_file_is_read_back_partial.
Theorem log_message_is_after_a_bar : forall hide e s, exists pre, out (default_log_writer hide e s) = out s ++ pre ++ "|"%char :: l_message e.
Proof. exact after_last_bar. Qed.
Print Assumptions log_message_is_after_a_bar.
Theorem log_file_is_read_back_refuted : exists l l', Forall (fun e => plain_tm (t_local e) /\ (0 <= t_micros e)%Z) (l ++ l') /\
  (forall s, out (write_all true l s) = out (write_all true l' s)) /\ ~ Forall2 (same_visible true) l l'.
Proof. exact forged_proof. Qed.
Print Assumptions log_file_is_read_back_refuted.
Example log_file_is_read_back_ex : readable odd /\ readable sample /\ out (write_all false [odd] (Stream [] 0 " " false)) =
  chars "2024-02-29 23:05:09.000042|12345678901|Warning |a|b.cpp             |1234567|operator|" ++ [newline] ++ chars "          |x|y" ++ [newline].
Proof. exact odd_case. Qed.
Example same_visible_ex : same_visible false long1 long2 /\ long1 <> long2 /\ ~ same_visible false odd sample.
Proof. exact long_case. Qed.
