(** C187: which assertions of the tests of the logger hold whatever the scheduler does. *)
From Coq Require Import Ascii String List Bool Arith ZArith.
From Verif Require Import Base LoggerModel LogTextModel LogTextSpec LogFileModel LogDefaultsModel LogTestModel LogTestSpec LogTestProofs LogTestRuns LogTestExamples.
Import ListNotations.
Open Scope list_scope.

(** any tests one after the other pass if the logger is at rest whenever a sleep ends.  Missing: nothing in the program waits
    for the logger *)
Theorem logger_tests_pass_at_rest_partial hide local thread_id clock l tr s f seen : (forall z, plain_tm (local z)) -> neat_tests l ->
  run hide local thread_id at_rest (new_logger defaults clock) None (suite l) tr s f [] seen -> tests_pass l seen.
Proof. exact (suite_passes hide local thread_id clock l tr s f seen). Qed.
Print Assumptions logger_tests_pass_at_rest_partial.
Example tests_ex : (neat_tests [Messages [(3%Z, hello)]; Counts [(0%Z, hello); (8%Z, bye)]] /\ forall z, plain_tm (noon z)) /\
  (exists tr s f seen, run true noon one_thread at_rest (new_logger defaults 0) None (suite [Messages [(3%Z, hello)]; Counts [(0%Z, hello); (8%Z, bye)]]) tr s f [] seen) /\
  flat_map test_reads [Messages [(3%Z, hello)]; Counts [(0%Z, hello); (8%Z, bye)]] = [Text (chars "Hello"); Number 4].
Proof. exact (conj suite_neat_ex (conj suite_run eq_refl)). Qed.

(** and all that has been read is right even if the program has not ended *)
Theorem logger_tests_read_right_at_rest_partial hide local thread_id clock prog tr s f rest seen : (forall z, plain_tm (local z)) ->
  neat_program prog -> tidy prog -> run hide local thread_id at_rest (new_logger defaults clock) None prog tr s f rest seen ->
  exists since, expected [] prog = seen ++ expected since rest.
Proof. exact (fun P => run_reads_proof hide local thread_id clock P at_rest (fun _ H => H) prog tr s f rest seen). Qed.
Print Assumptions logger_tests_read_right_at_rest_partial.
Example tests_read_ex : neat_program (suite [Messages [(3%Z, hello)]]) /\ tidy (suite [Messages [(3%Z, hello)]]).
Proof. exact read_ex. Qed.

(** no time to sleep is enough: the tests that count read 0, whatever they have logged *)
Theorem logger_count_tests_refuted hide local thread_id clock time l : l <> [] -> Forall (fun m => (0 <= fst m)%Z) l ->
  exists tr s f seen, run hide local thread_id (until time) (new_logger defaults clock) None (suite [Counts l]) tr s f [] seen /\
    seen = [Number 0] /\ ~ tests_pass [Counts l] seen.
Proof. exact (counts_fail hide local thread_id clock time l). Qed.
Print Assumptions logger_count_tests_refuted.
(** and the others read an empty message *)
Theorem logger_message_tests_refuted hide local thread_id clock time lv m : (0 <= lv)%Z -> s_message m <> [] ->
  exists tr s f seen, run hide local thread_id (until time) (new_logger defaults clock) None (suite [Messages [(lv, m)]]) tr s f [] seen /\
    seen = [Text []] /\ ~ tests_pass [Messages [(lv, m)]] seen.
Proof. exact (messages_fail hide local thread_id clock time lv m). Qed.
Print Assumptions logger_message_tests_refuted.

(** last_log_message returns the last message exactly if it has neither a bar nor an end of line *)
Theorem last_log_message_is_exact hide l e t : plain_tm (t_local e) -> ~ In newline (l_file e) -> ~ In newline (l_function e) ->
  written_file hide (l ++ [e]) t -> (last_log_message t = l_message e <-> ~ In newline (l_message e) /\ ~ In bar (l_message e)).
Proof. exact (last_text hide l e t). Qed.
Print Assumptions last_log_message_is_exact.
Example last_log_message_ex : (exists t, written_file true [entry_of "a|b"] t) /\ forall t, written_file true [entry_of "a|b"] t -> last_log_message t = chars "b".
Proof. exact (conj (written_exists _ _) bar_case). Qed.

(** count_logs returns at least the number of entries and of lines of the header, and no more exactly if no message has
    anything but white space after an end of line *)
Theorem count_logs_is_exact hide l t : Forall (fun e => plain_tm (t_local e) /\ ~ In newline (l_file e) /\ ~ In newline (l_function e)) l ->
  written_file hide l t -> 2 + List.length l <= count_logs t /\ (count_logs t = 2 + List.length l <-> Forall (fun e => single_line (l_message e)) l).
Proof. exact (count_exact hide l t). Qed.
Print Assumptions count_logs_is_exact.
Example count_logs_ex : (exists t, written_file true [entry_of (String.append "a" (String newline "b"))] t) /\
  forall t, written_file true [entry_of (String.append "a" (String newline "b"))] t -> count_logs t = 4.
Proof. exact (conj (written_exists _ _) count_refuted). Qed.
