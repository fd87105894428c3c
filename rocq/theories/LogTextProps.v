(** Properties C66-C68 and C94-C97: the text written by pluto::logger. *)
From Coq Require Import Ascii String List Bool Arith ZArith.
From Verif Require Import Base LoggerModel LoggerExamples LogTextModel LogTextSpec LogTextProofs LogTextExamples.
Import ListNotations.
Open Scope list_scope.

(** C66.  [formatted] is the text vsnprintf produces, None an error. *)
Theorem writef_logs_the_formatted_text : forall scheme t, t <> [] -> (Z.of_nat (List.length t) < int_max)%Z ->
  writef_message scheme (Some t) true = Ret t.
Proof. exact writef_proof. Qed.
Print Assumptions writef_logs_the_formatted_text.
Example writef_logs_the_formatted_text_ex : writef_message (chars "%d-%s") (Some (chars "7-x")) true = Ret (chars "7-x").
Proof. exact writef_ex. Qed.
Theorem writef_logs_the_text_or_the_scheme : forall scheme formatted alloc m,
  writef_message scheme formatted alloc = Ret m -> m = scheme \/ formatted = Some m.
Proof. exact writef_fallback_proof. Qed.
Print Assumptions writef_logs_the_text_or_the_scheme.
Theorem writef_empty_text_refuted : exists scheme, writef_message scheme (Some []) true = Ret scheme /\ scheme <> [].
Proof. exists (chars "%s"). split; [exact writef_empty|discriminate]. Qed.
Print Assumptions writef_empty_text_refuted.
Theorem writef_longest_text_refuted : exists t, forall scheme alloc, writef_message scheme (Some t) alloc = Ub.
Proof. destruct writef_longest_exists as [t H]. exists t. intros scheme alloc. apply writef_longest, H. Qed.
Print Assumptions writef_longest_text_refuted.

(** C67.  The life of a streamer is any sequence of output and calls of end(), and the destructor; for each call
    of end() it is given whether should_log is true at that moment. *)
Theorem streamer_logs_at_most_once : forall l pass,
  (slife l pass = [] /\ pass = false /\ ~ In (SEnd true) l) \/
  (exists l1 l2, l ++ [SEnd pass] = l1 ++ SEnd true :: l2 /\ ~ In (SEnd true) l1 /\ slife l pass = [streamed l1]).
Proof. exact streamer_proof. Qed.
Print Assumptions streamer_logs_at_most_once.
Example streamer_logs_at_most_once_ex :
  slife [SPut (chars "a"); SPut (chars "b"); SEnd true; SPut (chars "c"); SEnd true] true = [chars "ab"] /\
  slife [SPut (chars "a"); SEnd false] false = [].
Proof. exact streamer_ex. Qed.

(** C68.  [s] is any state of the stream. *)
Theorem log_line_shows_the_entry : forall hide e s, plain_tm (t_local e) -> (0 <= t_micros e)%Z -> (0 <= l_thread e)%Z ->
  exists t, out (default_log_writer hide e s) = out s ++ t /\ shows hide e t.
Proof. exact shows_proof. Qed.
Print Assumptions log_line_shows_the_entry.
Theorem log_line_columns_partial : forall hide e s, fits_columns e ->
  exists t, out (default_log_writer hide e s) = out s ++ t /\ columns (widths hide) "|" t (l_message e).
Proof. exact aligned_proof. Qed.
Print Assumptions log_line_columns_partial.
Theorem log_header_columns : forall hide s, exists t1 t2, out (default_header_writer hide s) = out s ++ t1 ++ [newline] ++ t2 /\
  columns (widths hide) "|" t1 (chars "Message") /\ columns (widths hide) "+" t2 (repeat "-"%char 7) /\
  ~ In newline t1 /\ ~ In newline t2 /\
  fill (default_header_writer hide s) = " "%char /\ width (default_header_writer hide s) = 0.
Proof. exact header_aligned_proof. Qed.
Print Assumptions log_header_columns.
(** [columns] with the same widths: the separators are at the same offsets *)
Theorem columns_line_up : forall w sep sep' t t' r r', columns w sep t r -> columns w sep' t' r' ->
  exists n, List.length t = n + List.length r /\ List.length t' = n + List.length r' /\
  forall k, k < List.length w -> let p := fold_right (fun x n => S x + n) 0 (firstn k w) + nth k w 0 in
  nth_error t p = Some sep /\ nth_error t' p = Some sep'.
Proof. exact columns_same. Qed.
Print Assumptions columns_line_up.
Example log_line_columns_ex : fits_columns sample /\
  out (default_log_writer false sample (Stream [] 3 "x" true)) =
  chars "2024-02-29 23:05:09.000042|   1234|Warning |a_very_long_file_nam|   77|run                 |disk almost full".
Proof. exact sample_row. Qed.
Example log_header_ex : out (default_header_writer false (Stream [] 0 " " false)) =
  chars "Timestamp                 |    TID|Level   |File Name           | Line|Function            |Message" ++ [newline] ++
  chars "--------------------------+-------+--------+--------------------+-----+--------------------+-------".
Proof. exact sample_header. Qed.
Theorem log_line_before_1970_refuted : exists e, plain_tm (t_local e) /\ (0 <= l_thread e < 10000000)%Z /\ (0 <= l_line e <= 99999)%Z /\
  ~ columns (widths true) "|" (log_row true e) (l_message e) /\
  forall s, out (default_log_writer true e s) = out s ++ log_row true e.
Proof.
  exists before_epoch. destruct before_epoch_row as (A & B & C & D & _).
  exact (conj A (conj B (conj C (conj D (row_proof true before_epoch))))).
Qed.
Print Assumptions log_line_before_1970_refuted.

(** C94 *)
Theorem log_entry_is_one_line : forall hide e s, plain_tm (t_local e) -> ~ In newline (l_file e) -> ~ In newline (l_function e) ->
  ~ In newline (l_message e) ->
  exists t, out (write_line (default_log_writer hide e) s) = out s ++ t ++ [newline] /\ ~ In newline t.
Proof. exact one_line_written. Qed.
Print Assumptions log_entry_is_one_line.
Example log_entry_is_one_line_ex : plain_tm (t_local sample) /\ ~ In newline (l_file sample) /\ ~ In newline (l_function sample) /\
  ~ In newline (l_message sample).
Proof. exact one_line_ex. Qed.
Theorem log_message_forges_an_entry_refuted : exists e, fits_columns e /\
  out (write_line (default_log_writer true e) (Stream [] 0 " " false)) =
  chars "2024-02-29 23:05:09.000000|      1|Info    |a" ++ [newline] ++
  chars "2024-02-29 23:05:09.000000|      1|Fatal   |forged" ++ [newline].
Proof. exists two_lines. exact two_lines_row. Qed.
Print Assumptions log_message_forges_an_entry_refuted.

(** C95 *)
Theorem streamer_end_may_log_later_refuted : exists a b, b <> [] /\ slife [SPut a; SEnd false; SPut b] true = [a ++ b].
Proof. exists (chars "a"), (chars "b"). split; [discriminate|exact streamer_end_later]. Qed.
Print Assumptions streamer_end_may_log_later_refuted.
Theorem streamer_after_logging_is_silent : forall l1 l2 pass, slife (l1 ++ SEnd true :: l2) pass = slife l1 true.
Proof. exact streamer_silent. Qed.
Print Assumptions streamer_after_logging_is_silent.

(** C96 *)
Theorem level_names_differ : forall l l', (-1 <= l <= 8)%Z -> (-1 <= l' <= 8)%Z ->
  (log_level_to_c_str l = log_level_to_c_str l' \/ log_level_to_title l = log_level_to_title l' \/
   log_level_to_shortened l = log_level_to_shortened l' \/ log_level_to_char l = log_level_to_char l') -> l = l'.
Proof. exact level_names_proof. Qed.
Print Assumptions level_names_differ.
Theorem level_names_agree : forall l, map lower (chars (log_level_to_title l)) = chars (log_level_to_c_str l) /\
  List.length (chars (log_level_to_shortened l)) = 3 /\
  ((-1 <= l <= 8)%Z -> exists r, chars (log_level_to_title l) = log_level_to_char l :: r).
Proof. exact level_same_proof. Qed.
Print Assumptions level_names_agree.
Theorem level_names_fit_their_column : forall l, List.length (chars (log_level_to_title l)) <= 8.
Proof. exact title_length. Qed.
Print Assumptions level_names_fit_their_column.
Theorem level_names_of_other_values : forall l, ~ (-1 <= l <= 8)%Z ->
  log_level_to_c_str l = "unknown"%string /\ log_level_to_title l = "Unknown"%string /\
  log_level_to_shortened l = "UNK"%string /\ log_level_to_char l = "?"%char.
Proof. exact level_other_proof. Qed.
Print Assumptions level_names_of_other_values.
Example level_names_ex : log_level_to_title 7 = "Critical"%string /\ log_level_to_shortened 7 = "CRT"%string /\
  log_level_to_char 7 = "C"%char /\ log_level_to_c_str 9 = "unknown"%string.
Proof. repeat split. Qed.

(** C97 *)
Theorem level_off_accepts_entries_of_level_off_refuted : exists tr s e, exec_nat (start 9 0 5 0) tr s /\
  (forall z, ~ In (ELevel z) tr) /\ In (EAccept e) tr.
Proof. exact off_execution. Qed.
Print Assumptions level_off_accepts_entries_of_level_off_refuted.
