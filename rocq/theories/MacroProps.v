(** Property theorems C112-C116: the logging macros.

    [checks n] is the n-th answer of should_log, [adds n] says whether the n-th call of add_log_to_buffer succeeds;
    [ord] is the order in which the compiler evaluates function arguments; [fmt] is the formatting done by writef
    and format.  Operand 0 is the macro's [file], the operands from 1 on are the message and its arguments. *)
From Coq Require Import List Bool Arith Ascii String.
From Verif Require Import MacroModel MacroSpec MacroProofs MacroExamples.
Import ListNotations.

(** C112 *)
Theorem log_write_is_lazy : forall checks adds fmt ord file args o s',
  log_write checks adds fmt ord file args start = (o, s') ->
  (exists l, ord = evaluated (trace s') ++ l) /\
  (checks 0 = false -> o = Fine /\ evaluated (trace s') = []) /\
  (checks 0 = true -> some_order (S (List.length args)) ord -> Forall gives (file :: args) -> evaluated (trace s') = ord).
Proof. exact write_lazy. Qed.
Print Assumptions log_write_is_lazy.
Theorem log_stream_is_lazy : forall checks adds file args o s',
  log_stream checks adds file args start = (o, s') ->
  (exists n, n <= S (List.length args) /\ evaluated (trace s') = seq 0 n) /\
  (checks 0 = false -> o = Fine /\ evaluated (trace s') = []) /\
  (checks 0 = true -> Forall gives (file :: args) -> evaluated (trace s') = seq 0 (S (List.length args))).
Proof. exact stream_lazy. Qed.
Print Assumptions log_stream_is_lazy.
Example log_write_is_lazy_ex : exists s, some_order 3 [2; 0; 1] /\ Forall gives [Gives (chars "f"); Gives (chars "a"); Gives (chars "b")] /\
  log_write yes yes join [2; 0; 1] (Gives (chars "f")) [Gives (chars "a"); Gives (chars "b")] start = (Fine, s) /\
  trace s = [ELogger; ECheck true; ELogger; EEval 2; EEval 0; EEval 1; ECheck true; EAdd (chars "f") (chars "ab")].
Proof. exact write_example. Qed.

(** C113 *)
Theorem log_write_adds_the_message : forall checks adds fmt ord file args m o s',
  some_order (S (List.length args)) ord -> Forall gives (file :: args) ->
  fmt (map value_of args) = Some m -> (forall n, adds n = true) ->
  log_write checks adds fmt ord file args start = (o, s') ->
  o = Fine /\ added (trace s') = if checks 0 && checks 1 then [(value_of file, m)] else [].
Proof. exact write_added. Qed.
Print Assumptions log_write_adds_the_message.
Theorem log_stream_adds_the_message : forall checks adds file args o s',
  Forall gives (file :: args) -> (forall n, adds n = true) ->
  log_stream checks adds file args start = (o, s') ->
  o = Fine /\ added (trace s') =
    if checks 0 && (checks 1 || checks 2) then [(value_of file, List.concat (map value_of args))] else [].
Proof. exact stream_added. Qed.
Print Assumptions log_stream_adds_the_message.
Theorem log_write_adds_at_most_one : forall checks adds fmt ord file args o s',
  log_write checks adds fmt ord file args start = (o, s') -> List.length (added (trace s')) <= 1.
Proof. exact write_once. Qed.
Print Assumptions log_write_adds_at_most_one.
Theorem log_stream_adds_at_most_one : forall checks adds file args o s',
  log_stream checks adds file args start = (o, s') -> List.length (added (trace s')) <= 1.
Proof. exact stream_once. Qed.
Print Assumptions log_stream_adds_at_most_one.
Example log_stream_adds_the_message_ex : exists s,
  log_stream yes yes (Gives (chars "f")) [Gives (chars "a"); Gives (chars "b")] start = (Fine, s) /\
  trace s = [ELogger; ECheck true; ELogger; EEval 0; EEval 1; EEval 2; ECheck true; EAdd (chars "f") (chars "ab")].
Proof. exact stream_example. Qed.

(** C114 *)
Theorem log_write_with_throwing_operand_partial : forall checks adds fmt ord file args t o s',
  some_order (S (List.length args)) ord -> In (Fails t) (file :: args) ->
  log_write checks adds fmt ord file args start = (o, s') ->
  added (trace s') = [] /\ o = if checks 0 then Threw else Fine.
Proof. exact write_operand_throws. Qed.
Print Assumptions log_write_with_throwing_operand_partial.
Example log_write_with_throwing_operand_ex : exists s, some_order 2 [1; 0] /\ In (Fails []) [Gives (chars "f"); Fails []] /\
  log_write yes yes join [1; 0] (Gives (chars "f")) [Fails []] start = (Threw, s).
Proof. exact write_throws_example. Qed.
Theorem log_stream_with_throwing_operand_refuted : exists s,
  log_stream yes yes (Gives (chars "f")) [Gives (chars "a"); Fails []; Gives (chars "b")] start = (Threw, s) /\
  added (trace s) = [(chars "f", chars "a")].
Proof. exact stream_partial_message. Qed.
Print Assumptions log_stream_with_throwing_operand_refuted.
(** the part of the message before the exception is logged *)
Theorem log_stream_with_throwing_operand : forall checks adds f l1 t l2 o s',
  Forall gives l1 -> (forall n, adds n = true) ->
  log_stream checks adds (Gives f) (l1 ++ Fails t :: l2) start = (o, s') ->
  added (trace s') = (if checks 0 && checks 1 then [(f, List.concat (map value_of l1) ++ t)] else []) /\
  o = if checks 0 then Threw else Fine.
Proof. exact stream_operand_throws. Qed.
Print Assumptions log_stream_with_throwing_operand.

(** C115 *)
Theorem log_write_survives_partial : forall checks adds fmt ord file args o s',
  log_write checks adds fmt ord file args start = (o, s') ->
  o <> Terminated /\ (o = Threw -> added (trace s') = []).
Proof. exact write_threw. Qed.
Print Assumptions log_write_survives_partial.
Theorem log_stream_survives_refuted : exists s,
  log_stream yes (fun _ => false) (Gives (chars "f")) [Gives (chars "a")] start = (Terminated, s).
Proof. exact stream_terminates. Qed.
Print Assumptions log_stream_survives_refuted.
Theorem log_stream_survives_partial : forall checks adds file args o s',
  log_stream checks adds file args start = (o, s') -> o = Terminated ->
  checks 0 = true /\ (checks 1 = true \/ checks 2 = true) /\ adds 0 = false /\ added (trace s') = [].
Proof. exact stream_survives. Qed.
Print Assumptions log_stream_survives_partial.
(** the destructor of the streamer tries again *)
Example log_stream_retries_ex : exists s,
  log_stream yes (fun n => n =? 1) (Gives (chars "f")) [Gives (chars "a")] start = (Threw, s) /\
  added (trace s) = [(chars "f", chars "a")].
Proof. exact retry_example. Qed.

(** C116 *)
Theorem log_write_evaluates_its_logger_once_refuted : exists s,
  log_write yes yes join [0; 1] (Gives (chars "f")) [Gives (chars "a")] start = (Fine, s) /\ loggers (trace s) = 2.
Proof. exact logger_twice_example. Qed.
Print Assumptions log_write_evaluates_its_logger_once_refuted.
Theorem log_write_logger_evaluations : forall checks adds fmt ord file args o s',
  log_write checks adds fmt ord file args start = (o, s') -> loggers (trace s') = if checks 0 then 2 else 1.
Proof. exact logger_twice_write. Qed.
Print Assumptions log_write_logger_evaluations.
Theorem log_stream_logger_evaluations : forall checks adds file args o s',
  log_stream checks adds file args start = (o, s') -> loggers (trace s') = if checks 0 then 2 else 1.
Proof. exact logger_twice_stream. Qed.
Print Assumptions log_stream_logger_evaluations.
