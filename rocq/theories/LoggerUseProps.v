(** Property theorems C167 and C168: logger::is_logging, and the strings a log entry points to.

    [exec ltb (initial lvl max flush clock) tr s]: as in LoggerProps.v.  In C168 a history [h] is an execution ([events h])
    with the ends of the lives of the strings of its calls put between its steps. *)
From Coq Require Import List Bool Arith ZArith.
From Verif Require Import Base ListUpdate LoggerModel LoggerSpec LoggerProofs LoggerExamples LoggerUseModel LoggerUseSpec LoggerUseProofs LoggerUseExamples.
Import ListNotations.

(** C167: it is true exactly until the destructor begins, and while it is true the thread runs; the thread also runs
    some time after that *)
Theorem is_logging_partial : forall K M (ltb : K -> K -> bool), strict_total_order ltb ->
  forall lvl max flush clock tr (s : @logger K M), exec ltb (initial lvl max flush clock) tr s ->
  (is_logging s = true <-> dtor s = DNone) /\ (is_logging s = true -> thread_runs s).
Proof. exact @is_logging_proof. Qed.
Print Assumptions is_logging_partial.
Theorem is_logging_refuted : exists tr s, exec_nat (start 0 0 1 100) tr s /\ is_logging s = false /\ thread_runs s /\
  exists k todo n, pc s = LWrite k todo n /\ todo <> [].
Proof. exact writing_not_logging. Qed.
Print Assumptions is_logging_refuted.
Example is_logging_ex : exists tr s, exec_nat (start 0 0 1 100) tr s /\ is_logging s = true /\ pc s = LWaiting.
Proof. exact sleeping_logging. Qed.

(** C168: enough is that they live until the entry is written or dropped *)
Theorem source_strings_partial : forall K M (ltb : K -> K -> bool), strict_total_order ltb ->
  forall lvl max flush clock (h : list (@act K M)) s, exec ltb (initial lvl max flush clock) (events h) s ->
  patient h -> ~ reads_released h.
Proof. exact @patient_proof. Qed.
Print Assumptions source_strings_partial.
Example source_strings_ex : exists h s, exec_nat (start 4 0 1 100) (events h) s /\ patient h /\ In (Release 0) h /\ In (Release 1) h.
Proof. exact patient_history. Qed.
(** and needed: as long as the logger lives, an accepted entry that is not written may still be read *)
Theorem source_strings_needed : forall K M (ltb : K -> K -> bool), strict_total_order ltb ->
  forall lvl max flush clock tr (s : @logger K M) e, exec ltb (initial lvl max flush clock) tr s -> dtor s = DNone ->
  In (EAccept e) tr -> ~ written_call (e_id e) tr ->
  exists tr' s' k, exec ltb s tr' s' /\ In (EWrite k e) tr'.
Proof. exact @needed_proof. Qed.
Print Assumptions source_strings_needed.
Example source_strings_needed_ex : exists tr s e, exec_nat (start 0 0 5 100) tr s /\ dtor s = DNone /\ In (EAccept e) tr /\
  ~ written_call (e_id e) tr /\ returned (e_id e) s.
Proof. exact unwritten_entry. Qed.
(** to live as long as the call is not enough *)
Theorem source_strings_refuted : exists (h : list (@act nat nat)) a b s1 s, h = a ++ Release 0 :: b /\
  exec_nat (start 0 0 1 100) (events a) s1 /\ returned 0 s1 /\ exec_nat s1 (events b) s /\ reads_released h.
Proof. exact released_after_return. Qed.
Print Assumptions source_strings_refuted.
