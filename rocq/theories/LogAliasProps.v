(** Property theorem C180: a log file with several names. *)
From Coq Require Import List Bool Arith Ascii String ZArith.
From Verif Require Import Base LoggerModel LoggerSpec LogFileModel LogFileSpec LogFileProofs LogFilePaths LogFileExamples LogAliasSpec LogAliasProofs LogAliasExamples.
Import ListNotations.

(** C180.  The files of a log file contain what was written to it under all its names, in the order of writing, apart from
    what rotation removes; and the entries of each name in the order in which they were accepted. *)
Theorem log_file_with_two_names_partial : forall P F K M (peqb : P -> P -> bool) (feqb : F -> F -> bool) (file : K -> F) (fpath : F -> nat -> P) (ltb : K -> K -> bool),
  (forall p q, peqb p q = true <-> p = q) -> (forall p q, feqb p q = true <-> p = q) -> strict_total_order ltb -> separate fpath ->
  forall (L R : nat -> Prop) (H : bool -> Prop) lvl max flush clock d0 tr (s : @logger K M) d f fs0,
  system peqb (fun k => fpath (file k)) L R H ltb (initial lvl max flush clock) d0 tr s d -> all_files (fpath f) d0 fs0 ->
  exists fs, all_files (fpath f) d fs /\ sublist (all_lines fs) (all_lines fs0 ++ written_to_file feqb file f tr) /\
    (forall limit, (forall n, L n -> n = limit) -> (forall i, limit < i -> d0 (fpath f i) = None) ->
      suffix_of (all_lines fs) (all_lines fs0 ++ written_to_file feqb file f tr)) /\
    ((forall n, R n -> n = 0) -> all_lines fs = all_lines fs0 ++ written_to_file feqb file f tr) /\
    forall k, file k = f -> sublist (filter (same_file ltb k) (all_lines fs)) (filter (same_file ltb k) (all_lines fs0) ++ accepted_for ltb k tr).
Proof. exact @alias_proof. Qed.
Print Assumptions log_file_with_two_names_partial.
Example log_file_with_two_names_ex : separate its_paths /\ (forall p q, unit_eqb p q = true <-> p = q) /\ strict_total_order bool_lt.
Proof. exact (conj its_paths_separate (conj unit_eqb_true bool_order)). Qed.
(** but not in the order in which the entries of different names were accepted; the header is written once *)
Theorem log_file_with_two_names_refuted : exists tr s d,
  system path_eqb (fun k : bool => its_paths (one_file k)) (eq 1) (eq 0) (eq true) bool_lt (initial 0 0 1 0) (fun _ => None) tr s d /\
  all_files (its_paths tt) (fun _ => None) (@nil (list (chunk (entry bool nat)))) /\
  map e_msg (accepted_for_file unit_eqb one_file tt tr) = [11; 12] /\ map e_msg (written_to_file unit_eqb one_file tt tr) = [12; 11] /\
  option_map (fun c => map e_msg (lines_of c)) (d (chars "/v/log.txt")) = Some [12; 11] /\
  option_map (fun c => text_of c) (d (chars "/v/log.txt")) = Some ("H" ++ newline ++ "0123456789" ++ newline ++ "0123456789" ++ newline)%string.
Proof. exact alias_run. Qed.
Print Assumptions log_file_with_two_names_refuted.
