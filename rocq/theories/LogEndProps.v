(** C189: the bytes of the files of a logger with the default writers. *)
From Coq Require Import Ascii String List Bool Arith ZArith.
From Verif Require Import Base LoggerModel LoggerSpec LogTextModel LogFileModel LogFileSpec LogTestSpec LogEndModel LogEndSpec LogEndProofs LogEndExamples.
Import ListNotations.
Open Scope list_scope.

(** at any time, whatever was rotated and whatever failed, each file is empty or the header and the lines of its entries *)
Theorem log_files_are_header_and_lines : forall P K M (peqb : P -> P -> bool) (path : K -> nat -> P) (ltb : K -> K -> bool),
  (forall p q, peqb p q = true <-> p = q) -> forall hide view (L R : nat -> Prop) (s0 : @logger K M) d0 tr s d k fs, (forall p, d0 p = None) ->
  text_system peqb path hide view L R ltb s0 d0 tr s d -> all_files (path k) d fs -> files_for hide view fs (map lines_of fs).
Proof. exact @any_time_proof. Qed.
Print Assumptions log_files_are_header_and_lines.

(** after the destructor the files, oldest first, have the newest of the accepted entries, in order; all of them if the rotation
    size is 0 *)
Theorem log_files_after_the_destructor : forall P K M (peqb : P -> P -> bool) (path : K -> nat -> P) (ltb : K -> K -> bool),
  (forall p q, peqb p q = true <-> p = q) -> forall hide view (L R : nat -> Prop), strict_total_order ltb -> separate path ->
  forall limit lvl max flush clock d0 tr1 (s1 : @logger K M) d1 s2 tr2 s d k, (forall n, L n -> n = limit) -> (forall p, d0 p = None) ->
  text_system peqb path hide view L R ltb (initial lvl max flush clock) d0 tr1 s1 d1 -> step ltb s1 EDestroy s2 ->
  text_system peqb path hide view L R ltb s2 d1 tr2 s d -> dtor s = DDone -> ~ In (EFail k) tr2 ->
  exists fs ess, all_files (path k) d fs /\ files_for hide view fs ess /\
    suffix_of (concat ess) (accepted_for ltb k (tr1 ++ EDestroy :: tr2)) /\
    ((forall n, R n -> n = 0) -> concat ess = accepted_for ltb k (tr1 ++ EDestroy :: tr2)).
Proof. exact @end_proof. Qed.
Print Assumptions log_files_after_the_destructor.

(** with the default rotation size, 0, there is one file: the header and the lines of all accepted entries *)
Theorem log_file_after_the_destructor : forall P K M (peqb : P -> P -> bool) (path : K -> nat -> P) (ltb : K -> K -> bool),
  (forall p q, peqb p q = true <-> p = q) -> forall hide view (L R : nat -> Prop), strict_total_order ltb -> separate path ->
  forall limit lvl max flush clock d0 tr1 (s1 : @logger K M) d1 s2 tr2 s d k, (forall n, L n -> n = limit) -> (forall n, R n -> n = 0) -> (forall p, d0 p = None) ->
  text_system peqb path hide view L R ltb (initial lvl max flush clock) d0 tr1 s1 d1 -> step ltb s1 EDestroy s2 ->
  text_system peqb path hide view L R ltb s2 d1 tr2 s d -> dtor s = DDone -> ~ In (EFail k) tr2 ->
  (forall i, d (path k (S i)) = None) /\
  (accepted_for ltb k (tr1 ++ EDestroy :: tr2) <> [] -> exists c, d (path k 0) = Some c /\
    written_file hide (map view (accepted_for ltb k (tr1 ++ EDestroy :: tr2))) (list_ascii_of_string (text_of c))).
Proof. exact @one_end_proof. Qed.
Print Assumptions log_file_after_the_destructor.
Example log_files_ex : separate numbered_path /\ (forall p q, pair_eqb p q = true <-> p = q) /\
  exists tr1 s1 d1 s2 tr2 s d, nat_system (initial 0 0 2 100) (fun _ => None) tr1 s1 d1 /\ step Nat.ltb s1 EDestroy s2 /\
  nat_system s2 d1 tr2 s d /\ dtor s = DDone /\ ~ In (EFail 7) tr2 /\ map e_msg (accepted_for Nat.ltb 7 (tr1 ++ EDestroy :: tr2)) = [1; 2].
Proof. exact (conj numbered_separate (conj pair_eqb_eq ended)). Qed.
