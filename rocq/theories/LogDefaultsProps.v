(** Property theorems C169 and C170: a logger with the default settings. *)
From Coq Require Import List Bool Arith ZArith Ascii String.
From Verif Require Import Base LoggerModel LoggerSpec LoggerExamples LogFileModel LogFileSpec LogFilePaths LogFileExamples
  LogDefaultsModel LogDefaultsSpec LogDefaultsProofs LogDefaultsExamples.
Import ListNotations.

(** C169: while the level and the size of the buffer are left as they are, no entry is dropped *)
Theorem defaults_drop_nothing : forall K M (ltb : K -> K -> bool), strict_total_order ltb ->
  forall clock tr (s : @logger K M), exec ltb (new_logger defaults clock) tr s -> unchanged tr ->
  (forall e, ~ In (EDiscard e) tr) /\ (forall e, In (EReject e) tr -> (e_level e < 0)%Z) /\
  (calls s = [] -> forall e, In (ECall e) tr -> (0 <= e_level e)%Z -> exists t, In (EAccept (stamp e t)) tr).
Proof. exact @nothing_dropped_proof. Qed.
Print Assumptions defaults_drop_nothing.
(** and after the destructor every one of them is in the files *)
Theorem defaults_log_everything : forall K M (ltb : K -> K -> bool), strict_total_order ltb ->
  forall P (peqb : P -> P -> bool) (path : K -> nat -> P), (forall p q, peqb p q = true <-> p = q) -> separate path ->
  forall clock d0 tr1 (s1 : @logger K M) d1 s2 tr2 s d fs0 e,
  system peqb path (eq (st_limit defaults)) (eq (st_size defaults)) (eq (st_header defaults)) ltb (new_logger defaults clock) d0 tr1 s1 d1 ->
  step ltb s1 EDestroy s2 ->
  system peqb path (eq (st_limit defaults)) (eq (st_size defaults)) (eq (st_header defaults)) ltb s2 d1 tr2 s d -> dtor s = DDone ->
  unchanged tr1 -> In (ECall e) tr1 -> (0 <= e_level e)%Z -> ~ In (EFail (e_file e)) tr2 ->
  all_files (path (e_file e)) d0 fs0 -> (forall i, 0 < i -> d0 (path (e_file e) i) = None) ->
  exists fs t, all_files (path (e_file e)) d fs /\ In (stamp e t) (all_lines fs).
Proof. exact @everything_logged_proof. Qed.
Print Assumptions defaults_log_everything.
Example defaults_log_everything_ex : exists tr1 s1 d1 s2 tr2 s d e,
  system path_eqb apath (eq (st_limit defaults)) (eq (st_size defaults)) (eq (st_header defaults)) bool_lt (@new_logger bool nat defaults 0) (fun _ => None) tr1 s1 d1 /\
  step bool_lt s1 EDestroy s2 /\
  system path_eqb apath (eq (st_limit defaults)) (eq (st_size defaults)) (eq (st_header defaults)) bool_lt s2 d1 tr2 s d /\ dtor s = DDone /\
  unchanged tr1 /\ In (ECall e) tr1 /\ e_level e = 0%Z /\ e_msg e = 13 /\ ~ In (EFail (e_file e)) tr2 /\
  option_map (fun c => map e_msg (lines_of c)) (d (chars "/v/log.txt")) = Some [11; 13].
Proof. exact default_life. Qed.

(** C170: the defaults are the documented ones, but for the rotation limit *)
Theorem defaults_documented_partial : st_level defaults = st_level documented /\ st_dirs defaults = st_dirs documented /\
  st_header defaults = st_header documented /\ st_max defaults = st_max documented /\ st_flush defaults = st_flush documented /\
  st_size defaults = st_size documented.
Proof. exact defaults_agree. Qed.
Print Assumptions defaults_documented_partial.
Theorem defaults_documented_refuted : st_limit defaults = 0 /\ st_limit documented = 1.
Proof. exact limit_differs. Qed.
Print Assumptions defaults_documented_refuted.
(** so a rotation deletes the current file and all numbered ones that follow on it *)
Theorem default_limit_deletes : forall P E (peqb : P -> P -> bool), (forall p q, peqb p q = true <-> p = q) ->
  forall path : nat -> P, (forall i j, path i = path j -> i = j) ->
  forall ok fuel c (d : @disk P E) o c' d', rotate peqb path ok (st_limit defaults) fuel c d = (o, c', d') -> o = Done ->
  exists m, run_of path d m /\ (forall i, i < m -> d' (path i) = None) /\ (forall i, m <= i -> d' (path i) = d (path i)) /\
    (forall p, (forall i, p <> path i) -> d' p = d p).
Proof. exact @default_rotation_proof. Qed.
Print Assumptions default_limit_deletes.
Example default_limit_ex : exists (d : @disk (list ascii) nat) c' d', d log_txt = Some [Old "newest"] /\ d log_1_txt = Some [Old "older"] /\
  rotate path_eqb (file_path log_txt) always (st_limit defaults) 4 0 d = (Done, c', d') /\ d' log_txt = None /\ d' log_1_txt = None.
Proof. exact default_rotation. Qed.
(** with the documented limit it would be kept *)
Theorem documented_limit_keeps : forall P E (peqb : P -> P -> bool), (forall p q, peqb p q = true <-> p = q) ->
  forall path : nat -> P, (forall i j, path i = path j -> i = j) ->
  forall ok fuel c (d : @disk P E) o c' d', rotate peqb path ok (st_limit documented) fuel c d = (o, c', d') -> o = Done ->
  d (path 0) <> None -> d' (path 1) = d (path 0).
Proof. exact @documented_rotation_proof. Qed.
Print Assumptions documented_limit_keeps.
Example documented_limit_ex : exists (d : @disk (list ascii) nat) c' d', d log_txt = Some [Old "newest"] /\ d log_1_txt = Some [Old "older"] /\
  rotate path_eqb (file_path log_txt) always (st_limit documented) 4 0 d = (Done, c', d') /\ d' log_txt = None /\ d' log_1_txt = Some [Old "newest"].
Proof. exact documented_rotation. Qed.
