(** Cases for LogDefaultsProps.v. *)
From Coq Require Import List Bool Arith ZArith Ascii String.
From Verif Require Import Base LoggerModel LoggerSpec LoggerExamples LogFileModel LogFileSpec LogFilePaths LogFileExamples LogDefaultsModel LogDefaultsSpec.
Import ListNotations.

Local Ltac compute_it := match goal with |- ?a = ?b => let x := eval vm_compute in a in unify b x; vm_cast_no_check (@eq_refl _ x) end.
Local Ltac side := first [reflexivity | solve [cbv; intuition discriminate]].
Local Tactic Notation "cli" hyp(E) uconstr(c) := eapply bexec_go in E; [|left; eapply c; side|compute_it|compute_it].
Local Tactic Notation "int" hyp(E) uconstr(c) := eapply bexec_go in E; [|right; left; eapply c; side|compute_it|compute_it].

(** an entry of the lowest level *)
Lemma default_life : exists tr1 s1 d1 s2 tr2 s d e,
  system path_eqb apath (eq (st_limit defaults)) (eq (st_size defaults)) (eq (st_header defaults)) bool_lt (@new_logger bool nat defaults 0) (fun _ => None) tr1 s1 d1 /\
  step bool_lt s1 EDestroy s2 /\
  system path_eqb apath (eq (st_limit defaults)) (eq (st_size defaults)) (eq (st_header defaults)) bool_lt s2 d1 tr2 s d /\ dtor s = DDone /\
  unchanged tr1 /\ In (ECall e) tr1 /\ e_level e = 0%Z /\ e_msg e = 13 /\ ~ In (EFail (e_file e)) tr2 /\
  option_map (fun c => map e_msg (lines_of c)) (d (chars "/v/log.txt")) = Some [11; 13].
Proof.
  pose proof (exec_nil bool_lt (@new_logger bool nat defaults 0)) as E.
  cli E (c_call _ 0 true 5%Z 11). int E (p_check _ _ _ []). int E (p_time _ _ _ []). int E (p_add _ _ _ []). int E (p_notify _ _ _ []).
  int E l_start. int E l_check. int E l_scan. int E l_open. int E l_write. int E l_written. int E l_erase. int E l_scan. int E l_check.
  int E l_scan. int E l_scan. int E l_check. int E l_wait.
  cli E (c_call _ 0 true 0%Z 13). int E (p_check _ _ _ []). int E (p_time _ _ _ []). int E (p_add _ _ _ []). int E (p_notify _ _ _ []).
  cli E (c_call _ 0 true (-1)%Z 14). int E (p_check _ _ _ []).
  match type of E with exec _ _ _ ?s => assert (S : step bool_lt s EDestroy (set_dtor DStopped (set_logging false s))) by (left; constructor; reflexivity) end.
  cbn in S. match type of S with step _ _ _ ?s => pose proof (exec_nil bool_lt s) as F end.
  int F d_notify. int F l_woken. int F l_check. int F d_join. int F d_flush. int F d_open. int F d_write. int F d_written. int F d_flush.
  do 8 eexists. split; [eapply play_system; [exact E|reflexivity]|]. split; [exact S|]. split; [eapply play_system; [exact F|reflexivity]|].
  split; [reflexivity|]. split; [split; intros n H; cbn in H; intuition discriminate|].
  split; [cbn; do 18 right; left; reflexivity|]. split; [reflexivity|]. split; [reflexivity|].
  split; [cbn; intuition discriminate|]. vm_compute; reflexivity.
Qed.

Lemma default_rotation : exists (d : @disk (list ascii) nat) c' d', d log_txt = Some [Old "newest"] /\ d log_1_txt = Some [Old "older"] /\
  rotate path_eqb (file_path log_txt) always (st_limit defaults) 4 0 d = (Done, c', d') /\ d' log_txt = None /\ d' log_1_txt = None.
Proof. exists (one_disk [(log_txt, "newest"%string); (log_1_txt, "older"%string)]). do 2 eexists. repeat (split; [reflexivity|]). reflexivity. Qed.
Lemma documented_rotation : exists (d : @disk (list ascii) nat) c' d', d log_txt = Some [Old "newest"] /\ d log_1_txt = Some [Old "older"] /\
  rotate path_eqb (file_path log_txt) always (st_limit documented) 4 0 d = (Done, c', d') /\ d' log_txt = None /\ d' log_1_txt = Some [Old "newest"].
Proof. exists (one_disk [(log_txt, "newest"%string); (log_1_txt, "older"%string)]). do 2 eexists. repeat (split; [reflexivity|]). reflexivity. Qed.
Lemma defaults_agree : st_level defaults = st_level documented /\ st_dirs defaults = st_dirs documented /\ st_header defaults = st_header documented /\
  st_max defaults = st_max documented /\ st_flush defaults = st_flush documented /\ st_size defaults = st_size documented.
Proof. repeat split. Qed.
Lemma limit_differs : st_limit defaults = 0 /\ st_limit documented = 1.
Proof. split; reflexivity. Qed.
