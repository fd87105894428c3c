(** Concrete executions for LogAliasProps.v: "/v/log.txt" under two names, [false] and [true]. *)
From Coq Require Import List Bool Arith Ascii String ZArith Lia.
From Verif Require Import Base LoggerModel LoggerSpec LogFileModel LogFileSpec LogFileProofs LogFilePaths LogFileExamples LogAliasSpec.
Import ListNotations.
Local Open Scope string_scope.

Definition one_file (k : bool) : unit := tt.
Definition its_paths (f : unit) : nat -> list ascii := file_path log_txt.
Definition unit_eqb (a b : unit) : bool := true.
Lemma its_paths_separate : separate its_paths.
Proof. intros [] i [] j E. split; [reflexivity|]. exact (path_inj_proof log_txt _ _ E). Qed.
Lemma unit_eqb_true : forall p q, unit_eqb p q = true <-> p = q.
Proof. intros [] []. split; reflexivity. Qed.
Notation both := (fun k : bool => its_paths (one_file k)).

Section Play.
Variables (limit rsize : nat) (header : bool).
Definition aplay (d : log_disk) (ev : @event bool nat) : option log_disk :=
  match ev with
  | EOpen k => Some (open_file path_eqb (both k 0) d)
  | EWrite k e => match write_entry path_eqb (both k) always 10 limit rsize header "H" "0123456789" e d with (Done, d') => Some d' | _ => None end
  | EFail k => Some d
  | _ => Some d
  end.
Fixpoint aplays (d : log_disk) (tr : list (@event bool nat)) : option log_disk :=
  match tr with [] => Some d | e :: tr => match aplay d e with Some d => aplays d tr | None => None end end.
Lemma aplays_snoc tr : forall d e, aplays d (tr ++ [e]) = match aplays d tr with Some d => aplay d e | None => None end.
Proof. induction tr as [|x tr IH]; intros d e; cbn; [destruct (aplay d e); reflexivity|]. destruct (aplay d x); [apply IH|reflexivity]. Qed.
Lemma aplay_step d ev d' : aplay d ev = Some d' -> disk_step path_eqb both (eq limit) (eq rsize) (eq header) d ev d'.
Proof.
  destruct ev; cbn; intros X; try (injection X as <-; apply k_other; exact I).
  - injection X as <-. apply (k_open path_eqb both (eq limit) (eq rsize) (eq header)).
  - destruct (write_entry _ _ _ _ _ _ _ _ _ _ _) as [o d1] eqn:W. destruct o; try discriminate. injection X as <-.
    apply (k_write path_eqb both (eq limit) (eq rsize) (eq header) d k e always 10 limit rsize header "H" "0123456789" d1); auto.
  - injection X as <-. apply (k_fail path_eqb both (eq limit) (eq rsize) (eq header) d k false).
Qed.
Lemma aplay_system s0 d0 tr s d : exec bool_lt s0 tr s -> aplays d0 tr = Some d -> system path_eqb both (eq limit) (eq rsize) (eq header) bool_lt s0 d0 tr s d.
Proof.
  intros E. revert d. induction E as [|tr s e s' E IH S]; intros d X; [injection X as <-; constructor|].
  rewrite aplays_snoc in X. destruct (aplays d0 tr) as [d1|]; [|discriminate]. econstructor; [apply IH; reflexivity|exact S|apply aplay_step, X].
Qed.
End Play.
Local Ltac compute_it := match goal with |- ?a = ?b => let x := eval vm_compute in a in unify b x; vm_cast_no_check (@eq_refl _ x) end.
Local Ltac side := first [reflexivity | solve [cbv; intuition discriminate]].
Local Tactic Notation "cli" hyp(E) uconstr(c) := eapply bexec_go in E; [|left; eapply c; side|compute_it|compute_it].
Local Tactic Notation "int" hyp(E) uconstr(c) := eapply bexec_go in E; [|right; left; eapply c; side|compute_it|compute_it].
(** an entry under the name [true], then one under the name [false]; the second is written first *)
Lemma alias_run : exists tr s d, system path_eqb both (eq 1) (eq 0) (eq true) bool_lt (initial 0 0 1 0) (fun _ => None) tr s d /\
  all_files (its_paths tt) (fun _ => None) (@nil (list (chunk (entry bool nat)))) /\
  map e_msg (accepted_for_file unit_eqb one_file tt tr) = [11; 12] /\ map e_msg (written_to_file unit_eqb one_file tt tr) = [12; 11] /\
  option_map (fun c => map e_msg (lines_of c)) (d (chars "/v/log.txt")) = Some [12; 11] /\
  option_map (fun c => text_of c) (d (chars "/v/log.txt")) = Some ("H" ++ newline ++ "0123456789" ++ newline ++ "0123456789" ++ newline).
Proof.
  pose proof (exec_nil bool_lt (@initial bool nat 0 0 1 0)) as E.
  cli E (c_call _ 0 true 5%Z 11). int E (p_check _ _ _ []). int E (p_time _ _ _ []). int E (p_add _ _ _ []). int E (p_notify _ _ _ []).
  cli E (c_call _ 0 false 5%Z 12). int E (p_check _ _ _ []). int E (p_time _ _ _ []). int E (p_add _ _ _ []). int E (p_notify _ _ _ []).
  int E l_start. int E l_check. int E l_scan. int E l_open. int E l_write. int E l_written. int E l_erase. int E l_scan. int E l_open. int E l_write.
  int E l_written. int E l_erase.
  do 3 eexists. split; [eapply aplay_system; [exact E|reflexivity]|]. split; [exists 0; split; reflexivity|]. split; [reflexivity|]. split; [reflexivity|].
  split; vm_compute; reflexivity.
Qed.
