(** Concrete disks and executions. *)
From Coq Require Import List Bool Arith Ascii String ZArith Lia.
From Verif Require Import Base ListUpdate LoggerModel LoggerSpec LoggerExamples LogFileModel LogFileSpec LogFileProofs LogFileSystem LogFilePaths.
Import ListNotations.
Local Open Scope string_scope.
Local Open Scope list_scope.

Notation chars := list_ascii_of_string.
Definition log_txt : list ascii := chars "/v/log.txt".
Definition log_1_txt : list ascii := chars "/v/log_1.txt".
Notation text_disk := (@disk (list ascii) nat).
Definition one_disk (l : list (list ascii * string)) : text_disk :=
  fun p => option_map (fun x => [Old (snd x)]) (find (fun x => path_eqb p (fst x)) l).
Definition always (n : nat) : bool := true.
Notation rot := (rotate path_eqb (file_path log_txt)).

(** three files and limit 2: the oldest is removed *)
Lemma rotate_example : exists (d : text_disk) c' d', d log_txt = Some [Old "newest"] /\ d (chars "/v/log_1.txt") = Some [Old "older"] /\
  d (chars "/v/log_2.txt") = Some [Old "oldest"] /\ d (chars "/v/other") = Some [Old "x"] /\
  rot always 2 4 0 d = (Done, c', d') /\
  d' log_txt = None /\ d' (chars "/v/log_1.txt") = Some [Old "newest"] /\ d' (chars "/v/log_2.txt") = Some [Old "older"] /\
  d' (chars "/v/log_3.txt") = None /\ d' (chars "/v/other") = Some [Old "x"].
Proof.
  exists (one_disk [(log_txt, "newest"); (log_1_txt, "older"); (chars "/v/log_2.txt", "oldest"); (chars "/v/other", "x")]).
  do 2 eexists. repeat (split; [reflexivity|]). reflexivity.
Qed.
(** the second rename fails: nothing is lost *)
Lemma rotate_fails_example : exists (d : text_disk) ok c' d', d log_txt = Some [Old "newest"] /\ d log_1_txt = Some [Old "older"] /\
  rot ok 5 4 0 d = (Threw, c', d') /\ d' log_txt = Some [Old "newest"] /\ d' log_1_txt = None /\ d' (chars "/v/log_2.txt") = Some [Old "older"] /\
  (exists fs, all_files (file_path log_txt) d fs /\ fs = [[Old "older"]; [Old "newest"]]).
Proof.
  exists (one_disk [(log_txt, "newest"); (log_1_txt, "older")]), (fun n => Nat.ltb n 4). do 2 eexists. repeat (split; [reflexivity|]).
  eexists. split; [|reflexivity]. exists 2. split; [|reflexivity]. intros i Hi. unfold one_disk. cbn [find fst].
  replace (path_eqb (file_path log_txt i) log_txt) with false; [replace (path_eqb (file_path log_txt i) log_1_txt) with false; [reflexivity|]|]; symmetry;
    apply not_true_iff_false; rewrite path_eqb_true; intros X.
  - change log_1_txt with (file_path log_txt 1) in X. apply path_inj_proof in X. lia.
  - change log_txt with (file_path log_txt 0) in X at 2. apply path_inj_proof in X. lia.
Qed.
(** a gap in the numbers: the files after it are never removed *)
Lemma stale_files : exists (d : text_disk) c' d', rot always 1 4 0 d = (Done, c', d') /\ d log_1_txt = None /\ d' (chars "/v/log_2.txt") = Some [Old "stale"].
Proof. exists (one_disk [(log_txt, "a"); (chars "/v/log_2.txt", "stale")]). do 2 eexists. repeat (split; [reflexivity|]). reflexivity. Qed.
(** log.txt and log_1.txt are used as different log files: rotating the first takes the second one's file *)
Lemma overlap : exists (d : text_disk) c' d', log_txt <> log_1_txt /\ d log_1_txt = Some [Old "other log"] /\ rot always 5 4 0 d = (Done, c', d') /\
  d' log_1_txt <> d log_1_txt /\ d' (chars "/v/log_2.txt") = Some [Old "other log"].
Proof.
  exists (one_disk [(log_txt, "a"); (log_1_txt, "other log")]). do 2 eexists. split; [discriminate|]. do 2 (split; [reflexivity|]). split; [vm_compute; discriminate|reflexivity].
Qed.
Lemma no_overlap : exists d', chars "/v/log.txt" <> chars "/v/log1.txt" /\ filename (chars "/v/log.txt") <> dots /\
  ~ numbered (stem (filename (chars "/v/log1.txt"))) /\
  write_batch path_eqb (file_path (chars "/v/log.txt")) 10 5 false [@Item nat 7 "H" "line" 2 always]
    (one_disk [(chars "/v/log.txt", "full file"); (chars "/v/log1.txt", "other log")]) = (Done, 1, d') /\
  d' (chars "/v/log_1.txt") = Some [Old "full file"] /\ d' (chars "/v/log1.txt") = Some [Old "other log"].
Proof.
  eexists. split; [discriminate|]. split; [discriminate|]. split.
  - rewrite numbered_iff. intros (s & i & Hi & X). assert (U : In "_"%char (stem (filename (chars "/v/log1.txt")))) by
      (rewrite X; apply in_or_app; right; destruct i; [lia|left; reflexivity]).
    cbn in U. repeat (destruct U as [U|U]; [discriminate U|]). exact U.
  - split; [reflexivity|]. split; reflexivity.
Qed.
(** limit 0 *)
Lemma limit_zero : exists (d : text_disk) c' d', d log_txt = Some [Old "a"] /\ rot always 0 4 0 d = (Done, c', d') /\ forall i, d' (file_path log_txt i) = None.
Proof.
  exists (one_disk [(log_txt, "a")]). do 2 eexists. split; [reflexivity|]. split; [reflexivity|]. intros i. unfold remove_file, set_file, one_disk. cbn [find fst].
  destruct (path_eqb (file_path log_txt i) log_txt) eqn:X.
  - rewrite path_eqb_true in X. change log_txt with (file_path log_txt 0) in X at 2. apply path_inj_proof in X. subst. reflexivity.
  - destruct (path_eqb (file_path log_txt i) (file_path log_txt 0)); reflexivity.
Qed.

(** ** batches *)
Definition entry_of (n : nat) : item nat := Item _ n "H" "0123456789" 5 always.
Lemma batch_example : exists d', write_batch path_eqb (file_path log_txt) 10 20 true [entry_of 1; entry_of 2; entry_of 3] (one_disk []) = (Done, 3, d') /\
  d' log_txt = Some [Head "H"; Line 3 "0123456789"] /\ d' log_1_txt = Some [Head "H"; Line 1 "0123456789"; Line 2 "0123456789"] /\
  all_files (file_path log_txt) (one_disk []) [].
Proof. eexists. split; [reflexivity|]. repeat (split; [reflexivity|]). exists 0. split; reflexivity. Qed.
Lemma disk_full : exists l d', (forall x, In x l -> i_ok (fst x) = always) /\
  write_batch_io path_eqb (file_path log_txt) 10 0 false l (one_disk []) = (Done, List.length l, d') /\
  map (fun x => i_entry (fst x)) l = [1; 2] /\ d' log_txt = Some [Line 1 "0123456789"] /\ forall i, d' (file_path log_txt (S i)) = None.
Proof.
  exists [(entry_of 1, always); (entry_of 2, fun _ => false)]. eexists. split; [cbn; intros x [<-|[<-|[]]]; reflexivity|]. split; [reflexivity|].
  split; [reflexivity|]. split; [reflexivity|]. intros i. unfold open_file, append, set_file, one_disk. cbn -[file_path].
  destruct (path_eqb (file_path log_txt (S i)) (file_path log_txt 0)) eqn:X; [|reflexivity].
  rewrite path_eqb_true in X. apply path_inj_proof in X. discriminate.
Qed.

(** after a failed write the position of the stream is -1, which as a size is huge: the file is rotated far below the rotation size *)
Lemma small_rotated : exists l d', (forall x, In x l -> i_ok (fst x) = always) /\
  write_batch_io path_eqb (file_path log_txt) 10 1000 false l (one_disk []) = (Done, List.length l, d') /\
  map (fun x => i_entry (fst x)) l = [1; 2; 3] /\ d' log_txt = Some [Line 3 "0123456789"] /\ d' (file_path log_txt 1) = Some [Line 1 "0123456789"].
Proof.
  exists [(entry_of 1, always); (entry_of 2, fun _ => false); (entry_of 3, always)]. eexists. split; [cbn; intros x [<-|[<-|[<-|[]]]]; reflexivity|].
  split; [reflexivity|]. repeat split.
Qed.

(** the second entry's line and the third's header cannot be written *)
Lemma failing_example : exists l d', List.length l = 4 /\ (forall x, In x l -> i_ok (fst x) = always /\ i_limit (fst x) = 5) /\
  write_batch_io path_eqb (file_path log_txt) 10 1000 true l (one_disk []) = (Done, List.length l, d') /\
  map (fun x => i_entry (fst x)) (filter (fun x => snd x 1) l) = [1; 3; 4] /\
  map (fun x => i_entry (fst x)) (filter (fun x => (negb true || snd x 0) && snd x 1) l) = [1; 4] /\
  all_files (file_path log_txt) (one_disk []) [] /\
  d' log_txt = Some [Head "H"; Line 4 "0123456789"] /\ d' (file_path log_txt 1) = Some [] /\ d' (file_path log_txt 2) = Some [Head "H"; Line 1 "0123456789"].
Proof.
  exists [(entry_of 1, always); (entry_of 2, Nat.eqb 0); (entry_of 3, Nat.eqb 1); (entry_of 4, always)]. eexists.
  split; [reflexivity|]. split; [cbn; intros x [<-|[<-|[<-|[<-|[]]]]]; split; reflexivity|]. split; [reflexivity|].
  split; [reflexivity|]. split; [reflexivity|]. split; [exists 0; split; reflexivity|]. repeat split.
Qed.

(** ** executions of the logger with its disk *)
Definition apath : bool -> nat -> list ascii := fun b => file_path (if b then log_txt else chars "/v/app.log").
Notation log_disk := (@disk (list ascii) (entry bool nat)).
Definition bool_lt (a b : bool) : bool := negb a && b.
Lemma bool_order : strict_total_order bool_lt.
Proof. split; [intros []|intros [] [] []|intros [] []]; cbn; congruence. Qed.
Lemma not_numbered s : forallb (fun c => negb (Ascii.eqb "_" c)) s = true -> ~ numbered s.
Proof.
  rewrite numbered_iff. intros F (s' & i & Hi & ->). destruct i; [lia|]. rewrite forallb_app in F. apply andb_true_iff in F. destruct F as [_ F]. discriminate.
Qed.
Lemma numbered_example : file_path (chars "/v/log.txt") 12 = chars "/v/log_12.txt" /\ file_path (chars "/a.b/.log") 3 = chars "/a.b/.log_3" /\
  ~ numbered (stem (filename (chars "/v/log.txt"))) /\ filename (chars "/v/log.txt") <> dots.
Proof. split; [reflexivity|]. split; [reflexivity|]. split; [apply not_numbered; reflexivity|discriminate]. Qed.
Lemma apath_separate : separate apath.
Proof.
  intros k i k' i' E. unfold apath in E. apply path_separate_proof in E.
  - destruct E as [E ->]. split; [destruct k, k'; auto; discriminate|reflexivity].
  - destruct k; discriminate.
  - destruct k'; discriminate.
  - destruct k; apply not_numbered; reflexivity.
  - destruct k'; apply not_numbered; reflexivity.
Qed.
Section Play.
Variables (limit rsize : nat) (header : bool).
Definition play (d : log_disk) (ev : @event bool nat) : option log_disk :=
  match ev with
  | EOpen k => Some (open_file path_eqb (apath k 0) d)
  | EWrite k e => match write_entry path_eqb (apath k) always 10 limit rsize header "H" "0123456789" e d with (Done, d') => Some d' | _ => None end
  | EFail k => Some d
  | _ => Some d
  end.
Fixpoint plays (d : log_disk) (tr : list (@event bool nat)) : option log_disk :=
  match tr with [] => Some d | e :: tr => match play d e with Some d => plays d tr | None => None end end.
Lemma plays_snoc tr : forall d e, plays d (tr ++ [e]) = match plays d tr with Some d => play d e | None => None end.
Proof. induction tr as [|x tr IH]; intros d e; cbn; [destruct (play d e); reflexivity|]. destruct (play d x); [apply IH|reflexivity]. Qed.
Lemma play_step d ev d' : play d ev = Some d' -> disk_step path_eqb apath (eq limit) (eq rsize) (eq header) d ev d'.
Proof.
  destruct ev; cbn; intros X; try (injection X as <-; apply k_other; exact I).
  - injection X as <-. constructor.
  - destruct (write_entry _ _ _ _ _ _ _ _ _ _ _) as [o d1] eqn:W. destruct o; try discriminate. injection X as <-. econstructor; eauto.
  - injection X as <-. apply (k_fail path_eqb apath (eq limit) (eq rsize) (eq header) d k false).
Qed.
Lemma play_system s0 d0 tr s d : exec bool_lt s0 tr s -> plays d0 tr = Some d -> system path_eqb apath (eq limit) (eq rsize) (eq header) bool_lt s0 d0 tr s d.
Proof.
  intros E. revert d. induction E as [|tr s e s' E IH S]; intros d X; [injection X as <-; constructor|].
  rewrite plays_snoc in X. destruct (plays d0 tr) as [d1|]; [|discriminate]. econstructor; [apply IH; reflexivity|exact S|apply play_step, X].
Qed.
End Play.
Lemma bexec_go (s0 : @logger bool nat) tr s e s' tr' s'' : exec bool_lt s0 tr s -> step bool_lt s e s' -> s' = s'' -> tr ++ [e] = tr' -> exec bool_lt s0 tr' s''.
Proof. intros H1 H2 <- <-. econstructor; eauto. Qed.
Local Ltac compute_it := match goal with |- ?a = ?b => let x := eval vm_compute in a in unify b x; vm_cast_no_check (@eq_refl _ x) end.
Local Ltac side := first [reflexivity | solve [cbv; intuition discriminate]].
Local Tactic Notation "cli" hyp(E) uconstr(c) := eapply bexec_go in E; [|left; eapply c; side|compute_it|compute_it].
Local Tactic Notation "int" hyp(E) uconstr(c) := eapply bexec_go in E; [|right; left; eapply c; side|compute_it|compute_it].
(** three entries for one log file, the first two written by the logging thread, with a rotation size of 20 *)
Lemma system_example : exists tr1 s1 d1 s2 tr2 s d,
  system path_eqb apath (eq 1) (eq 20) (eq true) bool_lt (initial 0 0 2 0) (fun _ => None) tr1 s1 d1 /\
  step bool_lt s1 EDestroy s2 /\ system path_eqb apath (eq 1) (eq 20) (eq true) bool_lt s2 d1 tr2 s d /\ dtor s = DDone /\
  (forall k, ~ In (EFail k) tr2) /\ map e_msg (accepted_for bool_lt true (tr1 ++ EDestroy :: tr2)) = [11; 12; 13] /\
  option_map (fun c => map e_msg (lines_of c)) (d (chars "/v/log.txt")) = Some [13] /\
  option_map (fun c => map e_msg (lines_of c)) (d (chars "/v/log_1.txt")) = Some [11; 12].
Proof.
  pose proof (exec_nil bool_lt (@initial bool nat 0 0 2 0)) as E.
  cli E (c_call _ 0 true 5%Z 11). int E (p_check _ _ _ []). int E (p_time _ _ _ []). int E (p_add _ _ _ []).
  cli E (c_call _ 0 true 5%Z 12). int E (p_check _ _ _ []). int E (p_time _ _ _ []). int E (p_add _ _ _ []). int E (p_notify _ _ _ []).
  int E l_start. int E l_check. int E l_scan. int E l_open. int E l_write. int E l_write. int E l_written. int E l_erase. int E l_scan. int E l_check.
  int E l_scan. int E l_scan. int E l_check. int E l_wait.
  cli E (c_call _ 0 true 5%Z 13). int E (p_check _ _ _ []). int E (p_time _ _ _ []). int E (p_add _ _ _ []).
  match type of E with exec _ _ _ ?s => assert (S : step bool_lt s EDestroy (set_dtor DStopped (set_logging false s))) by (left; constructor; reflexivity) end.
  cbn in S. match type of S with step _ _ _ ?s => pose proof (exec_nil bool_lt s) as F end.
  int F d_notify. int F l_woken. int F l_check. int F d_join. int F d_flush. int F d_open. int F d_write. int F d_written. int F d_flush.
  do 7 eexists. split; [eapply play_system; [exact E|reflexivity]|]. split; [exact S|]. split; [eapply play_system; [exact F|reflexivity]|].
  split; [reflexivity|]. split; [cbn; intuition discriminate|]. split; [reflexivity|]. split; vm_compute; reflexivity.
Qed.
