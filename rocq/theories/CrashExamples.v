(** Concrete crashes. *)
From Coq Require Import List Bool Arith Ascii String ZArith Lia.
From Verif Require Import Base ListUpdate LoggerModel LoggerSpec LoggerExamples LogFileModel LogFileSpec LogFilePaths LogFileExamples CrashModel CrashSpec CrashProofs.
Import ListNotations.
Local Open Scope string_scope.
Local Open Scope list_scope.

(** doing up to [n] operations, all of which succeed *)
Section Go.
Context {P : Type} (peqb : P -> P -> bool).
Fixpoint go (n : nat) (p : prog P) (u : st P) : st P * prog P :=
  match n with
  | 0 => (u, p)
  | S n =>
      match p with
      | End o => (u, p)
      | Open q ok _ => go n ok (opened_at peqb q u)
      | Remove q ok _ => go n ok (removed peqb q u)
      | Rename q q' ok _ => match on_disk u q with Some _ => go n ok (renamed peqb q q' u) | None => (u, p) end
      | Exists q f _ => go n (f (match on_disk u q with Some _ => true | None => false end)) u
      | Tell f => go n (f (tell u)) u
      | Put b k => go n k (put b u)
      | Close k => go n k (closed peqb u)
      end
  end.
Lemma go_run n : forall p u, run peqb u p (fst (go n p u)) (snd (go n p u)).
Proof.
  induction n as [|n IH]; intros p u; [constructor|]. cbn [go]. destruct p as [o|q ok f|q ok f|q q' ok f|q f f'|f|b k|k]; [constructor|..]; try (eapply run_step; [constructor|apply IH]).
  destruct (on_disk u q) eqn:E; [|constructor]. eapply run_step; [apply s_rename; congruence|apply IH].
Qed.
Lemma run_snoc u p u1 p1 u2 p2 : run peqb u p u1 p1 -> pstep peqb u1 p1 u2 p2 -> run peqb u p u2 p2.
Proof. intros R S. induction R; [eapply run_step; [exact S|constructor]|econstructor; eauto]. Qed.
(** [n] operations, then [m] bytes get to the operating system *)
Lemma go_flush n m p u : exists p', run peqb u p (flush peqb m (fst (go n p u))) p'.
Proof. exists (snd (go n p u)). eapply run_snoc; [apply go_run|constructor]. Qed.
End Go.

(** entries 11 and 12 have the texts ab and cd *)
Definition line_text (e : entry bool nat) : bytes := if Nat.eqb (e_msg e) 11 then chars "ab" else chars "cd".
Definition LTx (e : entry bool nat) (t : bytes) : Prop := t = line_text e.
Definition HTx (t : bytes) : Prop := t = chars "HEAD".
Definition bdisk0 : bdisk (list ascii) := fun _ => None.
Section Play.
Variables (limit rsize : nat) (header : bool).
Definition prog_of (ev : @event bool nat) : prog (list ascii) :=
  match ev with
  | EOpen k => Close (open_p (apath k))
  | EWrite k e => entry_p (apath k) 10 limit rsize header (chars "HEAD") (line_text e)
  | EErase _ _ | EDestroyed => Close (End Done)
  | _ => End Done
  end.
Definition cplay (u : st (list ascii)) (ev : @event bool nat) : option (st (list ascii)) :=
  match ev with EFail _ => None | _ => match go path_eqb 100 (prog_of ev) u with (u', End Done) => Some u' | _ => None end end.
Fixpoint cplays (u : st (list ascii)) (tr : list (@event bool nat)) : option (st (list ascii)) :=
  match tr with [] => Some u | e :: tr => match cplay u e with Some u => cplays u tr | None => None end end.
Lemma cplays_snoc tr : forall u e, cplays u (tr ++ [e]) = match cplays u tr with Some u => cplay u e | None => None end.
Proof. induction tr as [|x tr IH]; intros u e; cbn [app cplays]; [destruct (cplay u e); reflexivity|]. destruct (cplay u x); [apply IH|reflexivity]. Qed.
Notation csys := (csystem path_eqb apath bool_lt (eq limit) (eq rsize) (eq header) HTx LTx).
Notation evp := (event_prog apath (eq limit) (eq rsize) (eq header) HTx LTx).
Lemma prog_event s ev : (forall k, ev <> EFail k) -> evp s ev Done (prog_of ev).
Proof. intros N. destruct ev; try (apply q_other; exact I); try (now constructor). exfalso. eapply N. reflexivity. Qed.
Lemma cplay_system s0 d0 tr s u : exec bool_lt s0 tr s -> cplays (St d0 None) tr = Some u -> csys s0 d0 tr s u.
Proof.
  intros E. revert u. induction E as [|tr s e s' E IH S]; intros u X; [injection X as <-; constructor|].
  rewrite cplays_snoc in X. destruct (cplays (St d0 None) tr) as [u1|]; [|discriminate].
  assert (N : forall k, e <> EFail k) by (intros k ->; discriminate). econstructor; [apply IH; reflexivity|exact S|apply prog_event, N|].
  unfold cplay in X. pose proof (go_run path_eqb 100 (prog_of e) u1) as G. destruct (go path_eqb 100 (prog_of e) u1) as [u2 p2]. cbn in G.
  destruct e; try discriminate; destruct p2; try discriminate; destruct o; try discriminate; injection X as <-; exact G.
Qed.
(** killed after [n] operations of the event and after [m] bytes of the buffer got to the operating system *)
Lemma crash_go s0 d0 tr s u ev s' n m : exec bool_lt s0 tr s -> cplays (St d0 None) tr = Some u -> step bool_lt s ev s' -> (forall k, ev <> EFail k) ->
  crashed path_eqb apath bool_lt (eq limit) (eq rsize) (eq header) HTx LTx s0 d0 tr s ev (on_disk (flush path_eqb m (fst (go path_eqb n (prog_of ev) u)))).
Proof.
  intros E C S N. destruct (go_flush path_eqb n m (prog_of ev) u) as (p' & G). econstructor; [apply cplay_system; eassumption|exact S|apply prog_event, N|exact G|reflexivity].
Qed.
End Play.
Lemma no_fail (ev : @event bool nat) : (match ev with EFail _ => false | _ => true end) = true -> forall k, ev <> EFail k.
Proof. intros X k ->. discriminate. Qed.

Local Ltac compute_it := match goal with |- ?a = ?b => let x := eval vm_compute in a in unify b x; vm_cast_no_check (@eq_refl _ x) end.
Local Ltac side := first [reflexivity | solve [cbv; intuition discriminate]].
Local Tactic Notation "cli" hyp(E) uconstr(c) := eapply bexec_go in E; [|left; eapply c; side|compute_it|compute_it].
Local Tactic Notation "int" hyp(E) uconstr(c) := eapply bexec_go in E; [|right; left; eapply c; side|compute_it|compute_it].

(** one process logs 11, which is written and erased, then 12, whose bytes are on the disk up to the first one *)
Lemma crash_example : exists tr s ev d,
  crashed path_eqb apath bool_lt (eq 0) (eq 0) (eq false) HTx LTx (initial 0 0 1 0) bdisk0 tr s ev d /\
  map e_msg (accepted_for bool_lt true tr) = [11; 12] /\ map e_msg (buffer bool_lt true (lfiles s)) = [12] /\
  d log_txt = Some (chars "ab" ++ [nl] ++ chars "c").
Proof.
  pose proof (exec_nil bool_lt (@initial bool nat 0 0 1 0)) as E.
  cli E (c_call _ 0 true 5%Z 11). int E (p_check _ _ _ []). int E (p_time _ _ _ []). int E (p_add _ _ _ []). int E (p_notify _ _ _ []).
  int E l_start. int E l_check. int E l_scan. int E l_open. int E l_write. int E l_written. int E l_erase.
  int E l_scan. int E l_check. int E l_scan. int E l_scan. int E l_check. int E l_wait.
  cli E (c_call _ 0 true 5%Z 12). int E (p_check _ _ _ []). int E (p_time _ _ _ []). int E (p_add _ _ _ []). int E (p_notify _ _ _ []).
  int E l_woken. int E l_check. int E l_scan. int E l_open.
  match type of E with exec _ _ _ ?s => assert (S : exists ev s', step bool_lt s ev s' /\ ev = EWrite true (match buffer bool_lt true (lfiles s) with e :: _ => e | [] => Entry 0 0 true 0 0 0 end)) end.
  { do 2 eexists. split; [right; left; eapply l_write; reflexivity|reflexivity]. }
  destruct S as (ev & s' & S & ->). do 4 eexists. split; [eapply (crash_go 0 0 false _ _ _ _ _ _ _ 5 1 E); [reflexivity|exact S|apply no_fail; reflexivity]|].
  split; [reflexivity|]. split; [reflexivity|]. vm_compute. reflexivity.
Qed.
Local Ltac opened E m :=
  pose proof (exec_nil bool_lt (@initial bool nat 0 0 1 0)) as E;
  cli E (c_call _ 0 true 5%Z m); int E (p_check _ _ _ []); int E (p_time _ _ _ []); int E (p_add _ _ _ []); int E (p_notify _ _ _ []);
  int E l_start; int E l_check; int E l_scan; int E l_open.
Local Ltac write_step E S :=
  match type of E with exec _ _ _ ?s => assert (S : exists ev s', step bool_lt s ev s' /\ ev = EWrite true (match buffer bool_lt true (lfiles s) with e :: _ => e | [] => Entry 0 0 true 0 0 0 end)) end;
  [do 2 eexists; split; [right; left; eapply l_write; reflexivity|reflexivity]|destruct S as (? & ? & S & ->)].
Local Ltac killed E S lim rs hd n m := eapply (crash_go lim rs hd _ _ _ _ _ _ _ n m E); [reflexivity|exact S|apply no_fail; reflexivity].
(** the first process is killed when one byte of its line is on the disk; the second one's line follows on the same line *)
Lemma merged_lines : exists tr1 e1 tr2 e2 d,
  lives path_eqb apath bool_lt (eq 0) (eq 0) (eq false) HTx LTx bdisk0 [tr1 ++ [e1]; tr2 ++ [e2]] d /\
  map e_msg (written_to bool_lt true (tr1 ++ [e1])) = [11] /\ map e_msg (written_to bool_lt true (tr2 ++ [e2])) = [12] /\
  d log_txt = Some (chars "acd" ++ [nl]) /\ (forall e, ~ line_in (line_text e) (chars "acd" ++ [nl])).
Proof.
  opened E 11. write_step E Ws. opened F 12. write_step F Wt.
  do 5 eexists. split; [|split; [|split; [|split]]].
  - eapply (lives_snoc _ _ _ _ _ _ _ _ _ [_]); [eapply (lives_snoc _ _ _ _ _ _ _ _ _ []); [constructor|]|]; [killed E Ws 0 0 false 4 1|killed F Wt 0 0 false 4 3].
  - reflexivity.
  - reflexivity.
  - vm_compute. reflexivity.
  - intros e (x & y & X & Hx).
    assert (L2 : List.length (line_text e) = 2) by (unfold line_text; destruct (Nat.eqb (e_msg e) 11); reflexivity).
    assert (Lx : List.length x + List.length y = 1) by (apply (f_equal (@List.length ascii)) in X; rewrite !app_length, L2 in X; cbn in X; lia).
    destruct x as [|a [|b x]]; cbn in Lx; try lia.
    + unfold line_text in X. destruct (Nat.eqb (e_msg e) 11); discriminate.
    + destruct Hx as [|(x' & Hx)]; [discriminate|]. destruct x' as [|? [|? ?]]; try discriminate. injection Hx as ->. cbn in X. discriminate.
Qed.
(** the first process is killed when a part of the header is on the disk: the file never gets a header *)
Lemma lost_header : exists tr1 e1 tr2 e2 d,
  lives path_eqb apath bool_lt (eq 0) (eq 0) (eq true) HTx LTx bdisk0 [tr1 ++ [e1]; tr2 ++ [e2]] d /\
  d log_txt = Some (chars "HEcd" ++ [nl]) /\ ~ begins (chars "HEAD") (chars "HEcd" ++ [nl]).
Proof.
  opened E 11. write_step E Ws. opened F 12. write_step F Wt.
  do 5 eexists. split; [|split].
  - eapply (lives_snoc _ _ _ _ _ _ _ _ _ [_]); [eapply (lives_snoc _ _ _ _ _ _ _ _ _ []); [constructor|]|]; [killed E Ws 0 0 true 9 2|killed F Wt 0 0 true 4 3].
  - vm_compute. reflexivity.
  - intros [(r & X)|(r & X)]; discriminate.
Qed.
(** killed between renaming the old file and creating the new one *)
Lemma killed_rotating : exists tr s ev d,
  crashed path_eqb apath bool_lt (eq 1) (eq 3) (eq true) HTx LTx (initial 0 0 1 0)
    (put_at path_eqb log_txt (Some (chars "HEAD" ++ [nl] ++ chars "ab" ++ [nl])) bdisk0) tr s ev d /\
  d log_txt = None /\ d log_1_txt = Some (chars "HEAD" ++ [nl] ++ chars "ab" ++ [nl]).
Proof.
  opened E 12. write_step E Ws. do 4 eexists. split; [killed E Ws 1 3 true 5 0|]. split; vm_compute; reflexivity.
Qed.
(** an accepted entry is lost when it is still in memory *)
Lemma lost_in_memory : exists tr s ev d,
  crashed path_eqb apath bool_lt (eq 0) (eq 0) (eq false) HTx LTx (initial 0 0 1 0) bdisk0 tr s ev d /\
  map e_msg (accepted_for bool_lt true tr) = [11] /\ map e_msg (written_to bool_lt true (tr ++ [ev])) = [11] /\ d log_txt = Some [].
Proof.
  opened E 11. write_step E Ws. do 4 eexists. split; [killed E Ws 0 0 false 4 0|]. split; [reflexivity|]. split; [reflexivity|]. vm_compute; reflexivity.
Qed.
(** a run without a crash, the stream still open *)
Lemma open_stream_example : exists tr s u,
  csystem path_eqb apath bool_lt (eq 0) (eq 0) (eq true) HTx LTx (initial 0 0 1 0) bdisk0 tr s u /\
  on_disk u log_txt = Some [] /\ on_disk (closed path_eqb u) log_txt = Some (chars "HEAD" ++ [nl] ++ chars "ab" ++ [nl]).
Proof.
  opened E 11. int E l_write. do 3 eexists. split; [eapply (cplay_system 0 0 true); [exact E|reflexivity]|]. split; vm_compute; reflexivity.
Qed.
(** a failed open, which left an empty file behind: the entry stays in memory *)
Lemma failed_open_example : exists tr s u,
  csystem path_eqb apath bool_lt (eq 0) (eq 0) (eq false) HTx LTx (initial 0 0 1 0) bdisk0 tr s u /\
  In (EFail true) tr /\ map e_msg (buffer bool_lt true (lfiles s)) = [11] /\ on_disk u log_txt = Some [].
Proof.
  pose proof (exec_nil bool_lt (@initial bool nat 0 0 1 0)) as E.
  cli E (c_call _ 0 true 5%Z 11). int E (p_check _ _ _ []). int E (p_time _ _ _ []). int E (p_add _ _ _ []). int E (p_notify _ _ _ []).
  int E l_start. int E l_check. int E l_scan.
  eapply (cplay_system 0 0 false _ bdisk0) in E; [|vm_compute; reflexivity].
  eapply cs_snoc in E; [|right; right; left; eapply l_fail_open; reflexivity|eapply q_fail_open; eexists; left; reflexivity|
    eapply run_step; [apply s_close|eapply run_step; [apply s_open_bad|constructor]]].
  eapply cs_snoc in E; [|right; left; eapply l_erase; reflexivity|apply q_erase|eapply run_step; [apply s_close|constructor]].
  do 3 eexists. split; [exact E|]. split; [repeat (first [left; reflexivity | right])|]. split; vm_compute; reflexivity.
Qed.
(** killed after rotating, when a part of the new file is on the disk *)
Lemma killed_after_rotating : exists tr ev d,
  lives path_eqb apath bool_lt (eq 1) (eq 3) (eq true) HTx LTx
    (put_at path_eqb log_txt (Some (chars "HEAD" ++ [nl] ++ chars "ab" ++ [nl])) bdisk0) [tr ++ [ev]] d /\
  map e_msg (written_to bool_lt true (tr ++ [ev])) = [12] /\
  d log_txt = Some (chars "HEAD" ++ [nl] ++ chars "c") /\ d log_1_txt = Some (chars "HEAD" ++ [nl] ++ chars "ab" ++ [nl]).
Proof.
  opened E 12. write_step E Ws. do 3 eexists. split; [eapply (lives_snoc _ _ _ _ _ _ _ _ _ []); [constructor|]; killed E Ws 1 3 true 20 6|].
  split; [reflexivity|]. split; vm_compute; reflexivity.
Qed.
