(** Concrete executions for OutsideProps.v.  Paths are numbers. *)
From Coq Require Import List Bool Arith Ascii Lia Permutation.
From Verif Require Import Base LogFileModel CrashModel OutsideModel OutsideSpec OutsideProofs.
Import ListNotations.
Local Open Scope char_scope.

Definition always (h : bool) : Prop := h = true.
Definition never (h : bool) : Prop := h = false.
Definition head_text (t : list ascii) : Prop := t = ["h"].
Definition line_text (t : list ascii) : Prop := t = ["a"; "a"] \/ t = ["b"; "b"].
(** an empty disk *)
Definition empty_fs : fs nat := Fs (fun _ => None) (fun _ => []) 0 (fun _ => None) (fun _ => 0).
Lemma empty_fs_init : xinit empty_fs.
Proof. repeat split; intros; try discriminate. constructor. Qed.
Lemma nat_paths : forall p q, Nat.eqb p q = true <-> p = q.
Proof. exact Nat.eqb_eq. Qed.

Definition aa (i n : nat) : list tbyte := [Byte i n "a"; Byte i (S n) "a"; Byte i (S (S n)) nl].
Definition bb (i n : nat) : list tbyte := [Byte i n "b"; Byte i (S n) "b"; Byte i (S (S n)) nl].
Definition hd (i n : nat) : list tbyte := [Byte i n "h"; Byte i (S n) nl].
Notation run := (xrun Nat.eqb).
Ltac compute_it := match goal with |- ?a = ?b => let x := eval vm_compute in a in unify b x; vm_cast_no_check (@eq_refl _ x) end.
(** a file is renamed while a process writes to it; the next batch makes a new file at the path *)
Definition renamed_trace : list (xevent nat) :=
  [XOpen 0 7; XPut 0 (hd 0 0 ++ aa 0 2); XRename 7 8; XPut 0 (bb 0 5); XFlush 0 (hd 0 0 ++ aa 0 2 ++ bb 0 5) []; XClose 0;
   XOpen 0 7; XPut 0 (hd 0 8 ++ aa 0 10); XFlush 0 (hd 0 8 ++ aa 0 10) []; XClose 0].
Lemma run_go H HT LT (s0 : fs nat) tr s e s' tr' s'' : run H HT LT s0 tr s -> xstep Nat.eqb H HT LT s e s' -> s' = s'' -> tr ++ [e] = tr' -> run H HT LT s0 tr' s''.
Proof. intros R S <- <-. econstructor; eauto. Qed.
Ltac open0 R i p := eapply run_go in R; [|eapply (x_open _ _ _ _ _ i p); reflexivity|compute_it|compute_it].
Ltac create R i p := eapply run_go in R; [|eapply (x_create _ _ _ _ _ i p); reflexivity|compute_it|compute_it].
Ltac put R i h t := eapply run_go in R; [|eapply (x_put _ _ _ _ _ i _ h ["h"] t); [reflexivity|reflexivity|reflexivity|(left; reflexivity) || (right; reflexivity)]|compute_it|compute_it].
Ltac flushing R i l rest := eapply run_go in R; [|eapply (x_flush _ _ _ _ _ i _ l rest); [reflexivity|reflexivity|discriminate]|compute_it|compute_it].
Ltac closing R i := eapply run_go in R; [|eapply (x_close _ _ _ _ _ i); reflexivity|compute_it|compute_it].
Ltac renaming R p q := eapply run_go in R; [|eapply (x_rename _ _ _ _ _ p q); reflexivity|compute_it|compute_it].
Ltac removing R p := eapply run_go in R; [|eapply (x_remove _ _ _ _ _ p)|compute_it|compute_it].

Lemma renamed_run : exists s, run always head_text line_text empty_fs renamed_trace s /\ no_removal renamed_trace /\ whole_flushes renamed_trace /\
  dir s 7 = Some 1 /\ dir s 8 = Some 0 /\ data s 0 = hd 0 0 ++ aa 0 2 ++ bb 0 5 /\ data s 1 = hd 0 8 ++ aa 0 10.
Proof.
  pose proof (xrun_nil Nat.eqb always head_text line_text empty_fs) as R.
  create R 0 7. put R 0 true ["a"; "a"]. renaming R 7 8. put R 0 true ["b"; "b"]. flushing R 0 (hd 0 0 ++ aa 0 2 ++ bb 0 5) (@nil tbyte). closing R 0.
  create R 0 7. put R 0 true ["a"; "a"]. flushing R 0 (hd 0 8 ++ aa 0 10) (@nil tbyte). closing R 0.
  eexists. split; [exact R|]. split; [intros p I; cbn in I; repeat (destruct I as [I|I]; [discriminate I|]); exact I|].
  split; [intros i l rest I; cbn in I; repeat (destruct I as [I|I]; [try discriminate I; injection I as _ _ I; subst; reflexivity|]); destruct I|].
  repeat split.
Qed.
(** the file is removed between the opening of the stream and the writing of the entry *)
Lemma removed_run : exists s, run always head_text line_text empty_fs
    [XOpen 0 7; XRemove 7; XPut 0 (hd 0 0 ++ aa 0 2); XFlush 0 (hd 0 0 ++ aa 0 2) []; XClose 0] s /\
  data s 0 = hd 0 0 ++ aa 0 2 /\ ~ linked s 0 /\ dir s 7 = None.
Proof.
  pose proof (xrun_nil Nat.eqb always head_text line_text empty_fs) as R.
  create R 0 7. removing R 7. put R 0 true ["a"; "a"]. flushing R 0 (hd 0 0 ++ aa 0 2) (@nil tbyte). closing R 0.
  eexists. split; [exact R|]. split; [reflexivity|]. split; [|reflexivity]. intros (p & E). cbn in E. match type of E with (if ?c then _ else _) = _ => destruct c; discriminate end.
Qed.
(** and after it: the next batch makes a new file with a header *)
Lemma removed_between : exists tr1 s1 s2, run always head_text line_text empty_fs tr1 s1 /\ streams s1 0 = None /\ In (XRemove 7) tr1 /\
  run always head_text line_text s1 [XOpen 0 7; XPut 0 (hd 0 5 ++ bb 0 7); XFlush 0 (hd 0 5 ++ bb 0 7) []; XClose 0] s2 /\
  written s1 0 = 5 /\ In (Byte 0 7 "b") (data s2 1) /\ dir s2 7 = Some 1.
Proof.
  pose proof (xrun_nil Nat.eqb always head_text line_text empty_fs) as R.
  create R 0 7. put R 0 true ["a"; "a"]. flushing R 0 (hd 0 0 ++ aa 0 2) (@nil tbyte). closing R 0. removing R 7.
  do 3 eexists. split; [exact R|]. split; [reflexivity|]. split; [cbn; auto 10|].
  match type of R with xrun _ _ _ _ _ _ ?s => pose proof (xrun_nil Nat.eqb always head_text line_text s) as R2 end.
  create R2 0 7. put R2 0 true ["b"; "b"]. flushing R2 0 (hd 0 5 ++ bb 0 7) (@nil tbyte). closing R2 0.
  split; [exact R2|]. split; [reflexivity|]. split; [cbn; auto 10|reflexivity].
Qed.
(** two processes write a line each, and the operating system receives the lines in two parts each *)
Lemma mixed_run : exists tr s, run never head_text line_text empty_fs tr s /\ no_removal tr /\
  map plain_byte (data s 0) = ["a"; "b"; "a"; nl; "b"; nl] /\ ~ whole_lines (fun t => head_text t \/ line_text t) (map plain_byte (data s 0)).
Proof.
  pose proof (xrun_nil Nat.eqb never head_text line_text empty_fs) as R.
  create R 0 7. open0 R 1 7. put R 0 false ["a"; "a"]. put R 1 false ["b"; "b"].
  flushing R 0 [Byte 0 0 "a"] [Byte 0 1 "a"; Byte 0 2 nl]. flushing R 1 [Byte 1 0 "b"] [Byte 1 1 "b"; Byte 1 2 nl].
  flushing R 0 [Byte 0 1 "a"; Byte 0 2 nl] (@nil tbyte). flushing R 1 [Byte 1 1 "b"; Byte 1 2 nl] (@nil tbyte). closing R 0. closing R 1.
  do 2 eexists. split; [exact R|]. split; [intros p I; cbn in I; repeat (destruct I as [I|I]; [discriminate I|]); exact I|].
  split; [reflexivity|]. intros (ls & E & F). cbn in E. destruct ls as [|t ls]; [discriminate|]. inversion F as [|? ? Ft _]; subst.
  destruct Ft as [->|[->| ->]]; cbn in E; injection E; intros; discriminate.
Qed.
(** two processes open the new file, both find it empty and both write a header *)
Lemma two_headers_run : exists tr s, run always head_text line_text empty_fs tr s /\ no_removal tr /\ whole_flushes tr /\
  map plain_byte (data s 0) = ["h"; nl; "a"; "a"; nl; "h"; nl; "b"; "b"; nl].
Proof.
  pose proof (xrun_nil Nat.eqb always head_text line_text empty_fs) as R.
  create R 0 7. open0 R 1 7. put R 0 true ["a"; "a"]. put R 1 true ["b"; "b"].
  flushing R 0 (hd 0 0 ++ aa 0 2) (@nil tbyte). flushing R 1 (hd 1 0 ++ bb 1 2) (@nil tbyte). closing R 0. closing R 1.
  do 2 eexists. split; [exact R|]. split; [intros p I; cbn in I; repeat (destruct I as [I|I]; [discriminate I|]); exact I|].
  split; [intros i l rest I; cbn in I; repeat (destruct I as [I|I]; [try discriminate I; injection I as _ _ I; subst; reflexivity|]); destruct I|].
  reflexivity.
Qed.
