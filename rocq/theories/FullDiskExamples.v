(** Concrete calls on a full disk. *)
From Coq Require Import List Bool Arith Ascii String ZArith Lia.
From Verif Require Import Base ListUpdate LoggerModel LoggerSpec LoggerExamples LogFileModel LogFileSpec LogFileExamples CrashModel CrashSpec CrashExamples FullDiskModel FullDiskSpec.
Import ListNotations.
Local Open Scope string_scope.
Local Open Scope list_scope.

(** doing up to [n] operations, all of which succeed *)
Section Go.
Context {P : Type} (peqb : P -> P -> bool) (full : Prop).
Fixpoint wgo (n : nat) (p : wprog P) (u : wst P) : wst P * wprog P :=
  match n with
  | 0 => (u, p)
  | S n =>
      match p with
      | WEnd o _ => (u, p)
      | WOpen q ok _ => wgo n ok (w_opened peqb q u)
      | WRemove q ok _ => wgo n ok (w_removed peqb q u)
      | WRename q q' ok _ => match w_disk u q with Some _ => wgo n ok (w_renamed peqb q q' u) | None => (u, p) end
      | WExists q f _ => wgo n (f (match w_disk u q with Some _ => true | None => false end)) u
      | WTell f => wgo n (f (w_tell u)) u
      | WPut b k => wgo n k (w_put b u)
      | WClose k => wgo n k (w_closed peqb (fun w => w) u)
      end
  end.
Lemma wgo_run n : forall p u, wrun peqb full u p (fst (wgo n p u)) (snd (wgo n p u)).
Proof.
  induction n as [|n IH]; intros p u; [constructor|]. cbn [wgo]. destruct p as [o m|q ok f|q ok f|q q' ok f|q f f'|f|b k|k]; [constructor|..]; try (eapply w_step; [constructor|apply IH]).
  destruct (w_disk u q) eqn:E; [|constructor]. eapply w_step; [apply w_s_rename; congruence|apply IH].
Qed.
Lemma wrun_app u p u1 p1 u2 p2 : wrun peqb full u p u1 p1 -> wrun peqb full u1 p1 u2 p2 -> wrun peqb full u p u2 p2.
Proof. intros R S. induction R; [exact S|econstructor; eauto]. Qed.
(** [n] operations, an error after [m] bytes, and up to [n'] operations *)
Definition wgo_fail (n m n' : nat) (p : wprog P) (u : wst P) : wst P * wprog P :=
  let '(u1, p1) := wgo n p u in wgo n' p1 (w_fail peqb m u1).
Lemma wgo_fail_run n m n' p u : full -> wrun peqb full u p (fst (wgo_fail n m n' p u)) (snd (wgo_fail n m n' p u)).
Proof.
  intros F. unfold wgo_fail. pose proof (wgo_run n p u) as R. destruct (wgo n p u) as [u1 p1]. cbn [fst snd] in R. apply (wrun_app _ _ _ _ _ _ R).
  eapply w_step; [apply (w_s_fail peqb full u1 m), F|]. apply wgo_run.
Qed.
End Go.

Definition item_ab : item (entry bool nat) := Item (Entry 0 0 true 0%Z 0%Z 11) (chars "ab") (chars "HEAD") 2.
Definition item_cd : item (entry bool nat) := Item (Entry 1 0 true 0%Z 0%Z 12) (chars "cd") (chars "HEAD") 2.
Definition no_files : bdisk nat := fun _ => None.
Definition path_id (i : nat) : nat := i.
Definition NL : string := String nl EmptyString.
Lemma items_ok : item_ok HTx LTx item_ab /\ item_ok HTx LTx item_cd.
Proof. repeat split. Qed.

(** one line: an error after its first byte, and when the file is closed there is room again; the next call succeeds *)
Definition disk1 : bdisk nat := w_disk (fst (wgo_fail Nat.eqb 4 1 100 (write_w path_id 10 0 false [item_ab]) (WSt no_files None))).
Definition disk2 : bdisk nat := w_disk (fst (wgo Nat.eqb 100 (write_w path_id 10 0 false [item_cd]) (WSt disk1 None))).
Lemma off_example : calls Nat.eqb path_id True (item_ok HTx LTx) no_files [item_ab; item_cd] disk2 /\
  disk1 0 = Some (chars "aab") /\ disk2 0 = Some (chars ("aabcd" ++ NL)).
Proof.
  destruct items_ok as [I1 I2]. split; [|split; reflexivity].
  apply (c_returned Nat.eqb path_id True _ _ [item_ab] disk1 10 0 false [item_cd] _ Done 1); [|auto|exact (wgo_run Nat.eqb True 100 (write_w path_id 10 0 false [item_cd]) (WSt disk1 None))].
  apply (c_returned Nat.eqb path_id True _ _ [] no_files 10 0 false [item_ab] _ Done 1); [constructor|auto|].
  exact (wgo_fail_run Nat.eqb True 4 1 100 (write_w path_id 10 0 false [item_ab]) (WSt no_files None) I).
Qed.
Lemma not_blocks es : ~ blocks HTx LTx es (chars ("aabcd" ++ NL)).
Proof.
  intros H. inversion H as [|e es' b w (lt & L & B) _ X1 E]. unfold LTx, line_text in L. destruct B as [->|(ht & Hh & ->)].
  - destruct (Nat.eqb (e_msg e) 11); subst lt; cbn in E; discriminate.
  - unfold HTx in Hh. subst ht. cbn in E. discriminate.
Qed.
(** the files are as in the claim, and a file is not made of lines although every entry has left the buffer *)
Theorem refuted_proof : exists log d c, calls Nat.eqb path_id True (item_ok HTx LTx) no_files log d /\ d 0 = Some c /\
  log <> [] /\ forall es, ~ blocks HTx LTx es c.
Proof.
  destruct off_example as (A & _ & B). exists [item_ab; item_cd], disk2, (chars ("aabcd" ++ NL)). split; [exact A|]. split; [exact B|]. split; [discriminate|apply not_blocks].
Qed.
(** with rotation an error makes the next entry rotate the file *)
Definition disk3 : bdisk nat := w_disk (fst (wgo_fail Nat.eqb 9 6 100 (write_w path_id 10 100 true [item_ab; item_cd]) (WSt no_files None))).
Lemma rotation_example : calls Nat.eqb path_id True (item_ok HTx LTx) no_files [item_ab; item_cd] disk3 /\
  disk3 1 = Some (chars ("HEAD" ++ NL ++ "aHEAD" ++ NL ++ "ab")) /\ disk3 0 = Some (chars ("HEAD" ++ NL ++ "cd" ++ NL)).
Proof.
  destruct items_ok as [I1 I2]. split; [|split; reflexivity].
  apply (c_returned Nat.eqb path_id True _ _ [] no_files 10 100 true [item_ab; item_cd] _ Done 2); [constructor|auto|].
  exact (wgo_fail_run Nat.eqb True 9 6 100 (write_w path_id 10 100 true [item_ab; item_cd]) (WSt no_files None) I).
Qed.
