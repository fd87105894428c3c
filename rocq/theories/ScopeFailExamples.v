(** Concrete programs with scope guards whose additions fail. *)
From Coq Require Import List Bool Arith.
From Verif Require Import ScopeFailModel ScopeFailSpec ScopeFailProofs.
Import ListNotations.

(** two guards; the number of the failing operation is given *)
Definition nested : prog := Step (Acquire 1) (Step (Add 1) (Block (Some 2) (Step (Acquire 2) (Step Work Done)) (Step Work Done))).
Definition fails (n : nat) : nat -> op -> bool := fun c _ => negb (c =? n).
Definition work_fails (n : nat) : nat -> op -> bool := fun c o => match o with Add _ => true | _ => negb (c =? n) end.

Lemma nested_tasks : run_program (fails 4) None nested = ([Acquired 1; Added 1; Added 2; Acquired 2; Ran 2; Ran 1], true) /\
  brackets [] [Acquired 1; Added 1; Added 2; Acquired 2; Ran 2; Ran 1] = Some [] /\ brackets [] [Added 1; Added 2; Ran 1; Ran 2] = None /\
  brackets [] [Added 1] = Some [1] /\ brackets [] [Added 1; Ran 1; Ran 1] = None.
Proof. repeat split. Qed.
Definition first_guarded : prog := Step (Add 1) (Step (Acquire 1) (Block (Some 2) (Step (Acquire 2) (Step Work Done)) Done)).
Lemma first_guarded_case : guarded [] (Block None first_guarded Done) /\ run_program (fails 2) None first_guarded = ([Added 1; Acquired 1; Ran 1], true) /\
  run_program (fails 9) None first_guarded = ([Added 1; Acquired 1; Added 2; Acquired 2; Ran 2; Ran 1], false).
Proof. cbn. repeat split; auto. Qed.
Definition after_acquired : prog := Step (Acquire 1) (Step (Add 1) (Step (Acquire 2) (Block (Some 2) (Step Work Done) Done))).
Lemma after_acquired_case : added_after None (Block None after_acquired Done) /\ (forall c r, work_fails 4 c (Add r) = true) /\
  run_program (work_fails 4) None after_acquired = ([Acquired 1; Added 1; Acquired 2; Added 2; Ran 2; Ran 1], true).
Proof. cbn. repeat split; auto. Qed.
Lemma leak : let p := Step (Acquire 1) (Step (Add 1) Done) in
  added_after None (Block None p Done) /\ run_program (fails 1) None p = ([Acquired 1], true) /\ held [Acquired 1] 1 = true.
Proof. cbn. repeat split; auto. Qed.
Lemma released_refuted : exists ok init body e threw, added_after None (Block init body Done) /\ run_program ok init body = (e, threw) /\ exists r, held e r = true.
Proof. exists (fails 1), None, (Step (Acquire 1) (Step (Add 1) Done)), [Acquired 1], true. destruct leak as (A & B & C). eauto. Qed.
