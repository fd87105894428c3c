(** Concrete runs of the logging macros. *)
From Coq Require Import List Bool Arith Ascii String Permutation Lia.
From Verif Require Import MacroModel MacroSpec MacroProofs.
Import ListNotations.
Notation chars := list_ascii_of_string.

Definition yes (n : nat) : bool := true.
Definition join (l : list text) : option text := Some (List.concat l).
(** the answers of should_log: the level is raised after [k] checks *)
Definition first (k n : nat) : bool := n <? k.

Lemma write_example : exists s, some_order 3 [2; 0; 1] /\ Forall gives [Gives (chars "f"); Gives (chars "a"); Gives (chars "b")] /\
  log_write yes yes join [2; 0; 1] (Gives (chars "f")) [Gives (chars "a"); Gives (chars "b")] start = (Fine, s) /\
  trace s = [ELogger; ECheck true; ELogger; EEval 2; EEval 0; EEval 1; ECheck true; EAdd (chars "f") (chars "ab")].
Proof.
  eexists. split; [|split; [repeat constructor; eexists; reflexivity|split; reflexivity]]. cbv [some_order seq].
  apply (Permutation_cons_app [0; 1] [] 2). cbn. reflexivity.
Qed.
Lemma stream_example : exists s,
  log_stream yes yes (Gives (chars "f")) [Gives (chars "a"); Gives (chars "b")] start = (Fine, s) /\
  trace s = [ELogger; ECheck true; ELogger; EEval 0; EEval 1; EEval 2; ECheck true; EAdd (chars "f") (chars "ab")].
Proof. eexists. split; reflexivity. Qed.
Lemma stream_partial_message : exists s,
  log_stream yes yes (Gives (chars "f")) [Gives (chars "a"); Fails []; Gives (chars "b")] start = (Threw, s) /\
  added (trace s) = [(chars "f", chars "a")].
Proof. eexists. split; reflexivity. Qed.
Lemma stream_terminates : exists s, log_stream yes (fun _ => false) (Gives (chars "f")) [Gives (chars "a")] start = (Terminated, s).
Proof. eexists. reflexivity. Qed.
Lemma write_throws_example : exists s, some_order 2 [1; 0] /\ In (Fails []) [Gives (chars "f"); Fails []] /\
  log_write yes yes join [1; 0] (Gives (chars "f")) [Fails []] start = (Threw, s).
Proof. eexists. split; [|split; [right; left; reflexivity|reflexivity]]. cbv [some_order seq]. constructor. Qed.
Lemma retry_example : exists s, log_stream yes (fun n => n =? 1) (Gives (chars "f")) [Gives (chars "a")] start = (Threw, s) /\
  added (trace s) = [(chars "f", chars "a")].
Proof. eexists. split; reflexivity. Qed.
Lemma logger_twice_example : exists s,
  log_write yes yes join [0; 1] (Gives (chars "f")) [Gives (chars "a")] start = (Fine, s) /\ loggers (trace s) = 2.
Proof. eexists. split; reflexivity. Qed.
