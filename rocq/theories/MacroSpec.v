(** Specification vocabulary for the logging macros. *)
From Coq Require Import List Bool Arith Ascii Permutation.
From Verif Require Import MacroModel.
Import ListNotations.

(** the operands evaluated, the loggers evaluated, the entries added, in order *)
Definition evaluated (tr : list event) : list nat := flat_map (fun e => match e with EEval i => [i] | _ => [] end) tr.
Definition loggers (tr : list event) : nat := List.length (filter (fun e => match e with ELogger => true | _ => false end) tr).
Definition added (tr : list event) : list (text * text) := flat_map (fun e => match e with EAdd f m => [(f, m)] | _ => [] end) tr.

Definition gives (o : operand) : Prop := exists t, o = Gives t.
(** an order in which each of [n] operands is evaluated once *)
Definition some_order (n : nat) (ord : list nat) : Prop := Permutation ord (seq 0 n).
