(** Specification vocabulary for the logger whose two reads are separate. *)
From Coq Require Import List Bool Arith ZArith.
From Verif Require Import Base LoggerModel LoggerSpec LoggerSplitModel.
Import ListNotations.

Section Spec.
Context {K M : Type} (ltb : K -> K -> bool).
Notation event := (@event K M).
Notation split := (@split K M).

(** the events without the internal ones *)
Definition is_visible (ev : event) : bool := match ev with ETau => false | _ => true end.
Definition visible (tr : list event) : list event := filter is_visible tr.
(** [l'] is [l] with some calls of buffer_max_size(n) moved to later places, in the same order *)
Inductive delayed : list event -> list event -> Prop :=
| delayed_same l : delayed l l
| delayed_swap l1 n ev l2 l' : (forall m, ev <> EMax m) -> delayed (l1 ++ ev :: EMax n :: l2) l' -> delayed (l1 ++ EMax n :: ev :: l2) l'.

(** no step is possible without a caller, a failure of the file system, a spurious wakeup or the clock *)
Definition squiescent (s : split) : Prop := forall e s', ~ sinternal ltb s e s'.
(** executions in which the flush size is lowered only when the logging thread does not hold the mutex, see [exec_calm] *)
Inductive sexec_calm (s0 : split) : list event -> split -> Prop :=
| scalm_nil : sexec_calm s0 [] s0
| scalm_snoc tr s e s' : sexec_calm s0 tr s -> sstep ltb s e s' -> calm_flush (base s) e -> sexec_calm s0 (tr ++ [e]) s'.
End Spec.
