(** pluto::logger as in LoggerModel.v, but with the two reads of add_log_to_buffer (/repo/include/pluto/logger.hpp 720-756) in
    different steps: the maximum size is read at 738, and the flush size (744) or the counter of discarded entries (754) is
    accessed later.  The thread that adds an entry holds m_loggingMutex (729) in between; setters, which do not lock
    it (549-560), and all other steps that do not need the mutex can come in between. *)
From Coq Require Import List Bool Arith ZArith.
From Verif Require Import Base LoggerModel.
Import ListNotations.

Section Split.
Context {K M : Type} (ltb : K -> K -> bool).
Notation entry := (entry K M).
Notation event := (@event K M).
Notation logger := (@logger K M).

(** [adding]: the entry that is being added by the thread that has the mutex, and the maximum size it has read *)
Record split := Split { base : logger; adding : option (entry * nat) }.

(** 738-755 with the maximum size [m] read before; the list is not looked at by others without the mutex, so that its change (742) is
    part of the second step *)
Definition add_with (m : nat) (e : entry) (s : logger) : event * option call * logger :=
  let b := buffer ltb (e_file e) (lfiles s) in
  if (m =? 0) || (length b <? m) then
    (EAccept e, if flush_size s <=? length (e :: b) then Some (CNotify e) else None,
     set_files (put_file ltb (e_file e) (e :: b) (lfiles s)) s)
  else (EDiscard e, None, set_discarded (S (discarded s)) (set_files (put_file ltb (e_file e) b (lfiles s)) s)).

(** the steps of LoggerModel.v except p_add, the only one with these events *)
Definition no_add (ev : event) : Prop := match ev with EAccept _ | EDiscard _ => False | _ => True end.
(** the logging thread does not get the mutex while an entry is being added *)
Definition free (s : split) (b' : logger) : Prop := adding s = None \/ holds (pc b') = false.

Inductive sinternal (s : split) : event -> split -> Prop :=
| s_read e l1 l2 : adding s = None -> calls (base s) = l1 ++ CTimed e :: l2 -> holds (pc (base s)) = false ->   (* 729-738 *)
    sinternal s ETau (Split (base s) (Some (e, max_size (base s))))
| s_add e m l1 l2 : adding s = Some (e, m) -> calls (base s) = l1 ++ CTimed e :: l2 ->                            (* 740-755 *)
    sinternal s (fst (fst (add_with m e (base s))))
      (Split (set_calls (l1 ++ some_call (snd (fst (add_with m e (base s)))) ++ l2) (snd (add_with m e (base s)))) None)
| s_inner ev b' : internal ltb (base s) ev b' -> no_add ev -> free s b' -> sinternal s ev (Split b' (adding s)).

Definition sstep (s : split) (ev : event) (s' : split) : Prop :=
  sinternal s ev s' \/ exists b', (client (base s) ev b' \/ fault (base s) ev b' \/ other (base s) ev b') /\ s' = Split b' (adding s).

(** the constructor, 376-379 *)
Definition sinitial (lvl : Z) (max flush : nat) (clock : Z) : split := Split (initial lvl max flush clock) None.

Inductive sexec (s0 : split) : list event -> split -> Prop :=
| sexec_nil : sexec s0 [] s0
| sexec_snoc tr s e s' : sexec s0 tr s -> sstep s e s' -> sexec s0 (tr ++ [e]) s'.
End Split.
