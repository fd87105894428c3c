(** Two more matters of pluto::logger (/repo/include/pluto/logger.hpp), on the transition system of LoggerModel.v:
    is_logging(), and the strings that a source_info points to. *)
From Coq Require Import List Bool Arith ZArith.
From Verif Require Import Base LoggerModel.
Import ListNotations.

Section Use.
Context {K M : Type}.

(** is_logging (474-477) *)
Definition is_logging (s : @logger K M) : bool := logging s.

(** A source_info (174-194) holds two pointers, which log_entry (196-217) copies; the strings they point to belong to
    the caller.  The message and the name of the log file are copied (216, 734).  [Release i] is the end of the
    life of the strings of call number [i]; [Do ev] is a step of the logger. *)
Inductive act := Do (ev : @event K M) | Release (i : nat).
Definition events_of (a : act) : list (@event K M) := match a with Do ev => [ev] | Release _ => [] end.
Definition events (h : list act) : list (@event K M) := flat_map events_of h.
(** The calls whose strings a step reads: the log writer runs in the step that writes the entry (862); the default one
    reads both strings unless PLUTO_LOGGER_HIDE_SOURCE_INFO is 1 (435-441). *)
Definition reads (ev : @event K M) : list nat := match ev with EWrite _ e => [e_id e] | _ => [] end.
End Use.
