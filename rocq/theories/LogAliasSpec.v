(** Specification for log files with several names, such as "log.txt" and "./log.txt". *)
From Coq Require Import List Bool Arith.
From Verif Require Import Base LoggerModel LoggerSpec LogFileModel LogFileSpec.
Import ListNotations.

Section Spec.
Context {F K M : Type} (feqb : F -> F -> bool) (file : K -> F).
(** the entries written to the log file [f] under any of its names, in order *)
Definition written_as (f : F) (ev : @event K M) : list (entry K M) :=
  match ev with EWrite k e => if feqb (file k) f then [e] else [] | _ => [] end.
Definition written_to_file (f : F) (tr : list (@event K M)) : list (entry K M) := flat_map (written_as f) tr.
(** the same for accepted entries *)
Definition accepted_as (f : F) (ev : @event K M) : list (entry K M) :=
  match ev with EAccept e => if feqb (file (e_file e)) f then [e] else [] | _ => [] end.
Definition accepted_for_file (f : F) (tr : list (@event K M)) : list (entry K M) := flat_map (accepted_as f) tr.
End Spec.
