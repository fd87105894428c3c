(** Specification of is_logging and of the life of the strings in a source_info. *)
From Coq Require Import List Bool Arith ZArith.
From Verif Require Import Base LoggerModel LoggerSpec LoggerUseModel.
Import ListNotations.

Section Spec.
Context {K M : Type}.

(** the logging thread exists and has not left start_logging *)
Definition thread_runs (s : @logger K M) : Prop := pc s <> LExited.

(** a string is read after the end of its life: undefined behaviour *)
Definition reads_released (h : list (@act K M)) : Prop :=
  exists a i b ev c, h = a ++ Release i :: b ++ Do ev :: c /\ In i (reads ev).
(** what has become of call [i]: it did not pass the level, it was discarded, it was written, or the logger is gone *)
Definition written_call (i : nat) (tr : list (@event K M)) : Prop := exists k e, In (EWrite k e) tr /\ e_id e = i.
Definition over (i : nat) (tr : list (@event K M)) : Prop :=
  In i (rejects tr) \/ In i (discards tr) \/ written_call i tr \/ In EDestroyed tr.
(** strings live until then *)
Definition patient (h : list (@act K M)) : Prop := forall a i b, h = a ++ Release i :: b -> over i (events a).
(** call [i] has been made and has returned *)
Definition returned (i : nat) (s : @logger K M) : Prop :=
  i < next_id s /\ forall c, In c (calls s) -> e_id (call_entry c) <> i.
End Spec.
