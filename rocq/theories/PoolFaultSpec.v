(** Specification vocabulary for executions in which calls of the thread pool fail. *)
From Coq Require Import List Bool Arith ZArith.
From Verif Require Import ListUpdate PoolModel PoolSpec PoolFaultModel.
Import ListNotations.

(** what happened apart from the failures, and the failures *)
Definition happened (tr : list (event + failure)) : list event := flat_map (fun x => match x with inl e => [e] | inr _ => [] end) tr.
Definition failures (tr : list (event + failure)) : list failure := flat_map (fun x => match x with inl _ => [] | inr f => [f] end) tr.

(** the same tasks, in the same places *)
Definition same_tasks (s s' : pool) : Prop :=
  scheduled s' = scheduled s /\ waiting s' = waiting s /\ running s' = running s /\ completed s' = completed s /\
  next s' = next s /\ syncs s' = syncs s.
(** the same settings, apart from the target *)
Definition same_settings (s s' : pool) : Prop := onStop s' = onStop s /\ stopping s' = stopping s /\ dtor s' = dtor s.
