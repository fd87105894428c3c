(** Properties of the static instances of the pool and of the logger. *)
From Coq Require Import List.
From Verif Require Import InstanceModel InstanceSpec InstanceProofs InstanceLive InstanceEnd InstanceExamples.
Import ListNotations.

(** C149: if [p] is built before every object that depends on it, and code of [p] builds no object that depends on
    [p], then every use of [p], by any thread and any destructor, finds it alive. *)
Theorem instance_used_alive : forall P p,
  (forall q, q <> p -> depends P p q -> ~ depends P q p) ->
  (forall o, o <> p -> depends P o p -> built_first P p o) ->
  forall s, reachable P s -> used_alive p s.
Proof. exact used_alive_proof. Qed.
Print Assumptions instance_used_alive.
(* a static object that logs in its constructor and in its destructor *)
Example instance_used_alive_example :
  ((forall o, o <> Logger -> depends early_logger o Logger -> built_first early_logger Logger o) /\
   (forall q, q <> Logger -> depends early_logger Logger q -> ~ depends early_logger q Logger)) /\
  exists s, reachable early_logger s /\ In (used (Some (User 0)) Logger Alive) (events (world_of s)).
Proof. exact (conj early_logger_ok early_logger_run). Qed.

(** C149: programs that begin by calling logger::instance() can log everywhere: in tasks of the pool while it is
    being destroyed, in destructors of static objects (if the log writers use no static objects). *)
Theorem instance_logger_first : forall P k, start P = Use Logger k ->
  (forall j q, given P Logger j -> ~ touches P j q) ->
  forall s, reachable P s -> used_alive Logger s.
Proof. exact logger_first_ok. Qed.
Print Assumptions instance_logger_first.
Example instance_logger_first_example :
  start logger_first = Use Logger (Submit Pool log Skip) /\ (forall j q, given logger_first Logger j -> ~ touches logger_first j q) /\
  exists s, reachable logger_first s /\ status (world_of s) Pool = Dying /\ leaving s = true /\ In (used (Some Pool) Logger Alive) (events (world_of s)).
Proof. exact (conj eq_refl (conj logger_first_writers logger_first_run)). Qed.

(** C149: nothing has to be built first if neither work that is given away nor destructors of the program's static
    objects use the object: then the pool, the logger and their threads do not use it either. *)
Theorem instance_only_main_uses : forall P p, (forall o j, given P o j -> ~ touches P j p) ->
  (forall n, ~ touches P (user_dtor P n) p) -> forall s, reachable P s -> used_alive p s.
Proof. exact only_main_ok. Qed.
Print Assumptions instance_only_main_uses.
(* main gives the pool a task that uses another static object, then logs *)
Example instance_only_main_uses_example :
  (forall o j, given main_logs o j -> ~ touches main_logs j Logger) /\ (forall n, ~ touches main_logs (user_dtor main_logs n) Logger).
Proof. exact main_logs_example. Qed.

(** C149: a task of the pool can use the logger after it has been destroyed, if the pool is used first. *)
Theorem instance_task_logs_refuted :
  exists s, reachable pool_first s /\ In (used (Some Pool) Logger Dead) (events (world_of s)).
Proof. exact pool_first_dead. Qed.
Print Assumptions instance_task_logs_refuted.
(** C149: so can the destructor of a static object that was built before the logger. *)
Theorem instance_destructor_logs_refuted :
  exists s, reachable late_logger s /\ In (used (Some (User 0)) Logger Dead) (events (world_of s)).
Proof. exact late_logger_dead. Qed.
Print Assumptions instance_destructor_logs_refuted.
(** C149: and, though the logger is used first, that of a static object that a log writer uses. *)
Theorem instance_writer_builds_refuted :
  exists s, reachable circular s /\ In (used (Some (User 0)) Logger Dead) (events (world_of s)).
Proof. exact circular_dead. Qed.
Print Assumptions instance_writer_builds_refuted.

(** C150: if constructors use only objects of lower rank, and the program has finitely many static objects, then it
    ends: executions are of bounded length, and one that cannot go on has finished. *)
Theorem instance_program_ends : forall P rank objs,
  (forall o q, uses (ctor P o) q -> rank q < rank o) -> NoDup objs -> finite_program P objs ->
  (forall s, reachable P s -> (exists t, step P s t) \/ finished s) /\ (exists n, forall k s, steps P k s -> k <= n).
Proof. exact ranked_ends_proof. Qed.
Print Assumptions instance_program_ends.
Example instance_program_ends_example :
  (finite_program early_logger [Logger; User 0] /\ NoDup [Logger; User 0] /\
   forall o q, uses (ctor early_logger o) q -> (fun x => match x with Logger => 0 | _ => 1 end) q < (fun x => match x with Logger => 0 | _ => 1 end) o) /\
  exists s, reachable logger_first s /\ finished s /\ In (used (Some Pool) Logger Alive) (events (world_of s)).
Proof. exact (conj early_logger_finite logger_first_end). Qed.

(** C150: static objects whose constructors use each other block main and a task for ever. *)
Theorem instance_crossed_constructors_refuted :
  exists s, reachable crossed s /\ ~ finished s /\ forall t, ~ step crossed s t.
Proof. exact crossed_stuck. Qed.
Print Assumptions instance_crossed_constructors_refuted.
