(** Executions of the pool and of the logger at the level of single accesses. *)
From Coq Require Import List Bool Arith.
From Verif Require Import ListUpdate LockModel LockSpec.
Import ListNotations.

Section Plan.
Context {L : Type}.
Variables (body : kind -> stmt L) (public : nat -> stmt L).
(** [n] steps of thread [i], which goes the ways [cs] where it has a choice (0 when [cs] is exhausted) *)
Fixpoint steps_of (s : state L) (i n : nat) (cs : list nat) : list (nat * nat) * state L :=
  match n with
  | O => ([], s)
  | S n =>
      let (c, cs) := match nth_error (threads s) i with
                     | Some (Th _ (Choice _ _ :: _) _) | Some (Th _ (Loop _ :: _) _)
                     | Some (Th _ (Any _ :: _) _) | Some (Th _ (User :: _) _) =>
                         match cs with c :: cs => (c, cs) | [] => (0, []) end
                     | _ => (0, cs)
                     end in
      match step body public s i c with
      | Some s' => let (l, s'') := steps_of s' i n cs in ((i, c) :: l, s'')
      | None => ([], s)
      end
  end.
Fixpoint plan (s : state L) (l : list (nat * nat * list nat)) : list (nat * nat) * state L :=
  match l with
  | [] => ([], s)
  | (i, n, cs) :: l =>
      let (l1, s1) := steps_of s i n cs in let (l2, s2) := plan s1 l in (l1 ++ l2, s2)
  end.
(** the next statements *)
Definition heads (s : state L) : list (option (stmt L)) := map (fun t => hd_error (th_stack t)) (threads s).
End Plan.

(** two clients call run_at, both find no scheduler thread *)
Definition race_plan := plan (pool_body Skip true false) (pool_public Skip true) (initial (pool_body Skip true false))
  [(0, 30, [0; 1; 1; 0]); (1, 16, [14; 0]); (2, 16, [14; 0])].
Lemma scheduler_race : exists l s,
  run (pool_body Skip true false) (pool_public Skip true) (initial (pool_body Skip true false)) l = Some s /\ race s PScheduler.
Proof.
  exists (fst race_plan), (snd race_plan). split; [vm_compute; reflexivity|]. exists 1, 2, true. split; [discriminate|].
  split; do 3 eexists; vm_compute; reflexivity.
Qed.
(** one worker; the destructor, without the mutex, and the worker, with it, read m_workers *)
Definition end_plan := plan (pool_body Skip false true) (pool_public Skip false) (initial (pool_body Skip false true))
  [(0, 60, [1; 0; 1; 0]); (2, 60, [11; 0; 0]); (0, 13, [1]); (1, 5, [1])].
Lemma end_state : exists l s,
  run (pool_body Skip false true) (pool_public Skip false) (initial (pool_body Skip false true)) l = Some s /\ accesses s 0 PWorkers false /\ holder s 0 = Some 1 /\ accesses s 1 PWorkers false.
Proof.
  exists (fst end_plan), (snd end_plan). split; [vm_compute; reflexivity|]. split; [|split; [vm_compute; reflexivity|]];
  do 3 eexists; vm_compute; reflexivity.
Qed.
(** the logging thread writes the path of a file without the mutex while a client adds to the buffer of the file *)
Definition log_plan := plan (log_body Skip) (log_public Skip) (initial (log_body Skip))
  [(0, 60, [1; 1; 0]); (2, 60, [5; 0; 0; 1; 0]); (1, 25, [1; 1; 1; 0; 1; 1; 1; 1]); (3, 17, [5; 0; 0; 1])].
Lemma log_state : exists l s, run (log_body Skip) (log_public Skip) (initial (log_body Skip)) l = Some s /\ accesses s 1 (GPath 0) true /\ holder s 0 = Some 3 /\ accesses s 3 (GBuf 0) true.
Proof.
  exists (fst log_plan), (snd log_plan). split; [vm_compute; reflexivity|]. split; [|split; [vm_compute; reflexivity|]];
  do 3 eexists; vm_compute; reflexivity.
Qed.
(** the destructor of a value that the task has captured calls run_async *)
Definition captured_plan := plan (pool_body User true false) (pool_public User true) (initial (pool_body User true false))
  [(0, 60, [1; 0; 1; 0]); (2, 60, [11; 0; 0]); (1, 100, [1; 1; 0; 11])].
Lemma captured_locks_twice : exists l s,
  run (pool_body User true false) (pool_public User true) (initial (pool_body User true false)) l = Some s /\
  next s 1 (Lock 0) /\ holder s 0 = Some 1.
Proof.
  exists (fst captured_plan), (snd captured_plan). split; [vm_compute; reflexivity|]. split; [|vm_compute; reflexivity].
  do 3 eexists; vm_compute; reflexivity.
Qed.
(** a client replaces the log writer; the destructor of a value that the old one has captured calls log_writer() *)
Definition captured_log_plan := plan (log_body User) (log_public User) (initial (log_body User))
  [(0, 60, [1; 0]); (2, 60, [3; 1])].
Lemma captured_writer_locks_twice : exists l s,
  run (log_body User) (log_public User) (initial (log_body User)) l = Some s /\ next s 2 (Lock 1) /\ holder s 1 = Some 2.
Proof.
  exists (fst captured_log_plan), (snd captured_log_plan). split; [vm_compute; reflexivity|]. split; [|vm_compute; reflexivity].
  do 3 eexists; vm_compute; reflexivity.
Qed.
(** a task calls on_stop(action) *)
Definition task_plan := plan (pool_body Skip true false) (pool_public Skip true) (initial (pool_body Skip true false))
  [(0, 60, [1; 0; 1; 0]); (2, 60, [11; 0; 0]); (1, 29, [1; 1; 10])].
Lemma task_state : exists l s,
  run (pool_body Skip true false) (pool_public Skip true) (initial (pool_body Skip true false)) l = Some s /\
  accesses s 1 POnStop true /\ holder s 0 = Some 1.
Proof.
  exists (fst task_plan), (snd task_plan). split; [vm_compute; reflexivity|]. split; [|vm_compute; reflexivity].
  do 3 eexists; vm_compute; reflexivity.
Qed.
(** the header writer sets the log writer *)
Definition header_plan := plan (log_body Skip) (log_public Skip) (initial (log_body Skip))
  [(0, 60, [1; 0]); (2, 60, [5; 0; 0; 1; 0]); (1, 47, [1; 1; 1; 0; 1; 0; 0; 1; 1; 3])].
Lemma header_state : exists l s, run (log_body Skip) (log_public Skip) (initial (log_body Skip)) l = Some s /\
  accesses s 1 GWriter true /\ holder s 1 = Some 1.
Proof.
  exists (fst header_plan), (snd header_plan). split; [vm_compute; reflexivity|]. split; [|vm_compute; reflexivity].
  do 3 eexists; vm_compute; reflexivity.
Qed.
(** one client calls run_at once; the scheduler thread moves the task and detaches itself before the client has
    assigned m_scheduler *)
Definition single_plan := plan (pool_body Skip true false) (pool_public Skip true) (initial (pool_body Skip true false))
  [(0, 60, [0; 1; 0]); (1, 16, [14; 0]); (2, 28, [1; 1; 0])].
Lemma single_race : exists l s,
  run (pool_body Skip true false) (pool_public Skip true) (initial (pool_body Skip true false)) l = Some s /\
  race s PScheduler /\ map th_kind (threads s) = [Main; Client; Scheduler] /\ count_occ Nat.eq_dec (map snd l) 14 = 1.
Proof.
  exists (fst single_plan), (snd single_plan). split; [vm_compute; reflexivity|]. split; [|split; vm_compute; reflexivity].
  exists 1, 2, true. split; [discriminate|]. split; do 3 eexists; vm_compute; reflexivity.
Qed.
(** as in [scheduler_outlives] (PoolExamples.v): two clients call run_at and start a scheduler thread each; the second one ends
    and leaves m_scheduler without a thread, so that the destructor does not wait for the first one *)
Definition outlive_plan := plan (pool_body Skip true true) (pool_public Skip true) (initial (pool_body Skip true true))
  [(0, 30, [0; 1; 1; 0]); (1, 16, [14; 0]); (2, 16, [14; 0]); (1, 20, []); (2, 20, []); (4, 60, [1; 1; 0]); (0, 30, [0; 0]); (3, 5, [1])].
Lemma outlive_race : exists l s,
  run (pool_body Skip true true) (pool_public Skip true) (initial (pool_body Skip true true)) l = Some s /\
  race s PScheduled /\ accesses s 0 PScheduled true /\ map th_kind (threads s) = [Main; Client; Client; Scheduler; Scheduler].
Proof.
  exists (fst outlive_plan), (snd outlive_plan). split; [vm_compute; reflexivity|]. split; [|split; [|vm_compute; reflexivity]].
  - exists 0, 3, false. split; [discriminate|]. split; do 3 eexists; vm_compute; reflexivity.
  - do 3 eexists; vm_compute; reflexivity.
Qed.
(** one client, whose scheduler thread has ended when the members are destroyed *)
Definition joined_plan := plan (pool_body_joined Skip true true) (pool_public Skip true) (initial (pool_body_joined Skip true true))
  [(0, 60, [0; 1; 0]); (1, 60, [14; 0]); (2, 60, [1; 1; 0]); (0, 33, [0; 0])].
Lemma joined_state : exists l s,
  run (pool_body_joined Skip true true) (pool_public Skip true) (initial (pool_body_joined Skip true true)) l = Some s /\
  accesses s 0 PScheduled true /\ map th_kind (threads s) = [Main; Client; Scheduler].
Proof.
  exists (fst joined_plan), (snd joined_plan). split; [vm_compute; reflexivity|]. split; [|vm_compute; reflexivity].
  do 3 eexists; vm_compute; reflexivity.
Qed.
