From Coq Require Import List Bool Arith.
From Verif Require Import Base ScopeModel ScopeSpec ScopeProofs.
Import ListNotations.

(** C45.  The guard is default constructed and [added] are added in order ([constructed t] is adding [t]);
    tasks may throw and change the program state but do not add tasks to the guard (C47). *)
Theorem guard_runs_each_task_once_in_reverse :
  forall (S : Type) (beh : nat -> S -> option (S * list nat * bool)) (empty : nat -> bool),
  never_adds beh -> (forall t st, beh t st = None <-> empty t = true) ->
  forall added fuel st, length added <= fuel ->
  exists st', run_tasks beh fuel (fold_left (fun k t => add t k) added default_constructed) st
              = Ret (st', filter (fun t => negb (empty t)) (rev added)) /\
    calls beh (rev added) st st' (filter (fun t => negb (empty t)) (rev added)).
Proof. exact @destructor_ok. Qed.
Print Assumptions guard_runs_each_task_once_in_reverse.
(** the same with the constructor that takes the first task *)
Theorem guard_constructed_with_a_task :
  forall (S : Type) (beh : nat -> S -> option (S * list nat * bool)) (empty : nat -> bool),
  never_adds beh -> (forall t st, beh t st = None <-> empty t = true) ->
  forall t added fuel st, length added < fuel ->
  exists st', run_tasks beh fuel (fold_left (fun k t => add t k) added (constructed t)) st
              = Ret (st', filter (fun t => negb (empty t)) (rev added ++ [t])) /\
    calls beh (rev added ++ [t]) st st' (filter (fun t => negb (empty t)) (rev added ++ [t])).
Proof. exact @constructed_ok. Qed.
Print Assumptions guard_constructed_with_a_task.
(** emptiness may depend on the state as well *)
Theorem guard_calls_the_stack_in_order :
  forall (S : Type) (beh : nat -> S -> option (S * list nat * bool)), never_adds beh ->
  forall k fuel st, length k <= fuel ->
  exists st' c, run_tasks beh fuel k st = Ret (st', c) /\ calls beh k st st' c.
Proof. exact @run_tasks_ok. Qed.
Print Assumptions guard_calls_the_stack_in_order.
(** tasks 1, 2, 3, 4: 2 is empty, 3 throws; the state records the calls *)
Example guard_ex :
  let beh := fun t st => if t =? 2 then None else Some (10 * st + t, [], t =? 3) in
  never_adds beh /\ run_tasks beh 4 (fold_left (fun k t => add t k) [1; 2; 3; 4] default_constructed) 0
    = Ret (431, [4; 3; 1]).
Proof.
  split; [|reflexivity]. intros t st st' added throws. simpl. destruct (t =? 2); congruence.
Qed.

(** C47 *)
Theorem added_task_is_run_refuted : exists beh : nat -> nat -> option (nat * list nat * bool),
  beh 0 0 = Some (1, [1], false) /\ (forall st, st <> 0 -> beh 0 st = Some (st, [], false)) /\
  (forall st, beh 1 st = Some (st, [], false)) /\
  forall fuel, run_tasks beh (2 + fuel) [0] 0 = Ret (1, [0; 0]).
Proof. exact added_not_run. Qed.
Print Assumptions added_task_is_run_refuted.
Theorem destructor_terminates_with_adding_tasks_refuted : exists beh : nat -> nat -> option (nat * list nat * bool),
  forall fuel st, run_tasks beh fuel [0] st = OutOfFuel.
Proof. exact (ex_intro _ beh_forever forever). Qed.
Print Assumptions destructor_terminates_with_adding_tasks_refuted.
(** what does happen: the running task stays on the stack, to be run again, and the last added one is
    dropped without being run *)
Theorem adding_keeps_the_task_and_drops_the_last_added :
  forall (S : Type) (beh : nat -> S -> option (S * list nat * bool)) t k st st' added a throws,
  beh t st = Some (st', added ++ [a], throws) ->
  run_top beh (t :: k) st = Ret (rev added ++ t :: k, st', [t]).
Proof. exact @adding_drops_last. Qed.
Print Assumptions adding_keeps_the_task_and_drops_the_last_added.
Example adding_ex : run_top beh_once [0; 7] 0 = Ret ([0; 7], 1, [0]) /\ beh_once 0 0 = Some (1, [] ++ [1], false).
Proof. split; reflexivity. Qed.

(** C46.  [calm]: no on_scope_success / on_scope_fail is constructed while an exception is in flight. *)
Theorem success_and_fail_guards_follow_their_scope_partial : forall s, calm false s = true -> exec 0 s = ideal s.
Proof. exact (fun s => proj1 exec_ideal s 0). Qed.
Print Assumptions success_and_fail_guards_follow_their_scope_partial.
Theorem success_and_fail_guards_during_unwinding_refuted :
  let under_unwinding := fun g => Try (Local (Guard g (Task (Emit 1) NoTask) Skip) Raise) Skip in
  exec 0 (under_unwinding OnSuccess) = ([], Normal) /\ ideal (under_unwinding OnSuccess) = ([1], Normal) /\
  exec 0 (under_unwinding OnFail) = ([1], Normal) /\ ideal (under_unwinding OnFail) = ([], Normal).
Proof. exact in_flight. Qed.
Print Assumptions success_and_fail_guards_during_unwinding_refuted.
(** in every case: with [n] exceptions in flight at construction, success tasks run iff the scope is left
    normally and n = 0, fail tasks iff it is left by an exception or n <> 0 *)
Theorem when_guards_run_exactly : forall n g ts body e r, exec n body = (e, r) -> r <> Terminated ->
  exec n (Guard g ts body) =
    if match g with
       | OnExit => true
       | OnSuccess => should_run OnSuccess r && (n =? 0)
       | OnFail => should_run OnFail r || negb (n =? 0)
       end
    then let (e', r') := exec_tasks (match r with Exc => S n | _ => n end) ts in
         (e ++ e', match r' with Terminated => Terminated | _ => r end)
    else (e, r).
Proof. exact guard_exact. Qed.
Print Assumptions when_guards_run_exactly.
(** guards of all kinds, nested, with throwing tasks and a catch *)
Example guards_ex :
  let inner := Guard OnFail (Task (Seq (Emit 3) Raise) (Task (Emit 4) NoTask))
                 (Guard OnSuccess (Task (Emit 5) NoTask) (Seq (Emit 6) Raise)) in
  let p := Guard OnSuccess (Task (Emit 1) NoTask) (Guard OnExit (Task (Emit 2) NoTask) (Try inner (Emit 7))) in
  calm false p = true /\ exec 0 p = ([6; 3; 4; 7; 2; 1], Normal).
Proof. split; reflexivity. Qed.
