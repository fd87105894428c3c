From Coq Require Import List Bool Arith Lia.
From Verif Require Import Base ScopeModel ScopeSpec.
Import ListNotations.

Section Tasks.
Context {S : Type} (beh : nat -> S -> option (S * list nat * bool)).

Theorem run_tasks_ok : never_adds beh -> forall k fuel st, length k <= fuel ->
  exists st' c, run_tasks beh fuel k st = Ret (st', c) /\ calls beh k st st' c.
Proof.
  intros NA. induction k as [|t k IH]; intros fuel st L.
  - exists st, []. split; [destruct fuel; reflexivity|constructor].
  - destruct fuel as [|fuel]; simpl in L; [lia|]. simpl.
    destruct (beh t st) as [[[st1 added] throws]|] eqn:B.
    + rewrite (NA _ _ _ _ _ B). simpl.
      destruct (IH fuel st1 ltac:(lia)) as (st' & c & R & C). rewrite R.
      exists st', (t :: c). split; [reflexivity|]. eapply calls_task; eauto.
    + destruct (IH fuel st ltac:(lia)) as (st' & c & R & C). rewrite R.
      exists st', c. split; [reflexivity|]. apply calls_empty; auto.
Qed.

(** which tasks are called does not depend on the state if emptiness does not *)
Lemma calls_filter (empty : nat -> bool) :
  (forall t st, beh t st = None <-> empty t = true) ->
  forall k st st' c, calls beh k st st' c -> c = filter (fun t => negb (empty t)) k.
Proof.
  intros E k st st' c H. induction H; simpl; [reflexivity| |].
  - apply E in H. rewrite H. exact IHcalls.
  - destruct (empty t) eqn:T.
    + apply E with (st := st) in T. congruence.
    + simpl. congruence.
Qed.

Theorem destructor_ok (empty : nat -> bool) : never_adds beh ->
  (forall t st, beh t st = None <-> empty t = true) ->
  forall added fuel st, length added <= fuel ->
  exists st', run_tasks beh fuel (fold_left (fun k t => add t k) added default_constructed) st
              = Ret (st', filter (fun t => negb (empty t)) (rev added)) /\
    calls beh (rev added) st st' (filter (fun t => negb (empty t)) (rev added)).
Proof.
  intros NA E added fuel st L.
  assert (K : fold_left (fun k t => add t k) added default_constructed = rev added).
  { unfold add, default_constructed. rewrite <- fold_left_rev_right.
    clear. induction (rev added); simpl; congruence. }
  rewrite K. destruct (run_tasks_ok NA (rev added) fuel st) as (st' & c & R & C); [rewrite rev_length; exact L|].
  exists st'. rewrite <- (calls_filter empty E _ _ _ _ C). auto.
Qed.
End Tasks.

(** a task that always adds another: the loop runs for ever *)
Definition beh_forever (t : nat) (st : nat) : option (nat * list nat * bool) := Some (st, [t], false).
Lemma forever fuel st : run_tasks beh_forever fuel [0] st = OutOfFuel.
Proof. revert st. induction fuel; intros st; [reflexivity|]. simpl. rewrite IHfuel. reflexivity. Qed.

(** task 0 adds task 1 when it first runs: 0 runs twice and 1 never *)
Definition beh_once (t : nat) (st : nat) : option (nat * list nat * bool) :=
  match t, st with 0, 0 => Some (1, [1], false) | _, _ => Some (st, [], false) end.
Lemma once fuel : run_tasks beh_once (2 + fuel) [0] 0 = Ret (1, [0; 0]).
Proof. destruct fuel; reflexivity. Qed.

(** in general: a task that adds tasks a1..an (n > 0) is left on the stack and the last of them is dropped *)
Lemma adding_drops_last {S} (beh : nat -> S -> option (S * list nat * bool)) t k st st' added a throws :
  beh t st = Some (st', added ++ [a], throws) ->
  run_top beh (t :: k) st = Ret (rev added ++ t :: k, st', [t]).
Proof.
  intros B. simpl. rewrite B, fold_left_app. simpl. f_equal. f_equal. f_equal.
  unfold add. clear B a. generalize (t :: k) as l. induction added as [|b added IH]; intros l; [reflexivity|].
  simpl. rewrite IH, <- app_assoc. reflexivity.
Qed.

(** * success and failure *)
Scheme stmt_ind2 := Induction for stmt Sort Prop with tasks_ind2 := Induction for tasks Sort Prop.
Combined Scheme stmt_tasks_ind from stmt_ind2, tasks_ind2.

Lemma exec_ideal :
  (forall s n, calm (negb (n =? 0)) s = true -> exec n s = ideal s) /\
  (forall ts n, calm_tasks (negb (n =? 0)) ts = true -> exec_tasks n ts = ideal_tasks ts).
Proof.
  apply stmt_tasks_ind; cbn [calm calm_tasks exec exec_tasks ideal ideal_tasks]; intros; auto.
  - apply andb_prop in H1. destruct H1 as [Ha Hb]. rewrite (H _ Ha).
    destruct (ideal a) as [e []]; simpl in Hb; [rewrite (H0 _ Hb)| |]; reflexivity.
  - apply andb_prop in H1. destruct H1 as [Ha Hb]. rewrite (H _ Ha).
    destruct (ideal body) as [e []]; simpl in Hb; [|rewrite (H0 _ Hb)|]; reflexivity.
  - apply andb_prop in H1. destruct H1 as [Ha Hb]. rewrite (H0 _ Ha).
    destruct (ideal body) as [e []]; simpl in *; [rewrite (H _ Hb)|rewrite (H (Datatypes.S n) Hb)|]; reflexivity.
  - apply andb_prop in H1. destruct H1 as [Hg Ht]. apply andb_prop in Hg. destruct Hg as [Hg Hb].
    rewrite (H0 _ Hb). destruct (ideal body) as [e []]; simpl in *; [| |reflexivity].
    + destruct g; simpl in *; [rewrite (H _ Ht); reflexivity| |].
      * rewrite negb_involutive in Hg. rewrite Hg. rewrite (H _ Ht). reflexivity.
      * rewrite negb_involutive in Hg. rewrite Hg. reflexivity.
    + destruct g; simpl in *; [rewrite (H (Datatypes.S n) Ht); reflexivity|reflexivity|].
      rewrite (H (Datatypes.S n) Ht). reflexivity.
  - apply andb_prop in H1. destruct H1 as [Ha Hb]. rewrite (H _ Ha).
    destruct (ideal s) as [e []]; simpl in *; [rewrite (H0 _ Hb)|rewrite (H0 _ Hb)|]; reflexivity.
Qed.

Lemma in_flight :
  let under_unwinding := fun g => Try (Local (Guard g (Task (Emit 1) NoTask) Skip) Raise) Skip in
  exec 0 (under_unwinding OnSuccess) = ([], Normal) /\ ideal (under_unwinding OnSuccess) = ([1], Normal) /\
  exec 0 (under_unwinding OnFail) = ([1], Normal) /\ ideal (under_unwinding OnFail) = ([], Normal).
Proof. repeat split. Qed.

(** [n] exceptions in flight when the guard is constructed *)
Theorem guard_exact n g ts body e r : exec n body = (e, r) -> r <> Terminated ->
  exec n (Guard g ts body) =
    if match g with
       | OnExit => true
       | OnSuccess => should_run OnSuccess r && (n =? 0)
       | OnFail => should_run OnFail r || negb (n =? 0)
       end
    then let (e', r') := exec_tasks (match r with Exc => S n | _ => n end) ts in
         (e ++ e', match r' with Terminated => Terminated | _ => r end)
    else (e, r).
Proof.
  intros E N. simpl. rewrite E. destruct r; try congruence; destruct g; simpl; try (destruct (n =? 0)); reflexivity.
Qed.

Lemma added_not_run : exists beh : nat -> nat -> option (nat * list nat * bool),
  beh 0 0 = Some (1, [1], false) /\ (forall st, st <> 0 -> beh 0 st = Some (st, [], false)) /\
  (forall st, beh 1 st = Some (st, [], false)) /\
  forall fuel, run_tasks beh (2 + fuel) [0] 0 = Ret (1, [0; 0]).
Proof.
  exists beh_once. split; [reflexivity|]. split; [intros [|] H; [congruence|reflexivity]|].
  split; [reflexivity|exact once].
Qed.

Lemma constructed_ok {S : Type} (beh : nat -> S -> option (S * list nat * bool)) (empty : nat -> bool) :
  never_adds beh -> (forall t st, beh t st = None <-> empty t = true) ->
  forall t added fuel st, length added < fuel ->
  exists st', run_tasks beh fuel (fold_left (fun k t => add t k) added (constructed t)) st
              = Ret (st', filter (fun t => negb (empty t)) (rev added ++ [t])) /\
    calls beh (rev added ++ [t]) st st' (filter (fun t => negb (empty t)) (rev added ++ [t])).
Proof. intros H1 H2 t added fuel st H. exact (destructor_ok beh empty H1 H2 (t :: added) fuel st H). Qed.
