(** Proofs about the tests of the stopwatch. *)
From Coq Require Import List Bool ZArith Lia.
From Verif Require Import StopwatchModel StopwatchSpec StopwatchProofs WatchTestModel WatchTestSpec.
Import ListNotations.
Open Scope Z_scope.

Lemma exec_inv tick x p c prog l seen : exec tick x p (c :: prog) l seen -> exists x' l' seen', l = x' :: l' /\ x + takes c <= x' /\
  exec tick x' (fst (act2 tick (x' / tick) c p)) prog l' seen' /\ seen = snd (act2 tick (x' / tick) c p) ++ seen'.
Proof. intros H. inversion H; subst. do 3 eexists. repeat split; eassumption. Qed.
Lemma exec_end tick x p l seen : exec tick x p [] l seen -> l = [] /\ seen = [].
Proof. intros H. inversion H. split; reflexivity. Qed.
Ltac opens H :=
  lazymatch type of H with
  | exec _ _ _ [] _ _ => apply exec_end in H as (-> & ->)
  | exec _ _ _ (_ :: _) _ _ =>
      let x := fresh "x" in let l := fresh "l" in let v := fresh "v" in let L := fresh "L" in
      apply exec_inv in H as (x & l & v & -> & L & H & ->); cbn in H; cbn [takes] in L; opens H
  end.
Lemma ticks tick x x' d : 0 < tick -> tick <= d -> x + d <= x' -> x / tick < x' / tick.
Proof.
  intros T D L. assert (A : (x + 1 * tick) / tick <= x' / tick) by (apply Z.div_le_mono; lia). rewrite Z.div_add in A by lia. lia.
Qed.
Lemma no_ticks tick x x' : 0 < tick -> x <= x' -> x / tick <= x' / tick.
Proof. intros T L. apply Z.div_le_mono; lia. Qed.

Section Tests.
Variable tick : Z.
Hypothesis Pos : 0 < tick.
Ltac start := intros x l seen H; unfold started in H; cbn [app] in H; opens H; cbn - [count count_rollover].
Lemma construct_stopped_p : always tick test_construct_stopped construct_stopped_asserts.
Proof. unfold test_construct_stopped. start. reflexivity. Qed.
Lemma copy_p : always tick test_copy_constructor copy_asserts.
Proof. unfold test_copy_constructor. start. eexists. reflexivity. Qed.
Lemma time_call_does_not_start_p : always tick test_time_call_does_not_start does_not_start_asserts.
Proof. unfold test_time_call_does_not_start. start. do 2 eexists. split; reflexivity. Qed.
Lemma cast_0 unit : 0 < unit -> duration_cast tick unit 0 = 0.
Proof. intros U. unfold duration_cast. apply Z.quot_0_l. intros E. apply Z.div_small_iff in E; [|intros E0; apply Z.gcd_eq_0 in E0; lia].
  pose proof (Z.gcd_nonneg tick unit). destruct (Z.gcd_divide_r tick unit) as (k & K). assert (k <> 0) by (intros ->; lia). nia. Qed.
Lemma reset_p : always tick test_reset reset_asserts.
Proof.
  unfold test_reset. start. unfold reset_asserts, count_rollover, count, time; cbn [m_isRunning m_time reset].
  rewrite !cast_0 by reflexivity. reflexivity.
Qed.
Lemma stop_when_stopped_p : always tick test_stop_when_stopped does_not_start_asserts.
Proof. unfold test_stop_when_stopped. start. do 2 eexists. split; reflexivity. Qed.
Lemma stop_and_time_when_stopped_p : always tick test_stop_and_time_when_stopped does_not_start_asserts.
Proof. unfold test_stop_and_time_when_stopped. start. do 2 eexists. split; reflexivity. Qed.

Ltac mono := repeat match goal with L : _ + 0 <= _ |- _ => rewrite Z.add_0_r in L; apply (no_ticks tick _ _ Pos) in L end.
Lemma construct_started_p : fine tick -> always tick test_construct_started construct_started_asserts.
Proof.
  intros F. unfold test_construct_started. start. eexists. split; [reflexivity|].
  match goal with L : _ + ms <= _ |- _ => apply (ticks tick) in L; [|exact Pos|exact F] end. mono. lia.
Qed.
Lemma time_call_does_not_stop_p : fine tick -> always tick test_time_call_does_not_stop does_not_stop_asserts.
Proof.
  intros F. unfold test_time_call_does_not_stop. start. do 2 eexists. split; [reflexivity|].
  repeat match goal with L : _ + ms <= _ |- _ => apply (ticks tick) in L; [|exact Pos|exact F] end. mono. lia.
Qed.
Lemma start_does_not_restart_p : fine tick -> always tick test_start_does_not_restart does_not_stop_asserts.
Proof.
  intros F. unfold test_start_does_not_restart. start. do 2 eexists. split; [reflexivity|].
  repeat match goal with L : _ + ms <= _ |- _ => apply (ticks tick) in L; [|exact Pos|exact F] end. mono. lia.
Qed.
Lemma stop_then_start_p : fine tick -> always tick test_stop_then_start stop_starts_asserts.
Proof.
  intros F. unfold test_stop_then_start. start. do 2 eexists. split; [reflexivity|].
  repeat match goal with L : _ + ms <= _ |- _ => apply (ticks tick) in L; [|exact Pos|exact F] end. mono. lia.
Qed.
Lemma stop_and_time_then_start_p : fine tick -> always tick test_stop_and_time_then_start stop_and_time_starts_asserts.
Proof.
  intros F. unfold test_stop_and_time_then_start. start. do 2 eexists. split; [reflexivity|].
  repeat match goal with L : _ + ms <= _ |- _ => apply (ticks tick) in L; [|exact Pos|exact F] end. mono. lia.
Qed.

(** the clock's readings at two statements *)
Notation at_ l n := (nth n l 0 / tick).
Lemma sanity_iff x l seen : exec tick x nothing test_sanity l seen ->
  (sanity_asserts seen <-> sec <= (at_ l 3%nat - at_ l 0%nat) * tick < 2 * sec).
Proof.
  intros H. unfold test_sanity, started in H. cbn [app] in H. opens H. cbn - [count count_rollover Z.mul]. unfold sanity_asserts.
  match goal with |- context [count_rollover _ _ _ (_ / _) (Sw (_ - ?b) _ _)] => idtac end.
  unfold count_rollover, count, time. cbn [m_isRunning m_time]. rewrite !(cast_ok tick sec) by (exact Pos || reflexivity).
  match goal with |- context [[yes; no; Num (Z.quot (?t * tick) sec); _]] => set (T := t * tick) end.
  assert (A : 0 <= T).
  { unfold T. apply Z.mul_nonneg_nonneg; [|lia]. match goal with |- 0 <= ?a / tick - ?b / tick => assert (b / tick <= a / tick) by (apply no_ticks; [exact Pos|unfold sec in *; lia]) end. lia. }
  rewrite Z.quot_div_nonneg by (assumption || reflexivity). pose proof (Z.mul_div_le T sec eq_refl). pose proof (Z.mul_succ_div_gt T sec eq_refl).
  split.
  - intros E. injection E as E _. nia.
  - intros B. assert (E : T / sec = 1) by nia. rewrite E. reflexivity.
Qed.
Lemma restart_iff x l seen : exec tick x nothing test_restart_does_restart l seen ->
  (restarts_asserts seen <-> at_ l 6%nat - at_ l 5%nat < at_ l 3%nat - at_ l 0%nat).
Proof.
  intros H. unfold test_restart_does_restart, started in H. cbn [app] in H. opens H. cbn. split.
  - intros (t1 & t2 & E & C). injection E as <- <-. exact C.
  - intros C. do 2 eexists. split; [reflexivity|exact C].
Qed.
Lemma stop_restart_iff x l seen : exec tick x nothing test_stop_then_restart l seen ->
  (stop_restarts_asserts seen <-> at_ l 8%nat - at_ l 6%nat < at_ l 3%nat - at_ l 0%nat).
Proof.
  intros H. unfold test_stop_then_restart, started in H. cbn [app] in H. opens H. cbn. split.
  - intros (t1 & t2 & E & C). injection E as <- <-. exact C.
  - intros C. do 2 eexists. split; [reflexivity|exact C].
Qed.
Lemma stop_and_time_restart_iff x l seen : exec tick x nothing test_stop_and_time_then_restart l seen ->
  (stop_and_time_restarts_asserts seen <-> at_ l 7%nat - at_ l 5%nat < at_ l 3%nat - at_ l 0%nat).
Proof.
  intros H. unfold test_stop_and_time_then_restart, started in H. cbn [app] in H. opens H. cbn. split.
  - intros (t1 & t2 & E & C). injection E as <- <-. exact C.
  - intros C. do 2 eexists. split; [reflexivity|exact C].
Qed.

(** * Executions *)
Fixpoint allowed (x : Z) (prog : list statement) (l : list Z) : Prop :=
  match prog, l with
  | [], [] => True
  | c :: prog, x' :: l => x + takes c <= x' /\ allowed x' prog l
  | _, _ => False
  end.
Fixpoint sees (p : stopwatch * stopwatch) (prog : list statement) (l : list Z) : list value :=
  match prog, l with
  | c :: prog, x :: l => snd (act2 tick (x / tick) c p) ++ sees (fst (act2 tick (x / tick) c p)) prog l
  | _, _ => []
  end.
Lemma exec_sees prog : forall x p l, allowed x prog l -> exec tick x p prog l (sees p prog l).
Proof.
  induction prog as [|c prog IH]; intros x p [|x' l] A; try destruct A; [constructor|]. cbn [sees]. constructor; [assumption|]. apply IH. assumption.
Qed.
(** the sleep ends at [a]; the rest of the test takes no time up to its statement [n] *)
Lemma ms_pos : 0 < ms. Proof. reflexivity. Qed.
Lemma same_tick y : 0 < tick -> 0 <= y < tick -> y / tick = 0.
Proof. intros _ H. apply Z.div_small. exact H. Qed.
Ltac execs l0 := let A := fresh "A" in intros A; let X := fresh "X" in
  lazymatch type of A with always _ ?prog _ => assert (X : allowed 0 prog l0) by (cbn [allowed takes app started]; lazy delta [prog] beta; cbn [allowed takes app started]; repeat split; lia) end;
  specialize (A 0 l0 _ (exec_sees _ 0 nothing l0 X)); cbn - [Z.div Z.sub Z.add] in A.
Lemma construct_started_f : ~ fine tick -> ~ always tick test_construct_started construct_started_asserts.
Proof.
  unfold fine. intros F. execs [0; 0; ms; ms; ms]. destruct A as (z & E & N). injection E as <-.
  pose proof ms_pos. rewrite (same_tick ms), (same_tick 0) in N by lia. lia.
Qed.
Lemma time_call_does_not_stop_f : ~ fine tick -> ~ always tick test_time_call_does_not_stop does_not_stop_asserts.
Proof.
  unfold fine. pose proof ms_pos. intros F. execs [tick - ms; tick - ms; tick; tick; tick; tick + ms; tick + ms; tick + ms].
  destruct A as (t1 & t2 & E & C). injection E as <- <-. replace (tick + ms) with (ms + 1 * tick) in C by lia. rewrite Z.div_add in C by lia.
  rewrite (same_tick ms), Z.div_same in C by lia. lia.
Qed.
Lemma start_does_not_restart_f : ~ fine tick -> ~ always tick test_start_does_not_restart does_not_stop_asserts.
Proof.
  unfold fine. pose proof ms_pos. intros F. execs [tick - ms; tick - ms; tick; tick; tick; tick + ms; tick + ms; tick + ms; tick + ms].
  destruct A as (t1 & t2 & E & C). injection E as <- <-. replace (tick + ms) with (ms + 1 * tick) in C by lia. rewrite Z.div_add in C by lia.
  rewrite (same_tick ms), Z.div_same in C by lia. lia.
Qed.
Lemma stop_then_start_f : ~ fine tick -> ~ always tick test_stop_then_start stop_starts_asserts.
Proof.
  unfold fine. pose proof ms_pos. intros F. execs [tick - ms; tick - ms; tick; tick; tick; tick; tick; tick; tick + ms; tick + ms; tick + ms].
  destruct A as (t1 & t2 & E & C). injection E as <- <-. replace (tick + ms) with (ms + 1 * tick) in C by lia. rewrite Z.div_add in C by lia.
  rewrite (same_tick ms), Z.div_same in C by lia. lia.
Qed.
Lemma stop_and_time_then_start_f : ~ fine tick -> ~ always tick test_stop_and_time_then_start stop_and_time_starts_asserts.
Proof.
  unfold fine. pose proof ms_pos. intros F. execs [tick - ms; tick - ms; tick; tick; tick; tick; tick; tick + ms; tick + ms; tick + ms].
  destruct A as (t1 & t2 & E & C). injection E as <- <-. replace (tick + ms) with (ms + 1 * tick) in C by lia. rewrite Z.div_add in C by lia.
  rewrite (same_tick ms), Z.div_same in C by lia. lia.
Qed.
(** a sleep of [2 * sec] ticks *)
Lemma sanity_f : ~ always tick test_sanity sanity_asserts.
Proof.
  intros A. set (y := 2 * sec * tick). set (l := [0; 0; y; y; y; y; y]).
  assert (X : exec tick 0 nothing test_sanity l (sees nothing test_sanity l)) by (apply exec_sees; cbn - [y]; unfold y, sec; repeat split; nia).
  specialize (A _ _ _ X). apply (sanity_iff _ _ _ X) in A. cbn [nth l] in A. unfold y in A. rewrite Z.div_mul, Z.div_0_l in A by lia. nia.
Qed.
Lemma restart_f : ~ always tick test_restart_does_restart restarts_asserts.
Proof.
  intros A. set (y := ms * tick). set (z := 2 * ms * tick). set (l := [0; 0; y; y; y; y; z; z]).
  assert (X : exec tick 0 nothing test_restart_does_restart l (sees nothing test_restart_does_restart l)) by (apply exec_sees; cbn - [y z]; unfold y, z, ms; repeat split; nia).
  specialize (A _ _ _ X). apply (restart_iff _ _ _ X) in A. cbn [nth l] in A. unfold y, z in A. rewrite !Z.div_mul, Z.div_0_l in A by lia. lia.
Qed.
Lemma stop_restart_f : ~ always tick test_stop_then_restart stop_restarts_asserts.
Proof.
  intros A. set (y := ms * tick). set (z := 2 * ms * tick). set (l := [0; 0; y; y; y; y; y; y; z; z]).
  assert (X : exec tick 0 nothing test_stop_then_restart l (sees nothing test_stop_then_restart l)) by (apply exec_sees; cbn - [y z]; unfold y, z, ms; repeat split; nia).
  specialize (A _ _ _ X). apply (stop_restart_iff _ _ _ X) in A. cbn [nth l] in A. unfold y, z in A. rewrite !Z.div_mul, Z.div_0_l in A by lia. lia.
Qed.
Lemma stop_and_time_restart_f : ~ always tick test_stop_and_time_then_restart stop_and_time_restarts_asserts.
Proof.
  intros A. set (y := ms * tick). set (z := 2 * ms * tick). set (l := [0; 0; y; y; y; y; y; z; z]).
  assert (X : exec tick 0 nothing test_stop_and_time_then_restart l (sees nothing test_stop_and_time_then_restart l)) by (apply exec_sees; cbn - [y z]; unfold y, z, ms; repeat split; nia).
  specialize (A _ _ _ X). apply (stop_and_time_restart_iff _ _ _ X) in A. cbn [nth l] in A. unfold y, z in A. rewrite !Z.div_mul, Z.div_0_l in A by lia. lia.
Qed.
End Tests.

(** * Statements *)
Lemma fine_dec tick : fine tick \/ ~ fine tick.
Proof. unfold fine. lia. Qed.
Lemma exact_if (tick : Z) prog P : (fine tick -> always tick prog P) -> (~ fine tick -> ~ always tick prog P) -> (always tick prog P <-> fine tick).
Proof. intros A B. destruct (fine_dec tick); split; intuition. Qed.
Lemma six_pass tick : 0 < tick ->
  always tick test_construct_stopped construct_stopped_asserts /\ always tick test_copy_constructor copy_asserts /\
  always tick test_time_call_does_not_start does_not_start_asserts /\ always tick test_reset reset_asserts /\
  always tick test_stop_when_stopped does_not_start_asserts /\ always tick test_stop_and_time_when_stopped does_not_start_asserts.
Proof.
  intros P. repeat split; [apply construct_stopped_p|apply copy_p|apply time_call_does_not_start_p|apply reset_p|apply stop_when_stopped_p|apply stop_and_time_when_stopped_p]; exact P.
Qed.
Lemma five_exact tick : 0 < tick ->
  (always tick test_construct_started construct_started_asserts <-> fine tick) /\
  (always tick test_time_call_does_not_stop does_not_stop_asserts <-> fine tick) /\
  (always tick test_start_does_not_restart does_not_stop_asserts <-> fine tick) /\
  (always tick test_stop_then_start stop_starts_asserts <-> fine tick) /\
  (always tick test_stop_and_time_then_start stop_and_time_starts_asserts <-> fine tick).
Proof.
  intros P. split; [|split; [|split; [|split]]]; apply exact_if.
  - apply construct_started_p, P.
  - apply construct_started_f, P.
  - apply time_call_does_not_stop_p, P.
  - apply time_call_does_not_stop_f, P.
  - apply start_does_not_restart_p, P.
  - apply start_does_not_restart_f, P.
  - apply stop_then_start_p, P.
  - apply stop_then_start_f, P.
  - apply stop_and_time_then_start_p, P.
  - apply stop_and_time_then_start_f, P.
Qed.
Lemma four_fail tick : 0 < tick ->
  ~ always tick test_sanity sanity_asserts /\ ~ always tick test_restart_does_restart restarts_asserts /\
  ~ always tick test_stop_then_restart stop_restarts_asserts /\ ~ always tick test_stop_and_time_then_restart stop_and_time_restarts_asserts.
Proof. intros P. split; [apply sanity_f, P|split; [apply restart_f, P|split; [apply stop_restart_f, P|apply stop_and_time_restart_f, P]]]. Qed.
Lemma four_exact tick x l seen : 0 < tick ->
  let reads n := nth n l 0 / tick in
  (exec tick x nothing test_sanity l seen -> (sanity_asserts seen <-> sec <= (reads 3%nat - reads 0%nat) * tick < 2 * sec)) /\
  (exec tick x nothing test_restart_does_restart l seen -> (restarts_asserts seen <-> reads 6%nat - reads 5%nat < reads 3%nat - reads 0%nat)) /\
  (exec tick x nothing test_stop_then_restart l seen -> (stop_restarts_asserts seen <-> reads 8%nat - reads 6%nat < reads 3%nat - reads 0%nat)) /\
  (exec tick x nothing test_stop_and_time_then_restart l seen -> (stop_and_time_restarts_asserts seen <-> reads 7%nat - reads 5%nat < reads 3%nat - reads 0%nat)).
Proof. intros P reads. split; [apply sanity_iff, P|split; [apply restart_iff|split; [apply stop_restart_iff|apply stop_and_time_restart_iff]]]. Qed.
Lemma sanity_ex : exists l, exec 100 7 nothing test_sanity l [yes; no; Num 1; Num 1].
Proof. exists [8; 9; 1000000010; 1000000250; 1000000300; 1000000300; 1000000301]. apply (exec_sees 100 test_sanity 7 nothing). cbn. unfold sec. lia. Qed.
Lemma fine_cases : fine 1 /\ ~ fine 15625000.
Proof. unfold fine, ms. lia. Qed.
