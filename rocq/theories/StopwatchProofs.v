From Coq Require Import List Bool ZArith Lia.
From Verif Require Import StopwatchModel StopwatchSpec.
Import ListNotations.
Open Scope Z_scope.

Lemma running_ok h : m_isRunning (run h) = runs h.
Proof.
  induction h as [|[e t] h IH]; [reflexivity|]. destruct e; simpl; auto.
  - destruct startNow; reflexivity.
  - unfold start. destruct (m_isRunning (run h)) eqn:E; simpl; auto.
  - unfold stop. destruct (m_isRunning (run h)) eqn:E; simpl; auto.
  - unfold stop. destruct (m_isRunning (run h)) eqn:E; simpl; auto.
Qed.

Lemma run_mono h now now' : time now' (run h) = time now (run h) + (if runs h then now' - now else 0).
Proof. unfold time. rewrite running_ok. destruct (runs h); lia. Qed.

Theorem time_ok h : forall now, time now (run h) = elapsed h now.
Proof.
  induction h as [|[e t] h IH]; intros now; [reflexivity|].
  assert (R := running_ok ((e, t) :: h)).
  specialize (IH t). cbn [elapsed run] in *. revert IH R. unfold time.
  destruct e; cbn [zeroes runs run];
    unfold construct, start, stop, stop_and_time, stop, reset, restart; intros;
    try destruct startNow; destruct (m_isRunning (run h)) eqn:E; cbn in *;
    try rewrite <- R; rewrite ?E; try lia.
Qed.

Theorem stop_and_time_ok h now : let r := stop_and_time now (run h) in
  fst r = run ((Stop, now) :: h) /\ snd r = elapsed h now.
Proof.
  split; [reflexivity|]. rewrite <- time_ok. unfold stop_and_time, stop, time. cbn.
  destruct (m_isRunning (run h)); reflexivity.
Qed.

Theorem no_effect h t :
  (runs h = true -> run ((Start, t) :: h) = run h) /\
  (runs h = false -> run ((Stop, t) :: h) = run h).
Proof.
  cbn [run]. unfold start, stop. rewrite running_ok. split; intros ->; reflexivity.
Qed.

Lemma elapsed_nonneg h : forall now, steady h now -> 0 <= elapsed h now.
Proof.
  induction h as [|[e t] h IH]; intros now S; [reflexivity|].
  destruct S as [L S]. specialize (IH t S). cbn [elapsed].
  destruct (runs _); destruct (zeroes e); lia.
Qed.

Lemma steady_app h0 : forall h now, steady (h0 ++ h) now ->
  exists t, t <= now /\ steady h t /\ (h0 = [] -> t = now).
Proof.
  induction h0 as [|[e t] h0 IH]; intros h now H.
  - exists now. split; [lia|]. auto.
  - destruct H as [L H]. apply IH in H. destruct H as (t' & L' & H & _). exists t'.
    split; [lia|]. split; [exact H|discriminate].
Qed.

Lemma elapsed_mono h0 : forall h t1 now, steady (h0 ++ (Read, t1) :: h) now ->
  Forall (fun p => zeroes (fst p) = false) h0 ->
  elapsed h t1 <= elapsed (h0 ++ (Read, t1) :: h) now.
Proof.
  induction h0 as [|[e t] h0 IH]; intros h t1 now S Z0; simpl app in *.
  - destruct S as [L S]. cbn [elapsed runs zeroes]. destruct (runs h); lia.
  - destruct S as [L S]. inversion Z0; subst. specialize (IH _ _ _ S H2).
    cbn [elapsed]. simpl in H1. rewrite H1. destruct (runs _); lia.
Qed.

Lemma elapsed_stopped h0 : forall h t1 now, runs h = false ->
  Forall (fun p => fst p = Stop \/ fst p = StopAndTime \/ fst p = Read) h0 ->
  elapsed (h0 ++ (Read, t1) :: h) now = elapsed h t1.
Proof.
  intros h t1 now R F.
  assert (G : forall now, runs (h0 ++ (Read, t1) :: h) = false /\ elapsed (h0 ++ (Read, t1) :: h) now = elapsed h t1);
    [|apply G].
  induction F as [|[e t] h0 P F IH]; intros n; simpl app.
  - cbn [runs elapsed zeroes]. rewrite R. auto.
  - destruct (IH t) as [IH1 IH2]. cbn [elapsed runs].
    destruct P as [P|[P|P]]; simpl in P; subst e; rewrite ?IH1; cbn [zeroes]; rewrite IH2; auto.
Qed.

(** * parts *)
Lemma cast_ok tick unit t : 0 < tick -> 0 < unit -> duration_cast tick unit t = Z.quot (t * tick) unit.
Proof.
  intros Ht Hu. unfold duration_cast.
  assert (G : 0 < Z.gcd tick unit).
  { assert (0 <= Z.gcd tick unit) by apply Z.gcd_nonneg.
    assert (Z.gcd tick unit <> 0) by (rewrite Z.gcd_eq_0; lia). lia. }
  destruct (Z.gcd_divide_l tick unit) as [p Hp], (Z.gcd_divide_r tick unit) as [q Hq].
  set (g := Z.gcd tick unit) in *. clearbody g.
  rewrite Hp, Hq, !Z.div_mul by lia.
  rewrite Z.mul_assoc, Z.quot_mul_cancel_r; [reflexivity| |lia].
  intros ->. lia.
Qed.

Lemma chain a b c : 0 < b -> 0 < c -> Z.quot a b = Z.quot a (b * c) * c + Z.rem (Z.quot a b) c.
Proof.
  intros Hb Hc. rewrite <- Z.quot_quot by lia. rewrite (Z.quot_rem (Z.quot a b) c) at 1 by lia. lia.
Qed.

Theorem parts_ok tick now s : 0 < tick ->
  (((((hours_part tick now s * 60 + minutes_part tick now s) * 60 + seconds_part tick now s) * 1000
     + milliseconds_part tick now s) * 1000 + microseconds_part tick now s) * 1000
     + nanoseconds_part tick now s) = in_nanoseconds tick now s /\
  in_nanoseconds tick now s = time now s * tick.
Proof.
  intros Ht.
  unfold hours_part, minutes_part, seconds_part, milliseconds_part, microseconds_part, nanoseconds_part,
    in_nanoseconds, count_rollover, count.
  rewrite !cast_ok by (unfold ns, us, ms, sec, minute, hour; lia).
  set (a := time now s * tick).
  pose proof (chain a minute 60 ltac:(reflexivity) ltac:(reflexivity)) as H1.
  pose proof (chain a sec 60 ltac:(reflexivity) ltac:(reflexivity)) as H2.
  pose proof (chain a ms 1000 ltac:(reflexivity) ltac:(reflexivity)) as H3.
  pose proof (chain a us 1000 ltac:(reflexivity) ltac:(reflexivity)) as H4.
  pose proof (chain a ns 1000 ltac:(reflexivity) ltac:(reflexivity)) as H5.
  change (minute * 60) with hour in H1. change (sec * 60) with minute in H2.
  change (ms * 1000) with sec in H3. change (us * 1000) with ms in H4. change (ns * 1000) with us in H5.
  split; [lia|]. unfold ns. apply Z.quot_1_r.
Qed.

Theorem parts_range tick now s : 0 < tick -> 0 <= time now s ->
  0 <= nanoseconds_part tick now s < 1000 /\ 0 <= microseconds_part tick now s < 1000 /\
  0 <= milliseconds_part tick now s < 1000 /\ 0 <= seconds_part tick now s < 60 /\
  0 <= minutes_part tick now s < 60 /\ 0 <= hours_part tick now s.
Proof.
  intros Ht Hs.
  unfold hours_part, minutes_part, seconds_part, milliseconds_part, microseconds_part, nanoseconds_part,
    count_rollover, count.
  rewrite !cast_ok by (unfold ns, us, ms, sec, minute, hour; lia).
  assert (Q : forall u, 0 < u -> 0 <= Z.quot (time now s * tick) u) by (intros; apply Z.quot_pos; nia).
  repeat match goal with |- _ /\ _ => split end;
    try (apply Z.rem_bound_pos; [apply Q; reflexivity|reflexivity]).
  apply Q. reflexivity.
Qed.

(** whole units are the floor of the time in that unit *)
Theorem units_ok tick unit now s : 0 < tick -> 0 < unit -> 0 <= time now s ->
  count tick unit now s * unit <= time now s * tick < (count tick unit now s + 1) * unit.
Proof.
  intros Ht Hu Hs. unfold count. rewrite cast_ok by assumption.
  rewrite Z.quot_div_nonneg by nia. pose proof (Z.mul_div_le (time now s * tick) unit Hu).
  pose proof (Z.mul_succ_div_gt (time now s * tick) unit Hu). nia.
Qed.

(** 999 ns seen by the first call, 1000 ns by the second *)
Lemma torn : exists s t0 t1, t0 <= t1 /\ 0 <= time t0 s /\
  microseconds_part 1 t0 s * 1000 + nanoseconds_part 1 t1 s < time t0 s.
Proof. exists (Sw 0 0 true), 999, 1000. split; [lia|]. split; [cbn; lia|vm_compute; reflexivity]. Qed.
Lemma torn_above : exists s t0 t1, t0 <= t1 /\ 0 <= time t0 s /\
  nanoseconds_part 1 t0 s + microseconds_part 1 t1 s * 1000 > time t1 s.
Proof. exists (Sw 0 0 true), 999, 1000. split; [lia|]. split; [cbn; lia|vm_compute; reflexivity]. Qed.

Theorem time_mono h0 h t1 now : steady (h0 ++ (Read, t1) :: h) now ->
  Forall (fun p => zeroes (fst p) = false) h0 ->
  time t1 (run h) <= time now (run (h0 ++ (Read, t1) :: h)).
Proof. rewrite !time_ok. apply elapsed_mono. Qed.
Theorem time_stopped h0 h t1 now : runs h = false ->
  Forall (fun p => fst p = Stop \/ fst p = StopAndTime \/ fst p = Read) h0 ->
  time now (run (h0 ++ (Read, t1) :: h)) = time t1 (run h).
Proof. rewrite !time_ok. apply elapsed_stopped. Qed.

Theorem parts_stopped tick s : 0 < tick -> m_isRunning s = false ->
  forall t1 t2 t3 t4 t5 t6 now,
  (((((hours_part tick t1 s * 60 + minutes_part tick t2 s) * 60 + seconds_part tick t3 s) * 1000
     + milliseconds_part tick t4 s) * 1000 + microseconds_part tick t5 s) * 1000
     + nanoseconds_part tick t6 s) = in_nanoseconds tick now s /\
  in_nanoseconds tick now s = m_time s * tick.
Proof.
  intros Ht R t1 t2 t3 t4 t5 t6 now.
  assert (T : forall t, time t s = m_time s) by (intros; unfold time; rewrite R; reflexivity).
  pose proof (parts_ok tick now s Ht) as P. revert P.
  unfold hours_part, minutes_part, seconds_part, milliseconds_part, microseconds_part, nanoseconds_part,
    in_nanoseconds, count_rollover, count. rewrite !T. auto.
Qed.

Lemma all_units_ok tick now s : 0 < tick -> 0 <= time now s ->
  in_nanoseconds tick now s = time now s * tick /\
  rounds_down 1000 (in_microseconds tick now s) (time now s * tick) /\
  rounds_down 1000000 (in_milliseconds tick now s) (time now s * tick) /\
  rounds_down 1000000000 (in_seconds tick now s) (time now s * tick) /\
  rounds_down (60 * 1000000000) (in_minutes tick now s) (time now s * tick) /\
  rounds_down (3600 * 1000000000) (in_hours tick now s) (time now s * tick).
Proof.
  intros H1 H2. repeat split; try (apply (units_ok tick _ now s); unfold us, ms, sec, minute, hour; auto; lia).
  pose proof (units_ok tick 1 now s). unfold in_nanoseconds, ns. lia.
Qed.
