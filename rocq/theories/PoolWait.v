(** Tasks that wait for other tasks or throw. *)
From Coq Require Import List Bool Arith ZArith Lia Permutation.
From Verif Require Import ListUpdate PoolModel PoolSpec PoolProofs PoolLive PoolStop.
Import ListNotations.

Local Arguments Nat.ltb : simpl never.
Local Arguments workers_size : simpl never.

Definition is_ready (w : wpc) : nat := match w with WReady | WAfter _ => 1 | _ => 0 end.
Notation readies s := (sum_of is_ready (workers s)).

Lemma nodup_left {A} (l l' : list A) : NoDup (l ++ l') -> NoDup l.
Proof.
  induction l as [|x l IH]; cbn; intros H; [constructor|]. inversion H as [|? ? N H']; subst. constructor; [|auto].
  intros X. apply N, in_or_app. left. exact X.
Qed.

Section Wait.
Variable throws : nat -> bool.
Variable deps : nat -> list nat.
Notation step := (step throws deps).
Notation exec := (exec throws deps).
Notation internal := (internal throws deps).
Notation quiescent := (quiescent throws deps).

(** No wakeup is lost: while a worker waits, every task in the queue has a notification under way or a worker
    about to look at the queue. *)
Definition invN (s : pool) : Prop :=
  stopping s = false -> 0 < waits s -> pend_all s = 0 -> length (waiting s) <= pend_one s + readies s.

Lemma step_invN s e s' : invA s -> invW s -> invN s -> step s e s' -> invN s'.
Proof.
  intros I [W1 _ _ _] V H. unfold invN in *.
  cases H; unfold goto, sgoto, submit; cbn; try exact V; try discriminate;
    try (intros St; specialize (V St); rewrite ?insert_waiting_length; intros L P; upds; cbn in *; lia).
  - destruct (sched_obj s); [dif|]; exact V.
  - destruct (stopping s) eqn:St; [intros; congruence|]. intros _. specialize (V eq_refl).
    match goal with |- context [if ?c then _ else _] => destruct c eqn:C end; cbn; intros L P; [discriminate|].
    rewrite sum_app, sum_repeat in L |- *. cbn in L |- *. specialize (V ltac:(lia) P). lia.
  - intros St L P. rewrite Wt. cbn. lia.
  - intros St L P. specialize (V St). rewrite Wt in V. cbn in V. upds. destruct w; try contradiction; fin.
  - intros St. rewrite St in *. intros L P. specialize (V eq_refl). specialize (W1 eq_refl (not_continues s Co St) P).
    upds. destruct w; try contradiction; fin.
  - intros St L P. rewrite (no_wait _ Hi) in L. lia.
  - intros St L P. rewrite wake_waits in L. lia.
  - destruct (sched_obj s); exact V.
  - intros St L P. rewrite wake_waits in L. lia.
Qed.
Lemma exec_invN n clock tr s : exec (initial n clock) tr s -> invN s.
Proof.
  intros H. induction H as [|tr s e s' H IH S].
  - intros _ L _. cbn in L. rewrite sum_repeat in L. cbn in L. lia.
  - eapply step_invN; eauto; [eapply exec_invA|eapply exec_invW]; eauto.
Qed.

Lemma quiet_worker s i w : quiescent s -> nth_error (workers s) i = Some w ->
  w = WWait \/ w = WExited \/ w = WGone \/ exists t, w = WRun t /\ throws t = false /\ ~ incl (deps t) (completed s).
Proof.
  intros Q Hi. destruct w; auto; try (exfalso; eapply Q, i_work; [exact Hi|exact I]).
  right. right. right. exists t. split; [reflexivity|]. destruct (throws t) eqn:T; [exfalso; eapply Q, i_throw; eauto|].
  split; [reflexivity|]. intros D. eapply Q, i_finish; eauto.
Qed.

Lemma in_map_running l : Forall (fun w => w = WGone \/ exists t, w = WRun t) l -> length (filter in_map l) = length (flat_map running_task l).
Proof.
  induction l as [|w l IH]; intros F; [reflexivity|]. inversion F as [|? ? Hw Fl]; subst. specialize (IH Fl).
  destruct Hw as [->|(t & ->)]; cbn; [exact IH|rewrite IH; reflexivity].
Qed.

Lemma stuck_proof n clock tr s : exec (initial n clock) tr s -> quiescent s -> stopping s = false -> waiting_tasks s <> [] ->
  Forall (fun w => w = WGone \/ exists t, w = WRun t /\ throws t = false /\ ~ incl (deps t) (completed s)) (workers s) /\
  target s <= length (running s).
Proof.
  intros H Q St N. pose proof (exec_invN _ _ _ _ H St) as V. pose proof (exec_invA _ _ _ _ _ _ H) as IA.
  assert (R0 : readies s = 0).
  { apply sum_zero. intros i w Hi. destruct (quiet_worker _ _ _ Q Hi) as [->|[->|[->|(t & -> & _)]]]; reflexivity. }
  assert (W0 : waits s = 0).
  { destruct (Nat.eq_dec (waits s) 0) as [E|E]; [exact E|exfalso]. specialize (V ltac:(lia) (quiet_all _ _ s Q)).
    rewrite (quiet_one _ _ s Q), R0 in V. apply N. unfold waiting_tasks. destruct (waiting s); [reflexivity|cbn in V; lia]. }
  assert (F : Forall (fun w => w = WGone \/ exists t, w = WRun t /\ throws t = false /\ ~ incl (deps t) (completed s)) (workers s)).
  { apply Forall_forall. intros w Hw. apply In_nth_error in Hw. destruct Hw as (i & Hi).
    destruct (quiet_worker _ _ _ Q Hi) as [->|[->|[->|X]]]; auto.
    - pose proof (sum_ge is_wait _ _ _ Hi). cbn in *. lia.
    - exfalso. eapply (a_exited _ IA St); eauto. }
  split; [exact F|]. pose proof (exec_target _ _ _ _ _ _ H St) as T. rewrite <- size_ok in T. unfold running, workers_size in *.
  rewrite <- in_map_running; [exact T|]. eapply Forall_impl; [|exact F]. cbn. intros w [->|(t & -> & _)]; eauto.
Qed.

Lemma finished_proof n clock tr s (rank : nat -> nat) : exec (initial n clock) tr s -> quiescent s -> stopping s = false ->
  length (filter (fun t => negb (is_empty (deps t))) (givens tr)) < target s ->
  (forall t d, In t (givens tr) -> In d (deps t) -> In d (givens tr) /\ rank d < rank t) ->
  scheduled_tasks s = [] ->
  waiting_tasks s = [] /\ running s = [] /\ (forall t, In t (givens tr) -> In (EFinish t) tr) /\
  (forall t b, In (t, b) (syncs s) -> b = true).
Proof.
  intros H Q St L R Sc. destruct (places_proof _ _ _ _ _ _ H) as (P1 & P2 & P3 & P4 & P5 & P6).
  assert (Rn : forall t, In t (running s) -> In t (givens tr) /\ exists i, nth_error (workers s) i = Some (WRun t)).
  { intros t Ht. split.
    - eapply Permutation_in; [exact P1|]. apply in_or_app. right. apply in_or_app. right. apply in_or_app. left. exact Ht.
    - unfold running in Ht. apply in_flat_map in Ht. destruct Ht as (w & Hw & Ht). destruct w; try contradiction.
      destruct Ht as [<-|[]]. apply In_nth_error in Hw. exact Hw. }
  assert (W : waiting_tasks s = []).
  { destruct (list_eq_dec Nat.eq_dec (waiting_tasks s) []) as [E|E]; [exact E|exfalso].
    destruct (stuck_proof _ _ _ _ H Q St E) as [F T].
    assert (Le : length (running s) <= length (filter (fun t => negb (is_empty (deps t))) (givens tr))).
    { apply NoDup_incl_length.
      - eapply Permutation_NoDup in P5; [|exact P3]. eapply nodup_left. exact P5.
      - intros t Ht. destruct (Rn t Ht) as (G & i & Hi). apply filter_In. split; [exact G|].
        destruct (quiet_worker _ _ _ Q Hi) as [X|[X|[X|(t' & X & _ & D)]]]; try discriminate. injection X as <-.
        destruct (deps t); [|reflexivity]. exfalso. apply D. intros x []. }
    lia. }
  assert (C : forall m t, rank t < m -> In t (givens tr) -> In t (completed s)).
  { induction m as [|m IH]; intros t Lt G; [lia|]. pose proof G as G'. eapply Permutation_in in G'; [|apply Permutation_sym; exact P1].
    rewrite Sc, W in G'. cbn in G'. apply in_app_or in G'. destruct G' as [G'|G']; [|exact G']. exfalso.
    destruct (Rn t G') as (_ & i & Hi).
    destruct (quiet_worker _ _ _ Q Hi) as [X|[X|[X|(t' & X & _ & D)]]]; try discriminate. injection X as <-.
    apply D. intros d Hd. destruct (R t d G Hd) as [Gd Rd]. apply IH; [lia|exact Gd]. }
  assert (Run : running s = []).
  { destruct (running s) as [|t l] eqn:E; [reflexivity|exfalso]. destruct (Rn t (or_introl eq_refl)) as (G & i & Hi).
    destruct (quiet_worker _ _ _ Q Hi) as [X|[X|[X|(t' & X & _ & D)]]]; try discriminate. injection X as <-.
    apply D. intros d Hd. destruct (R t d G Hd) as [Gd _]. eapply C; [|exact Gd]. apply Nat.lt_succ_diag_r. }
  split; [exact W|]. split; [exact Run|]. split.
  - intros t G. specialize (C (S (rank t)) t (Nat.lt_succ_diag_r _) G). eapply Permutation_in in C; [|apply Permutation_sym; exact P4].
    apply in_flat_map in C. destruct C as (e & He & Hf). destruct e; try contradiction. destruct Hf as [<-|[]]. exact He.
  - intros t [|] Hs; [reflexivity|exfalso]. destruct (exec_syncs _ _ _ _ _ _ H t false Hs) as [Lt _].
    assert (G : In t (givens tr)).
    { apply cnt_in. rewrite (t_givens _ _ _ (exec_invT _ _ _ _ _ _ H)). apply Nat.ltb_lt in Lt. rewrite Lt. lia. }
    specialize (C (S (rank t)) t (Nat.lt_succ_diag_r _) G). apply in_split in Hs. destruct Hs as (l1 & l2 & E).
    eapply Q, i_sync_return; eauto.
Qed.

(** * Tasks that throw *)
Lemma throwing_running n0 clock tr s t0 : exec (initial n0 clock) tr s -> In t0 (starts tr) -> throws t0 = true ->
  ~ In t0 (completed s) /\ exists i, nth_error (workers s) i = Some (WRun t0).
Proof.
  intros H Ht T. assert (C : ~ In t0 (completed s)).
  { clear Ht. induction H as [|tr s e s' H IH S]; [intros []|]. cases S; unfold goto, sgoto, submit; cbn; auto.
    - destruct (sched_obj s); [dif|]; cbn; auto.
    - destruct (stopping s); [auto|]. dif; cbn; auto.
    - intros [<-|X]; [congruence|auto].
    - destruct (sched_obj s); cbn; auto. }
  split; [exact C|]. destruct (places_proof _ _ _ _ _ _ H) as (_ & _ & P3 & _).
  eapply Permutation_in in Ht; [|exact P3]. apply in_app_or in Ht. destruct Ht as [Ht|Ht]; [|contradiction].
  unfold running in Ht. apply in_flat_map in Ht. destruct Ht as (w & Hw & Ht). destruct w; try contradiction.
  destruct Ht as [<-|[]]. apply In_nth_error in Hw. exact Hw.
Qed.
Lemma throwing_proof n clock tr s t : exec (initial n clock) tr s -> In t (starts tr) -> throws t = true ->
  ~ In (EFinish t) tr /\ ~ quiescent s /\
  (status s = Alive -> exists s', step s ETau s' /\ status s' = Terminated).
Proof.
  intros H Ht T. destruct (throwing_running _ _ _ _ _ H Ht T) as (C & i & Hi). split; [|split].
  - intros F. destruct (places_proof _ _ _ _ _ _ H) as (_ & _ & _ & P4 & _). apply C. eapply Permutation_in; [exact P4|].
    apply in_flat_map. exists (EFinish t). split; [exact F|left; reflexivity].
  - intros Q. eapply Q, i_throw; eauto.
  - intros A. exists (set_status Terminated s). split; [|reflexivity]. split; [exact A|]. right. left. eapply i_throw; eauto.
Qed.
(** a pool that is not given scheduled tasks *)
Lemma unscheduled n0 clock tr s : exec (initial n0 clock) tr s -> (forall t a p, ~ In (ERunAt t a p) tr) ->
  schedulers s = [] /\ handoff s = 0 /\ scheduled s = [].
Proof.
  intros H. induction H as [|tr s e s' H IH S]; intros N; [auto|].
  destruct IH as (I1 & I2 & I3); [intros t a p X; eapply N, in_or_app; left; exact X|].
  assert (N' : forall t a p, e <> ERunAt t a p) by (intros t a p ->; eapply N, in_or_app; right; left; reflexivity).
  unfold handoff in *. revert N'. cases S; unfold goto, sgoto, submit; cbn; auto; intros N';
    try (rewrite I1 in Hj; destruct j; discriminate); try lia.
  - exfalso. eapply N'; reflexivity.
  - destruct (stopping s); [auto|]. dif; cbn; auto.
  - rewrite Hj, app_length in I2. cbn in I2. lia.
  - rewrite I1. auto.
Qed.
Lemma survives_proof n0 clock tr s : exec (initial n0 clock) tr s -> (forall t a p, ~ In (ERunAt t a p) tr) ->
  (forall t, In t (starts tr) -> throws t = false) -> status s = Alive.
Proof.
  intros H. induction H as [|tr s e s' H IH S]; intros N T; [reflexivity|].
  assert (NT : forall t a p, ~ In (ERunAt t a p) tr) by (intros t a p X; eapply N, in_or_app; left; exact X).
  assert (TT : forall t, In t (starts tr) -> throws t = false).
  { intros t X. apply T. unfold starts in *. rewrite flat_map_snoc. apply in_or_app. left. exact X. }
  specialize (IH NT TT). destruct (unscheduled _ _ _ _ H NT) as (U1 & U2 & U3).
  destruct (places_proof _ _ _ _ _ _ H) as (_ & _ & P3 & _).
  assert (RT : forall i t, nth_error (workers s) i = Some (WRun t) -> throws t = false).
  { intros i t Hi. apply TT. eapply Permutation_in; [apply Permutation_sym; exact P3|]. apply in_or_app. left.
    unfold running. apply in_flat_map. exists (WRun t). split; [eapply nth_error_In; eauto|left; reflexivity]. }
  unfold handoff in U2. cases S; unfold goto, sgoto, submit; cbn; auto; try (rewrite U1 in Hj; destruct j; discriminate).
  - destruct (sched_obj s); [dif|]; cbn; auto.
  - destruct (stopping s); [auto|]. dif; cbn; auto.
  - apply RT in Hi. congruence.
  - rewrite Hj, app_length in U2. cbn in U2. lia.
Qed.

(** * The destructor and scheduled tasks *)
Lemma entered_complete_proof n clock tr1 s1 s2 tr2 s t :
  exec (initial n clock) tr1 s1 -> step s1 EStop s2 -> exec s2 tr2 s ->
  onStop s1 = CompleteTasks -> (forall b, In (EOnStop b) tr2 -> b = CompleteTasks) ->
  workers_size s1 = target s1 -> 1 <= target s1 -> dtor s = DDone ->
  In t (entries tr1) -> In (EFinish t) (tr1 ++ EStop :: tr2).
Proof.
  intros H1 S H2 O N Sz T D Sub. rewrite size_ok in Sz.
  assert (H12 : exec (initial n clock) (tr1 ++ [EStop]) s2) by (econstructor; eauto).
  destruct (step_stop _ _ _ _ S) as (A & B & C & O2 & W).
  assert (Ex : forall tr s, exec s2 tr s -> exec (initial n clock) (tr1 ++ EStop :: tr) s).
  { intros tr s' X. pose proof (exec_app _ _ _ _ _ _ _ H12 X) as Y. rewrite <- app_assoc in Y. exact Y. }
  assert (Ap : forall tr, In t (entries (tr1 ++ EStop :: tr))).
  { intros tr. unfold entries in *. rewrite flat_map_app. apply in_or_app. left. exact Sub. }
  assert (St1 : stopping s1 = false).
  { destruct S as [_ S]. apply (a_dtor _ (exec_invA _ _ _ _ _ _ H1)). destruct S as [X|[X|[X|X]]]; inversion X; subst; auto.
    + destruct (work_cases i w s1) as [(_ & _ & V)|[(p0 & t0 & rest & _ & _ & V)|(_ & V)]]; rewrite V in *; discriminate.
    + destruct (sched_move_frame j e s1) as [(_ & V)|(_ & c & o & st & V)]; rewrite V in *; discriminate.
    + destruct (is_empty (waiting s1) && (active s1 =? 0)); discriminate.
    + destruct (is_empty (waiting s1)); discriminate. }
  assert (K : In t (waiting_tasks s) -> 0 < live s + waits s).
  { clear D. induction H2 as [|tr2 s e s' H2 IH S'].
    - intros _. rewrite C. pose proof (size_split (workers s1)) as SS.
      rewrite (exited_zero s1 (exec_invA _ _ _ _ _ _ H1) St1) in SS. lia.
    - assert (N' : forall b, In (EOnStop b) tr2 -> b = CompleteTasks) by (intros b Hb; apply N, in_or_app; auto).
      specialize (IH N'). destruct (exec_stopped _ _ s2 tr2 s A H2) as (I1 & I2 & I3 & I4).
      assert (O' : onStop s = CompleteTasks) by (apply I4; [congruence|exact N']).
      intros Hw.
      assert (Av : 0 < live s + waits s -> 0 < live s' + waits s').
      { intros Z. destruct (step_available _ _ s e s' I1 O' ltac:(rewrite I3, C, I2; lia) S' Z) as [X|X]; [exact X|].
        unfold waiting_tasks in Hw. rewrite X in Hw. destruct Hw. }
      apply Av. unfold waiting_tasks in *.
      destruct (step_waiting _ _ _ _ _ S') as [(E & _)|[(p' & t' & E & En & _)|(x & w & E & _)]].
      + rewrite E in Hw. auto.
      + rewrite E in Hw. apply in_map_iff in Hw. destruct Hw as ([q u] & Eu & Hw). cbn in Eu. subst u.
        apply insert_waiting_in in Hw. destruct Hw as [Hw|Hw].
        * exfalso. injection Hw as -> ->.
          assert (G2 := t_entries _ _ _ (exec_invT _ _ _ _ _ _ (Ex _ _ (exec_snoc _ _ _ _ _ _ _ H2 S'))) t').
          replace (tr1 ++ EStop :: tr2 ++ [e]) with ((tr1 ++ EStop :: tr2) ++ [e]) in G2 by (rewrite <- app_assoc; reflexivity).
          unfold entries in G2. rewrite flat_map_snoc, cnt_app, En, cnt_cons, one_self in G2.
          pose proof (Ap tr2) as X. apply cnt_in in X. unfold entries in X. destruct (t' <? next s'); lia.
        * apply IH. apply in_map_iff. exists (q, t). auto.
      + apply IH. rewrite E. right. exact Hw. }
  pose proof (Ex _ _ H2) as HE. pose proof (exec_invA _ _ _ _ _ _ HE) as IA. pose proof (exec_invT _ _ _ _ _ _ HE) as IT.
  destruct (exec_invD _ _ _ _ _ _ HE) as [D1 _ _ _ D5]. specialize (D5 (or_intror D)).
  assert (W0 : waits s = 0) by (apply D1; congruence).
  pose proof (Ap tr2) as En.
  apply cnt_in in En. pose proof (t_entries _ _ _ IT t) as TE. pose proof (a_places _ IA t) as Pl. unfold total in Pl.
  assert (R0 : sum_of (runs t) (workers s) = 0).
  { rewrite <- running_ok, no_live_running by exact D5. reflexivity. }
  destruct (cnt (map snd (waiting s)) t) eqn:Wc.
  - assert (F : In t (finishes (tr1 ++ EStop :: tr2))).
    { apply cnt_in. rewrite (t_finishes _ _ _ IT). destruct (t <? next s); lia. }
    apply in_flat_map in F. destruct F as (e & He & Hf). destruct e; try contradiction. destruct Hf as [<-|[]]. exact He.
  - exfalso. assert (X : In t (waiting_tasks s)) by (apply cnt_in; unfold waiting_tasks; lia). specialize (K X). lia.
Qed.

(** tasks still scheduled when the destructor has returned are never run *)
Lemma scheduled_lost_proof n clock tr s tr' s' t : exec (initial n clock) tr s -> dtor s = DDone -> exec s tr' s' ->
  In t (scheduled_tasks s) -> ~ In t (starts (tr ++ tr')).
Proof.
  intros H D H' Sc X. destruct (after_destroyed_proof _ _ _ _ _ _ _ _ H D H') as (_ & _ & E & _).
  unfold starts in *. rewrite flat_map_app, E, app_nil_r in X.
  pose proof (a_places _ (exec_invA _ _ _ _ _ _ H) t) as Pl. unfold total in Pl.
  apply cnt_in in X. unfold starts in X. rewrite (t_starts _ _ _ (exec_invT _ _ _ _ _ _ H)) in X.
  assert (Sc' : 0 < cnt (map id_of (scheduled s)) t) by (apply cnt_in; exact Sc). destruct (t <? next s); lia.
Qed.
End Wait.
