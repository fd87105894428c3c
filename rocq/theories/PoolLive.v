(** Progress of the thread pool: no lost wakeups, termination, stopping. *)
From Coq Require Import List Bool Arith ZArith Lia Permutation.
From Verif Require Import ListUpdate PoolModel PoolSpec PoolProofs.
Import ListNotations.

Local Arguments Nat.ltb : simpl never.
Local Arguments workers_size : simpl never.

Section Live.
Variable throws : nat -> bool.
Variable deps : nat -> list nat.
Notation step := (step throws deps).
Notation exec := (exec throws deps).
Notation internal := (internal throws deps).
Notation internals := (internals throws deps).
Notation quiescent := (quiescent throws deps).

Lemma exec_invW n clock tr s : exec (initial n clock) tr s -> invW s.
Proof.
  intros H. induction H; [apply initial_invW|]. eapply step_invW; eauto. eapply exec_invA; eauto.
Qed.

(** * The destructor *)
Record invD (s : pool) : Prop := {
  d_waits : dtor s <> DNone -> dtor s <> DStopped -> waits s = 0;
  d_swaits : dtor s = DJoining \/ dtor s = DJoined \/ dtor s = DDone -> sum_of is_swait (schedulers s) = 0;
  d_obj : forall j, sched_obj s = Some j -> j < length (schedulers s);
  d_assign : forall j, In j (pend_assign s) -> j < length (schedulers s);
  d_done : dtor s = DJoined \/ dtor s = DDone -> live s = 0
}.

Lemma initial_invD n clock : invD (initial n clock).
Proof. constructor; cbn; intros; try discriminate; try contradiction; try congruence. destruct H; discriminate. Qed.

Lemma may_call_live s : may_call s -> dtor s = DNone \/ 0 < live s.
Proof.
  intros [D|(i & t & Hi)]; [left; exact D|right]. pose proof (sum_ge is_live _ _ _ Hi) as G. cbn in G. lia.
Qed.
Lemma stopped_continues s : stopping s = true -> continues s = true -> waiting s <> [].
Proof.
  unfold continues. intros -> H. apply andb_prop in H. destruct H as [_ H]. cbn in H. apply andb_prop in H. destruct H as [_ H].
  intros E. rewrite E in H. discriminate.
Qed.

Lemma sched_loop_len j s : length (schedulers (sched_loop j s)) = length (schedulers s).
Proof.
  destruct (sched_loop_cases j s) as [(_ & ->)|[(_ & e & l & _ & ->)|[(_ & _ & k & _ & ->)|(_ & _ & _ & ->)]]]; cbn; apply update_length.
Qed.
Lemma step_len s e s' : step s e s' -> length (schedulers s) <= length (schedulers s').
Proof.
  intros H. destruct H as [Al [H|[H|[H|H]]]].
  - destruct H; cbn; auto.
    + destruct (sched_obj s); [dif|]; cbn; auto.
    + destruct (stopping s); [auto|]. dif; cbn; auto.
  - destruct H; cbn; rewrite ?update_length, ?app_length, ?map_length; cbn; try lia.
    + destruct (work_cases i w s) as [(Co & Wt & V)|[(p & t & rest & Co & Wt & V)|(Co & V)]]; rewrite V; cbn; auto.
    + destruct (sched_obj s); cbn; auto.
    + rewrite sched_loop_len. lia.
    + unfold sched_move. destruct (existsb _ _); cbn; [rewrite sched_loop_len; cbn|]; lia.
  - destruct H; cbn; rewrite ?update_length; auto.
  - destruct H; cbn; auto.
Qed.
Lemma sched_loop_obj j s k : sched_obj (sched_loop j s) = Some k -> sched_obj s = Some k.
Proof.
  destruct (sched_loop_cases j s) as [(_ & ->)|[(_ & e & l & _ & ->)|[(_ & _ & o & _ & ->)|(_ & _ & _ & ->)]]]; cbn; auto. discriminate.
Qed.
Lemma step_obj s e s' k : step s e s' -> sched_obj s' = Some k -> sched_obj s = Some k \/ In k (pend_assign s).
Proof.
  intros H. destruct H as [Al [H|[H|[H|H]]]].
  - destruct H; cbn; auto.
    + destruct (sched_obj s) eqn:E; [dif|]; cbn; rewrite ?E; auto.
    + destruct (stopping s); [auto|]. dif; cbn; auto.
  - destruct H; cbn; auto.
    + destruct (work_cases i w s) as [(Co & Wt & V)|[(p & t & rest & Co & Wt & V)|(Co & V)]]; rewrite V; cbn; auto.
    + destruct (sched_obj s) eqn:E; cbn; rewrite ?E; auto. intros Q. injection Q as <-. right. rewrite H. apply in_or_app. right. left. reflexivity.
    + intros Q. left. eapply sched_loop_obj; eauto.
    + unfold sched_move. destruct (existsb _ _); cbn; auto. intros Q. apply sched_loop_obj in Q. auto.
    + discriminate.
  - destruct H; cbn; auto.
  - destruct H; cbn; auto.
Qed.
Lemma step_assign s e s' m : step s e s' -> In m (pend_assign s') -> In m (pend_assign s) \/ m < length (schedulers s').
Proof.
  intros H. cases H; unfold goto, sgoto, submit; cbn; auto.
  - destruct (sched_obj s); [dif|]; cbn; auto.
  - destruct (stopping s); [auto|]. dif; cbn; auto.
  - intros [<-|Q]; [right; rewrite app_length; cbn; lia|auto].
  - destruct (sched_obj s); cbn; intros Q; left; rewrite Hj; apply in_app_or in Q; apply in_or_app; simpl; tauto.
Qed.

Lemma live_zero s : Forall (fun w => w = WExited \/ w = WGone) (workers s) -> live s = 0.
Proof.
  intros F. apply sum_zero. intros i w Hi. rewrite Forall_forall in F. destruct (F w (nth_error_In _ _ Hi)) as [->| ->]; reflexivity.
Qed.

Lemma step_dtor s e s' : step s e s' -> dtor s' = dtor s \/ (dtor s = DNone /\ dtor s' = DStopped /\ e = EStop) \/
  (dtor s = DStopped /\ dtor s' = DNotified) \/ (dtor s = DNotified /\ dtor s' = DJoining) \/ (dtor s = DJoining /\ dtor s' = DJoined) \/
  (dtor s = DJoined /\ dtor s' = DDone).
Proof.
  intros H. cases H; unfold goto, sgoto, submit; cbn; auto 8.
  - destruct (sched_obj s); [dif|]; cbn; auto.
  - destruct (stopping s); [auto|]. dif; cbn; auto.
  - destruct (sched_obj s); cbn; auto.
Qed.

Lemma step_dtor_scheds s e s' : step s e s' ->
  dtor s' = dtor s \/ (dtor s <> DNotified /\ schedulers s' = schedulers s) \/ (dtor s = DNotified /\ schedulers s' = map wake_sched (schedulers s)).
Proof.
  intros H. cases H; unfold goto, sgoto, submit; cbn; auto;
    try (right; left; split; [congruence|reflexivity]).
  - destruct (sched_obj s); [dif|]; cbn; auto.
  - destruct (stopping s); [auto|]. dif; cbn; auto.
  - destruct (sched_obj s); cbn; auto.
Qed.

Lemma step_invD s e s' : invA s -> invD s -> step s e s' -> invD s'.
Proof.
  intros I [D1 D2 D3 D4 D5] H. pose proof (a_dtor _ I) as DS.
  assert (St : dtor s <> DNone -> stopping s = true) by (intros N; destruct (stopping s); [reflexivity|exfalso; apply N, DS; reflexivity]).
  pose proof (step_len _ _ _ H) as Len.  constructor.
  - (* waits *)
    cases H; unfold goto, sgoto, submit; cbn; try exact D1; try (intros; congruence);
      try (intros N1 N2; specialize (D1 N1 N2); upds; fin);
      try (intros N1 N2; specialize (D1 N1 N2); upds; destruct w; fin);
      try (intros N1 N2; apply D1; congruence); try (intros; apply wake_waits).
    + destruct (sched_obj s); [dif|]; exact D1.
    + destruct (stopping s) eqn:E; [exact D1|]. assert (E' : dtor s = DNone) by (apply DS; reflexivity). dif; cbn; intros; congruence.
    + intros N1 N2. exfalso. exact (stopped_continues s (St N1) Co Wt).
    + intros N1 N2; specialize (D1 N1 N2). destruct (stopping s); upds; fin.
    + destruct (sched_obj s); exact D1.
  - (* swaits *)
    pose proof (fun k c => step_scheds throws deps s e s' k c H) as Sc.
    intros Q. destruct (step_dtor _ _ _ H) as [E|[(E1 & E2 & _)|[(E1 & E2)|[(E1 & E2)|[(E1 & E2)|(E1 & E2)]]]]];
      try (exfalso; rewrite E2 in Q; destruct Q as [Q|[Q|Q]]; discriminate).
    + rewrite E in Q. specialize (D2 Q). apply sum_zero. intros k c Hk.
      assert (N : stopping s = true) by (apply St; destruct Q as [->|[->| ->]]; discriminate).
      destruct c; try reflexivity. exfalso.
      assert (X : nth_error (schedulers s) k <> Some (SWait e0)).
      { intros X. pose proof (sum_ge is_swait _ _ _ X) as G. cbn in G. lia. }
      clear Sc. destruct H as [Al [H|[H|[H|H]]]].
      * destruct H; cbn in Hk; try congruence.
        -- destruct (sched_obj s); [dif_in Hk|]; cbn in Hk; congruence.
        -- rewrite N in Hk. congruence.
      * destruct H; cbn in Hk; try congruence; try (rewrite N in *; congruence).
        -- destruct (work_cases i w s) as [(Co & Wt & V)|[(p & t & rest & Co & Wt & V)|(Co & V)]]; rewrite V in Hk; cbn in Hk; congruence.
        -- apply update_inv in Hk. destruct Hk as [(_ & ? & _)|[_ Hk]]; congruence.
        -- destruct (Nat.lt_ge_cases k (length (schedulers s))) as [L|L].
           ++ rewrite nth_error_app1 in Hk by exact L. congruence.
           ++ rewrite nth_error_app2 in Hk by exact L. apply nth_error_In in Hk. destruct Hk as [Hk|[]]. discriminate.
        -- destruct (sched_obj s); cbn in Hk; congruence.
        -- destruct (sched_loop_cases j s) as [(_ & V)|[(F & _)|[(F & _)|(F & _)]]]; try congruence.
           rewrite V in Hk. cbn in Hk. apply update_inv in Hk. destruct Hk as [(_ & ? & _)|[_ Hk]]; congruence.
        -- apply update_inv in Hk. destruct Hk as [(_ & ? & _)|[_ Hk]]; congruence.
        -- unfold sched_move in Hk. destruct (existsb _ _); cbn in Hk; [|congruence].
           match type of Hk with context [sched_loop j ?x] => destruct (sched_loop_cases j x) as [(_ & V)|[(F & _)|[(F & _)|(F & _)]]] end;
             try (cbn in F; congruence).
           rewrite V in Hk. cbn in Hk. apply update_inv in Hk. destruct Hk as [(_ & ? & _)|[_ Hk]]; congruence.
        -- rewrite nth_error_map in Hk. destruct (nth_error (schedulers s) k) as [c|]; [|discriminate]. destruct c; discriminate.
      * destruct H; cbn in Hk; try congruence. apply update_inv in Hk. destruct Hk as [(_ & ? & _)|[_ Hk]]; congruence.
      * destruct H; cbn in Hk; congruence.
    + assert (V : schedulers s' = map wake_sched (schedulers s)).
      { destruct (step_dtor_scheds _ _ _ H) as [Q'|[Q'|Q']]; [congruence|destruct Q'; congruence|destruct Q'; congruence]. }
      rewrite V. apply wake_swait.
    + assert (V : schedulers s' = schedulers s).
      { destruct (step_dtor_scheds _ _ _ H) as [Q'|[Q'|Q']]; [congruence|destruct Q'; congruence|destruct Q'; congruence]. }
      rewrite V. auto.
    + assert (V : schedulers s' = schedulers s).
      { destruct (step_dtor_scheds _ _ _ H) as [Q'|[Q'|Q']]; [congruence|destruct Q'; congruence|destruct Q'; congruence]. }
      rewrite V. auto.
  - intros j Hj. destruct (step_obj _ _ _ _ H Hj) as [Q|Q]; [apply D3 in Q|apply D4 in Q]; lia.
  - intros j Hj. destruct (step_assign _ _ _ _ H Hj) as [Q|Q]; [apply D4 in Q|]; lia.
  - (* done *)
    cases H; unfold goto, sgoto, submit; cbn; try exact D5; try (intros [|]; discriminate);
      try (intros Q; specialize (D5 Q); upds; fin);
      try (intros Q; specialize (D5 Q); upds; destruct w; try contradiction; fin).
    + destruct (sched_obj s); [dif|]; exact D5.
    + destruct (stopping s) eqn:E; [exact D5|]. assert (E' : dtor s = DNone) by (apply DS; reflexivity).
      dif; cbn; intros [Q|Q]; congruence.
    + intros Q. specialize (D5 Q). pose proof (sum_ge is_live _ _ _ Hi) as G. assert (waits s = 0) by (apply D1; destruct Q; congruence).
      pose proof (sum_ge is_wait _ _ _ Hi). cbn in *. lia.
    + intros Q. rewrite wake_live. assert (waits s = 0) by (apply D1; destruct Q; congruence). specialize (D5 Q). lia.
    + destruct (sched_obj s); exact D5.
    + intros _. apply live_zero. exact Hex.
    + intros _. apply D5. auto.
    + intros _. apply D5. auto.
    + intros Q. specialize (D5 Q). assert (waits s = 0) by (apply D1; destruct Q; congruence).
      pose proof (sum_ge is_wait _ _ _ Hi). cbn in *. lia.
Qed.

Lemma exec_invD n clock tr s : exec (initial n clock) tr s -> invD s.
Proof. intros H. induction H; [apply initial_invD|]. eapply step_invD; eauto. eapply exec_invA; eauto. Qed.

(** * States in which nothing more happens *)
Lemma find_wait l : (exists i, nth_error l i = Some WWait) \/ (forall i, nth_error l i <> Some WWait).
Proof.
  induction l as [|w l IH]; [right; intros [|i]; discriminate|].
  destruct IH as [(i & H)|H]; [left; exists (S i); exact H|].
  destruct w; try (right; intros [|i]; [discriminate|apply H]). left. exists 0. reflexivity.
Qed.
Lemma find_swait l : (exists j e, nth_error l j = Some (SWait e)) \/ (forall j e, nth_error l j <> Some (SWait e)).
Proof.
  induction l as [|w l IH]; [right; intros [|i]; discriminate|].
  destruct IH as [(i & e & H)|H]; [left; exists (S i), e; exact H|].
  destruct w; try (right; intros [|i] e'; [discriminate|apply H]). left. exists 0, e. reflexivity.
Qed.

Lemma quiet_live s : plain throws deps -> quiescent s -> live s = 0.
Proof.
  intros P Q. apply sum_zero. intros i w Hi. destruct w; try reflexivity; exfalso.
  - eapply Q. eapply i_work; [exact Hi|exact I].
  - destruct (P t) as [Pt Pd]. eapply Q. eapply i_finish; [exact Hi|exact Pt|rewrite Pd; intros x []].
  - eapply Q. eapply i_work; [exact Hi|exact I].
Qed.
Lemma quiet_one s : quiescent s -> pend_one s = 0.
Proof.
  intros Q. destruct (pend_one s) as [|n] eqn:E; [reflexivity|]. exfalso.
  destruct (find_wait (workers s)) as [(i & H)|H]; eapply Q; [eapply i_notify_one|eapply i_notify_none]; eauto.
Qed.
Lemma quiet_all s : quiescent s -> pend_all s = 0.
Proof. intros Q. destruct (pend_all s) as [|n] eqn:E; [reflexivity|]. exfalso. eapply Q, i_notify_all; eauto. Qed.
Lemma quiet_sched s : quiescent s -> pend_sched s = 0.
Proof.
  intros Q. destruct (pend_sched s) as [|n] eqn:E; [reflexivity|]. exfalso.
  destruct (find_swait (schedulers s)) as [(i & e & H)|H]; eapply Q; [eapply i_notify_sched|eapply i_notify_no_sched]; eauto.
Qed.
Lemma quiet_handoff s : quiescent s -> handoff s = 0.
Proof.
  intros Q. unfold handoff. destruct (pend_spawn s) as [|n] eqn:E; [|exfalso; eapply Q, i_spawn; eauto].
  destruct (pend_assign s) as [|j l] eqn:F; [reflexivity|]. exfalso. eapply Q. eapply (i_assign _ _ _ j []). exact F.
Qed.
Lemma no_live_running s : live s = 0 -> running s = [].
Proof.
  unfold running. induction (workers s) as [|w l IH]; cbn; [reflexivity|]. destruct w; cbn; intros H; try discriminate; auto.
Qed.
Lemma running_of_none s : live s = 0 -> filter busy (workers s) = [].
Proof.
  induction (workers s) as [|w l IH]; cbn; [reflexivity|]. destruct w; cbn; intros H; try discriminate; auto.
Qed.

Lemma tasks_done_of s : invW s -> plain throws deps -> quiescent s ->
  stopping s = false -> 1 <= size (workers s) -> waiting_tasks s = [] /\ running s = [].
Proof.
  intros H P Q St T. pose proof (quiet_live s P Q) as L. split; [|apply no_live_running, L].
  destruct H as [_ W2 _ _].
  unfold waiting_tasks. destruct (waiting s) as [|x l] eqn:E; [reflexivity|]. exfalso.
  pose proof (quiet_one s Q). pose proof (quiet_all s Q).
  assert (0 < live s + pend_one s + pend_all s) by (apply W2; [exact St|congruence|lia]). lia.
Qed.

Lemma tasks_done_proof n clock tr s : exec (initial n clock) tr s -> plain throws deps -> quiescent s ->
  stopping s = false -> 1 <= target s -> waiting_tasks s = [] /\ running s = [].
Proof.
  intros H P Q St T. pose proof (exec_target _ _ _ _ _ _ H St) as AT.
  apply (tasks_done_of s (exec_invW _ _ _ _ H)); auto. lia.
Qed.

Lemma size_converges_proof n clock tr s : exec (initial n clock) tr s -> plain throws deps -> quiescent s ->
  stopping s = false -> workers_size s = target s.
Proof.
  intros H P Q St. pose proof (quiet_live s P Q) as L. pose proof (exec_invA _ _ _ _ _ _ H) as IA.
  destruct (exec_invW _ _ _ _ H) as [W1 _ _ _]. pose proof (exec_target _ _ _ _ _ _ H St) as AT. rewrite size_ok.
  destruct (Nat.eq_dec (size (workers s)) (target s)) as [E|N]; [exact E|exfalso].
  specialize (W1 St).
  pose proof (size_split (workers s)) as SS. rewrite (exited_zero s IA St) in SS. specialize (W1 ltac:(lia) (quiet_all s Q)). lia.
Qed.
Lemma size_at_least_proof n clock tr s : exec (initial n clock) tr s -> stopping s = false -> target s <= workers_size s.
Proof. intros H St. rewrite size_ok. exact (exec_target _ _ _ _ _ _ H St). Qed.
Lemma target_proof n clock tr s m s' : exec (initial n clock) tr s -> stopping s = false -> step s (ETarget m) s' ->
  target s' = m /\ workers_size s' = Nat.max m (workers_size s) /\ stopping s' = false.
Proof.
  intros H St [_ [X|[X|[X|X]]]]; inversion X; subst.
  - rewrite St. cbv zeta. dif; rewrite !size_ok; cbn; unfold size; rewrite sum_app, sum_repeat; cbn; repeat split; auto; lia.
  - destruct (work_cases i w s) as [(_ & _ & V)|[(p & t & rest & _ & _ & V)|(_ & V)]]; rewrite V in *; discriminate.
  - destruct (sched_move_frame j e s) as [(_ & V)|(_ & c & o & st & V)]; rewrite V in *; discriminate.
  - destruct (is_empty (waiting s) && (active s =? 0)); discriminate.
  - destruct (is_empty (waiting s)); discriminate.
Qed.

Lemma all_returns_idle_of s k s' : invA s -> step s (EAllReturned k) s' ->
  waiting_tasks s = [] /\ running s = [] /\ filter busy (workers s) = [].
Proof.
  intros H [_ [X|[X|[X|X]]]]; inversion X; subst.
  - destruct (work_cases i w s) as [(_ & _ & V)|[(p & t & rest & _ & _ & V)|(_ & V)]]; rewrite V in *; discriminate.
  - destruct (sched_move_frame j e s) as [(_ & V)|(_ & c & o & st & V)]; rewrite V in *; discriminate.
  - unfold waiting_tasks. destruct (waiting s); [|discriminate]. cbn in *. destruct (Nat.eqb_spec (active s) 0) as [E|]; [|discriminate].
    rewrite (a_active _ H) in E. split; [reflexivity|]. clear - E. unfold running. revert E.
    induction (workers s) as [|w l IH]; cbn; [auto|]. destruct w; cbn; intros E; try discriminate; auto.
  - destruct (is_empty (waiting s)); discriminate.
Qed.
Lemma all_returns_idle_proof n clock tr s k s' : exec (initial n clock) tr s -> step s (EAllReturned k) s' ->
  waiting_tasks s = [] /\ running s = [] /\ filter busy (workers s) = [].
Proof. intros H. exact (all_returns_idle_of s k s' (exec_invA _ _ _ _ _ _ H)). Qed.
Lemma none_returns_proof n clock tr s k s' : exec (initial n clock) tr s -> step s (ENoneReturned k) s' -> waiting_tasks s = [].
Proof.
  intros H [_ [X|[X|[X|X]]]]; inversion X; subst.
  - destruct (work_cases i w s) as [(_ & _ & V)|[(p & t & rest & _ & _ & V)|(_ & V)]]; rewrite V in *; discriminate.
  - destruct (sched_move_frame j e s) as [(_ & V)|(_ & c & o & st & V)]; rewrite V in *; discriminate.
  - destruct (is_empty (waiting s) && (active s =? 0)); discriminate.
  - unfold waiting_tasks. destruct (waiting s); [reflexivity|discriminate].
Qed.

Lemma all_not_stuck_of s k c : invW s -> plain throws deps -> quiescent s ->
  stopping s = false -> 1 <= size (workers s) -> nth_error (all_waiters s) k = Some c -> c = CReturned.
Proof.
  intros H P Q St T Hk. destruct (tasks_done_of s H P Q St T) as [Wt _].
  pose proof (quiet_live s P Q) as L. destruct H as [_ _ W3 _]. pose proof (quiet_all s Q).
  destruct c; [exfalso|exfalso|reflexivity].
  - eapply Q, i_check_all; eauto.
  - pose proof (sum_ge is_blocked _ _ _ Hk) as G. cbn in G. unfold waiting_tasks in Wt. apply map_eq_nil in Wt.
    assert (0 < live s + pend_all s) by (apply W3; auto; lia). lia.
Qed.
Lemma all_not_stuck_proof n clock tr s k c : exec (initial n clock) tr s -> plain throws deps -> quiescent s ->
  stopping s = false -> 1 <= target s -> nth_error (all_waiters s) k = Some c -> c = CReturned.
Proof.
  intros H P Q St T. pose proof (exec_target _ _ _ _ _ _ H St) as AT.
  apply (all_not_stuck_of s k c (exec_invW _ _ _ _ H)); auto. lia.
Qed.
Lemma none_not_stuck_proof n clock tr s k c : exec (initial n clock) tr s -> plain throws deps -> quiescent s ->
  stopping s = false -> 1 <= target s -> nth_error (none_waiters s) k = Some c -> c = CReturned.
Proof.
  intros H P Q St T Hk. destruct (tasks_done_proof _ _ _ _ H P Q St T) as [Wt _]. apply map_eq_nil in Wt.
  destruct (exec_invW _ _ _ _ H) as [_ _ _ W4]. destruct c; [exfalso|exfalso|reflexivity].
  - eapply Q, i_check_none; eauto.
  - pose proof (sum_ge is_blocked _ _ _ Hk) as G. cbn in G. apply W4; [lia|exact Wt].
Qed.
(** a caller of wait_until_no_tasks_waiting is not left blocked while no task waits, whatever the pool does *)
Lemma none_blocked_proof n clock tr s k : exec (initial n clock) tr s -> nth_error (none_waiters s) k = Some CBlocked -> waiting_tasks s <> [].
Proof.
  intros H Hk. destruct (exec_invW _ _ _ _ H) as [_ _ _ W4]. pose proof (sum_ge is_blocked _ _ _ Hk) as G. cbn in G.
  unfold waiting_tasks. intros E. apply map_eq_nil in E. apply W4; [lia|exact E].
Qed.

Definition invS (s : pool) : Prop := forall t b, In (t, b) (syncs s) -> t < next s /\ cnt (map id_of (scheduled s)) t = 0.
Lemma step_invS s e s' : invA s -> invS s -> step s e s' -> invS s'.
Proof.
  unfold invS. intros IA IH S. pose proof (a_places _ IA) as Pl.
  assert (New : cnt (map id_of (scheduled s)) (next s) = 0).
  { specialize (Pl (next s)). unfold total in Pl. destruct (Nat.ltb_spec (next s) (next s)); lia. }
  cases S; unfold goto, sgoto, submit; cbn; try exact IH;
    try (intros x b Q; destruct (IH x b Q) as [Q1 Q2]; split; [lia|exact Q2]).
  - intros t b [Q|Q]; [injection Q as <- <-; split; [lia|exact New]|destruct (IH t b Q); split; [lia|assumption]].
  - assert (G : forall t b, In (t, b) (syncs s) -> t < S (next s) /\ cnt (map id_of (insert_scheduled (time, (p, next s)) (scheduled s))) t = 0).
    { intros t b Q. destruct (IH t b Q) as [L Z]. split; [lia|]. rewrite insert_scheduled_cnt, one_other; [exact Z|cbn; lia]. }
    destruct (sched_obj s); [dif|]; exact G.
  - destruct (stopping s); [exact IH|]. dif; exact IH.
  - destruct (sched_obj s); exact IH.
  - intros t b Q. destruct (IH t b Q) as [L Z]. split; [exact L|]. rewrite remove_scheduled_cnt, Z. destruct (Nat.eq_dec t (id_of e)); reflexivity.
  - intros x b Q. apply in_app_or in Q. destruct Q as [Q|[Q|Q]].
    + apply (IH x b). rewrite Hs. apply in_or_app. auto.
    + injection Q as <- <-. apply (IH t false). rewrite Hs. apply in_or_app. right. left. reflexivity.
    + apply (IH x b). rewrite Hs. apply in_or_app. right. right. exact Q.
Qed.

Lemma exec_syncs n0 clock tr s : exec (initial n0 clock) tr s -> invS s.
Proof. intros H. induction H as [|tr s e s' H IH S]; [intros t b []|]. exact (step_invS _ _ _ (exec_invA _ _ _ _ _ _ H) IH S). Qed.

Lemma sync_not_stuck_of s t b : invA s -> invW s -> invS s -> plain throws deps -> quiescent s ->
  stopping s = false -> 1 <= size (workers s) -> In (t, b) (syncs s) -> b = true.
Proof.
  intros IA IW IS P Q St T Hs. destruct b; [reflexivity|exfalso]. destruct (tasks_done_of s IW P Q St T) as [Wt Rn].
  destruct (IS t false Hs) as [L Sc]. pose proof (a_places _ IA t) as Pl.
  unfold total in Pl. rewrite <- running_ok, Rn, Sc in Pl. unfold waiting_tasks in Wt. rewrite Wt, !cnt_nil in Pl.
  apply Nat.ltb_lt in L. rewrite L in Pl. apply in_split in Hs. destruct Hs as (l1 & l2 & E).
  eapply Q, i_sync_return; [exact E|]. apply cnt_in. lia.
Qed.

Lemma sync_not_stuck_proof n clock tr s t b : exec (initial n clock) tr s -> plain throws deps -> quiescent s ->
  stopping s = false -> 1 <= target s -> In (t, b) (syncs s) -> b = true.
Proof.
  intros H P Q St T. pose proof (exec_target _ _ _ _ _ _ H St) as AT.
  apply (sync_not_stuck_of s t b (exec_invA _ _ _ _ _ _ H) (exec_invW _ _ _ _ H) (exec_syncs _ _ _ _ H)); auto. lia.
Qed.

Lemma destroyed_of s : invD s -> plain throws deps -> quiescent s ->
  dtor s <> DNone -> dtor s = DDone.
Proof.
  intros H P Q N. destruct H as [D1 D2 D3 _ _]. pose proof (quiet_live s P Q) as L.
  destruct (dtor s) eqn:D; [contradiction| | | | |reflexivity]; exfalso.
  - eapply Q, d_notify_workers; eauto.
  - eapply Q, d_notify_scheds; eauto.
  - eapply Q, d_join_workers; [exact D|]. apply Forall_forall. intros w Hw. apply In_nth_error in Hw. destruct Hw as [i Hi].
    assert (W0 : waits s = 0) by (apply D1; discriminate).
    pose proof (sum_ge is_live _ _ _ Hi). pose proof (sum_ge is_wait _ _ _ Hi). destruct w; cbn in *; auto; lia.
  - destruct (sched_obj s) as [j|] eqn:O; [|eapply Q, d_join_none; eauto].
    specialize (D3 j eq_refl). destruct (nth_error (schedulers s) j) as [c|] eqn:Hj; [|apply nth_error_None in Hj; lia].
    specialize (D2 (or_intror (or_introl eq_refl))). destruct c.
    + eapply Q, i_sched_loop; eauto.
    + pose proof (sum_ge is_swait _ _ _ Hj) as G. cbn in G. lia.
    + eapply Q, i_sched_move; eauto.
    + eapply Q, d_join_sched; eauto.
Qed.

Lemma destroyed_proof n clock tr s : exec (initial n clock) tr s -> plain throws deps -> quiescent s ->
  dtor s <> DNone -> dtor s = DDone.
Proof. intros H. exact (destroyed_of s (exec_invD _ _ _ _ H)). Qed.

(** * Every sequence of internal steps ends *)
Section Measure.
Variables M N P : nat.
Definition m_worker (w : wpc) : nat := match w with WReady => M + 1 | WAfter _ => M + 2 | WRun _ => M + 3 | _ => 0 end.
Definition m_sched (c : spc) : nat := match c with SReady => 3 | SWait _ => 2 | STimedOut _ => 1 | SDone => 0 end.
Definition m_caller (c : cpc) : nat := match c with CCheck => 1 | _ => 0 end.
Definition m_sync (x : nat * bool) : nat := if snd x then 0 else 1.
Definition m_dtor (d : dpc) : nat :=
  match d with DNone => 0 | DStopped => 4 + P + N * (M + 1) | DNotified => 3 + P | DJoining => 2 | DJoined => 1 | DDone => 0 end.
Definition measure (s : pool) : nat :=
  sum_of m_worker (workers s) + (M + 3) * length (waiting s) + (2 * M + 7) * length (scheduled s) +
  sum_of m_sched (schedulers s) + (M + 2) * pend_one s + (N * (M + 1) + 1) * pend_all s + 2 * pend_sched s + 5 * pend_spawn s +
  length (pend_assign s) + sum_of m_caller (all_waiters s) + sum_of m_caller (none_waiters s) + sum_of m_sync (syncs s) +
  m_dtor (dtor s) + match status s with Alive => 1 | _ => 0 end.

Lemma insert_waiting_length p t l : length (insert_waiting p t l) = S (length l).
Proof. induction l as [|[p' t'] l IH]; cbn; [reflexivity|]. destruct (p' <? p)%Z; cbn; lia. Qed.
Lemma filter_length_le {A} (f : A -> bool) l : length (filter f l) <= length l.
Proof. induction l as [|a l IH]; cbn; [lia|]. destruct (f a); cbn; lia. Qed.
Lemma filter_shorter {A} (f : A -> bool) l : existsb (fun x => negb (f x)) l = true -> length (filter f l) < length l.
Proof.
  induction l as [|a l IH]; cbn; [discriminate|]. destruct (f a); cbn; intros H; [specialize (IH H); lia|].
  pose proof (filter_length_le f l). lia.
Qed.
Lemma wake_m l : sum_of m_worker (map wake_worker l) <= sum_of m_worker l + length l * (M + 1).
Proof. induction l as [|w l IH]; cbn; [lia|]. destruct w; cbn; lia. Qed.
Lemma wake_ms l : sum_of m_sched (map wake_sched l) <= sum_of m_sched l + length l.
Proof. induction l as [|w l IH]; cbn; [lia|]. destruct w; cbn; lia. Qed.
Lemma wake_mc l : sum_of m_caller (map wake_caller l) <= sum_of m_caller l + length l.
Proof. induction l as [|w l IH]; cbn; [lia|]. destruct w; cbn; lia. Qed.
Lemma sched_loop_m j s c : nth_error (schedulers s) j = Some c ->
  measure (sched_loop j s) + m_sched c <= measure s + 2 .
Proof.
  intros H. destruct (sched_loop_cases j s) as [(_ & ->)|[(_ & e & l & _ & ->)|[(_ & _ & k & _ & ->)|(_ & _ & _ & ->)]]];
    unfold measure; cbn;
    match goal with |- context [update j ?x _] => pose proof (sum_update m_sched j x c (schedulers s) H) as U end; cbn in U;
    destruct (status s); lia.
Qed.

Lemma measure_step s e s' : status s = Alive -> internal s e s' ->
  length (all_waiters s) + length (none_waiters s) = M -> length (workers s) = N -> length (schedulers s) + pend_spawn s = P ->
  measure s' < measure s.
Proof.
  intros Al H EM EN EP.
  destruct H as [i w Hi Hw|i t Hi Ht Hd|i t Hi Ht|i n Hn Hi|n Hn Hi|n Hn|j e n Hn Hj|j Hn Hj|n Hn|j l1 l2 Hj|j Hj|j e Hj Hnow|j e Hj
                  |k Hk|k Hk|l1 l2 t Hs Hc|D|D|D Hex|D Hso|j D Hso Hj].
  - destruct (work_cases i w s) as [(Co & Wt & V)|[(p & t & rest & Co & Wt & V)|(Co & V)]]; rewrite V; unfold measure, goto; cbn -[Nat.mul];
      pose proof (wake_mc (all_waiters s)); pose proof (wake_mc (none_waiters s)); rewrite ?Wt; cbn [length]; upds.
    + destruct (active_from w s =? 0); destruct w; try contradiction; cbn -[Nat.mul] in *; lia.
    + destruct rest; cbn [is_empty length]; destruct w; try contradiction; cbn -[Nat.mul] in *; lia.
    + destruct (stopping s); destruct w; try contradiction; cbn -[Nat.mul] in *; lia.
  - unfold measure, goto; cbn -[Nat.mul]. upds. cbn -[Nat.mul] in *. lia.
  - unfold measure, goto; cbn -[Nat.mul]. rewrite Al. lia.
  - unfold measure, goto; cbn -[Nat.mul]. rewrite Hn. upds. cbn -[Nat.mul] in *. lia.
  - unfold measure, goto; cbn -[Nat.mul]. rewrite Hn. lia.
  - unfold measure, goto; cbn -[Nat.mul]. rewrite Hn. pose proof (wake_m (workers s)) as U. rewrite EN in U. lia.
  - unfold measure, sgoto; cbn -[Nat.mul]. rewrite Hn. pose proof (sum_update m_sched j SReady _ _ Hj) as U. cbn in U. lia.
  - unfold measure; cbn -[Nat.mul]. rewrite Hn. lia.
  - unfold measure; cbn -[Nat.mul]. rewrite Hn, sum_app. cbn -[Nat.mul]. lia.
  - unfold measure. destruct (sched_obj s); cbn -[Nat.mul]; rewrite Hj, !app_length; cbn -[Nat.mul]; lia.
  - pose proof (sched_loop_m _ _ _ Hj) as U. cbn [m_sched] in U. lia.
  - unfold measure, sgoto; cbn -[Nat.mul]. pose proof (sum_update m_sched j (STimedOut e) _ _ Hj) as U. cbn in U. lia.
  - unfold sched_move. destruct (existsb (entry_is e) (scheduled s)) eqn:Ex; cbn [snd].
    + match goal with |- measure (sched_loop j ?x) < _ => pose proof (sched_loop_m j x _ Hj) as U end. cbn [m_sched] in U.
      match goal with |- ?m < _ => set (y := m) in *; clearbody y end. revert U. unfold measure. cbn -[Nat.mul].
      rewrite insert_waiting_length. pose proof (filter_shorter (fun e' => negb (entry_is e e')) (scheduled s)) as F.
      assert (X : existsb (fun e' => negb (negb (entry_is e e'))) (scheduled s) = true).
      { apply existsb_exists in Ex. apply existsb_exists. destruct Ex as (a & Ha & Hb). exists a. rewrite Hb. auto. }
      specialize (F X). match goal with |- context [length (filter ?f ?l)] => set (m := length (filter f l)) in *; clearbody m end.
      assert (G : (2 * M + 7) * m + (2 * M + 7) <= (2 * M + 7) * length (scheduled s)) by nia. lia.
    + unfold measure; cbn -[Nat.mul]. rewrite Al. lia.
  - unfold measure; cbn -[Nat.mul].
    pose proof (sum_update m_caller k (if is_empty (waiting s) && (active s =? 0) then CReturned else CBlocked) _ _ Hk) as U.
    destruct (is_empty (waiting s) && (active s =? 0)); cbn -[Nat.mul] in *; lia.
  - unfold measure; cbn -[Nat.mul].
    pose proof (sum_update m_caller k (if is_empty (waiting s) then CReturned else CBlocked) _ _ Hk) as U.
    destruct (is_empty (waiting s)); cbn -[Nat.mul] in *; lia.
  - unfold measure; cbn -[Nat.mul]. rewrite Hs, !sum_app. cbn -[Nat.mul]. lia.
  - unfold measure; cbn -[Nat.mul]. rewrite D. cbn -[Nat.mul]. pose proof (wake_m (workers s)) as U. rewrite EN in U. lia.
  - unfold measure; cbn -[Nat.mul]. rewrite D. cbn -[Nat.mul]. pose proof (wake_ms (schedulers s)) as U. lia.
  - unfold measure; cbn -[Nat.mul]. rewrite D. cbn -[Nat.mul]. lia.
  - unfold measure; cbn -[Nat.mul]. rewrite D. cbn -[Nat.mul]. lia.
  - unfold measure; cbn -[Nat.mul]. rewrite D. cbn -[Nat.mul]. lia.
Qed.
End Measure.

Lemma internal_sizes s e s' : internal s e s' ->
  length (all_waiters s') = length (all_waiters s) /\ length (none_waiters s') = length (none_waiters s) /\
  length (workers s') = length (workers s) /\ length (schedulers s') + pend_spawn s' = length (schedulers s) + pend_spawn s.
Proof.
  intros H. destruct H; try (cbn; rewrite ?update_length, ?map_length, ?app_length; cbn; repeat split; lia).
  - destruct (work_cases i w s) as [(Co & Wt & V)|[(p & t & rest & Co & Wt & V)|(Co & V)]]; rewrite V; cbn;
      rewrite ?update_length; try dif; rewrite ?map_length; auto.
  - destruct (sched_obj s); cbn; auto.
  - rewrite sched_loop_len. destruct (sched_loop_frame j s) as (c & o & st & V). rewrite V. auto.
  - unfold sched_move. destruct (existsb _ _); [cbn|auto]. rewrite sched_loop_len.
    match goal with |- context [sched_loop j ?x] => destruct (sched_loop_frame j x) as (c & o & st & V); rewrite V end. auto.
Qed.

Definition bound (s : pool) : nat :=
  measure (length (all_waiters s) + length (none_waiters s)) (length (workers s)) (length (schedulers s) + pend_spawn s) s.

Lemma internals_bound m s s' : internals m s s' -> m + bound s' <= bound s.
Proof.
  intros H. induction H as [s|m s e s' s'' Al H H' IH]; [lia|].
  assert (bound s' < bound s); [|lia]. unfold bound.
  destruct (internal_sizes _ _ _ H) as (-> & -> & -> & ->). eapply measure_step; eauto.
Qed.
Lemma finite_proof s : exists b, forall m s', internals m s s' -> m <= b.
Proof. exists (bound s). intros m s' H. apply internals_bound in H. lia. Qed.
End Live.
