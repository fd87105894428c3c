(** The scheduler threads, in all executions that do not end the process: tasks that are due are queued. *)
From Coq Require Import List Bool Arith ZArith Lia.
From Verif Require Import ListUpdate PoolModel PoolSpec PoolProofs PoolLive PoolStop.
Import ListNotations.

Local Arguments Nat.ltb : simpl never.
Local Arguments workers_size : simpl never.

Section Due.
Variable throws : nat -> bool.
Variable deps : nat -> list nat.
Notation step := (step throws deps).
Notation exec := (exec throws deps).
Notation quiescent := (quiescent throws deps).

Definition is_up (c : spc) : nat := match c with SDone => 0 | _ => 1 end.
Definition has (o : option nat) : nat := match o with Some _ => 1 | None => 0 end.
(** a scheduler thread in state [c] does not sleep for longer than until the time of [e] *)
Definition attends (e : sched_entry) (c : spc) : Prop :=
  match c with SReady | STimedOut _ => True | SWait x => (fst x <= fst e)%Z | SDone => False end.
Definition attended (s : pool) (e : sched_entry) : Prop :=
  0 < pend_sched s \/ 0 < pend_spawn s \/ exists j c, nth_error (schedulers s) j = Some c /\ attends e c.

Record invE (s : pool) : Prop := {
  e_count : sum_of is_up (schedulers s) = has (sched_obj s) + length (pend_assign s);
  e_who : scheduled s <> [] -> 0 < sum_of is_up (schedulers s) + pend_spawn s;
  e_head : forall e l, scheduled s = e :: l -> attended s e
}.

Lemma invE_same s s' : invE s -> schedulers s' = schedulers s -> sched_obj s' = sched_obj s -> scheduled s' = scheduled s ->
  pend_sched s' = pend_sched s -> pend_spawn s' = pend_spawn s -> pend_assign s' = pend_assign s -> invE s'.
Proof.
  intros [E1 E2 E3] H1 H2 H3 H4 H5 H6. constructor; unfold attended in *; rewrite ?H1, ?H2, ?H3, ?H4, ?H5, ?H6; auto.
Qed.
Lemma up_of l : 0 < sum_of is_up l -> exists j c, nth_error l j = Some c /\ c <> SDone.
Proof.
  induction l as [|c l IH]; cbn; [lia|]. intros H. destruct c; try (exists 0; eexists; split; [reflexivity|discriminate]).
  destruct IH as (j & c & X & Y); [exact H|]. exists (S j), c. auto.
Qed.

(** scheduler [j], which is up, takes a step of its loop *)
Lemma sched_loop_invE s j c : nth_error (schedulers s) j = Some c -> c <> SDone -> stopping s = false -> status s = Alive ->
  sum_of is_up (schedulers s) = has (sched_obj s) + length (pend_assign s) ->
  status (sched_loop j s) = Alive -> invE (sched_loop j s).
Proof.
  intros Hj N St Al E1 Al'.
  assert (U : forall x, sum_of is_up (update j x (schedulers s)) + 1 = sum_of is_up (schedulers s) + is_up x).
  { intros x. pose proof (sum_update is_up j x c (schedulers s) Hj) as X. destruct c; cbn in X; try congruence; cbn; lia. }
  destruct (sched_loop_cases j s) as [(St' & E)|[(_ & e & l & Sc & E)|[(_ & Sc & o & Ob & E)|(_ & Sc & Ob & E)]]].
  - congruence.
  - rewrite E. constructor; cbn.
    + specialize (U (SWait e)). cbn in U. lia.
    + intros _. specialize (U (SWait e)). cbn in U. pose proof (sum_ge is_up j c _ Hj). destruct c; cbn in *; try congruence; lia.
    + intros e' l' X. rewrite Sc in X. injection X as <- _. right. right. exists j, (SWait e). split; [eapply update_same; eauto|]. cbn. lia.
  - rewrite E. rewrite Ob in E1. constructor; cbn.
    + specialize (U SDone). cbn in U. cbn in E1. lia.
    + congruence.
    + rewrite Sc. discriminate.
  - rewrite E in Al'. discriminate.
Qed.

Lemma step_invE s e s' : invA s -> invE s -> step s e s' -> stopping s = false -> status s' = Alive -> stopping s' = false -> invE s'.
Proof.
  intros IA I H St Al' St'. pose proof I as I0. destruct I0 as [E1 E2 E3].
  assert (DN : dtor s = DNone) by (apply (a_dtor _ IA), St).
  destruct H as [Al [H|[H|[H|H]]]].
  - destruct H as [p M|p M|time p M|n M|a M|M|M|D]; try (apply (invE_same s); auto; fail).
    + (* run_at *)
      cbv zeta. set (x := (time, (p, next s))).
      assert (Hd : forall e0 l0, insert_scheduled x (scheduled s) = e0 :: l0 -> (time =? fst e0)%Z = false -> exists l, scheduled s = e0 :: l).
      { intros e0 l0. destruct (scheduled s) as [|h l]; cbn.
        - intros X. injection X as <- _. cbn. rewrite Z.eqb_refl. discriminate.
        - destruct (Z.ltb_spec time (fst h)); intros X; injection X as <- _; cbn; [rewrite Z.eqb_refl; discriminate|]. eauto. }
      destruct (sched_obj s) as [o|] eqn:O.
      * assert (W : 0 < sum_of is_up (schedulers s)) by (rewrite E1; cbn; lia).
        destruct (insert_scheduled x (scheduled s)) as [|h l] eqn:Ei.
        { constructor; cbn; rewrite ?O; auto; try congruence; intros; try discriminate; lia. }
        destruct (time =? fst h)%Z eqn:B; constructor; cbn; rewrite ?O; auto; try lia; intros e0 l0 X; injection X as <- _; unfold attended; cbn.
        -- left. lia.
        -- destruct (Hd _ _ eq_refl B) as (l' & El). exact (E3 _ _ El).
      * constructor; cbn; rewrite ?O; auto; try lia. intros. unfold attended. cbn. right. left. lia.
    + destruct (stopping s) eqn:St0; [exact I|]. cbv zeta. dif; (apply (invE_same s); cbn; auto).
  - destruct H as [i w Hi Hw|i t Hi Ht Hd|i t Hi Ht|i n Hn Hi|n Hn Hi|n Hn|j e n Hn Hj|n Hn Hj|n Hn|j l1 l2 Hj|j Hj|j e Hj Hnow|j e Hj
                  |k Hk|k Hk|l1 l2 t Hs Hc|D|D|D Hex|D Hso|j D Hso Hj]; try (apply (invE_same s); auto; fail); try congruence.
    + destruct (work_cases i w s) as [(Co & Wt & V)|[(p & t & rest & Co & Wt & V)|(Co & V)]]; rewrite V; apply (invE_same s); auto.
    + (* notify the scheduler *)
      pose proof (sum_update is_up j SReady _ (schedulers s) Hj) as X. cbn in X. constructor; cbn; try lia.
      * intros Ne. specialize (E2 Ne). lia.
      * intros e' l' _. right. right. exists j, SReady. split; [eapply update_same; eauto|exact Logic.I].
    + (* nobody to notify *)
      constructor; cbn; auto. intros e' l' X. destruct (E3 _ _ X) as [Y|Y]; [|right; exact Y].
      assert (Ne : scheduled s <> []) by congruence. specialize (E2 Ne). destruct (Nat.eq_0_gt_0_cases (pend_spawn s)) as [Z|Z]; [|right; left; exact Z].
      destruct (up_of (schedulers s)) as (k & c & Hk & Nc); [lia|]. right. right. exists k, c. split; [exact Hk|].
      destruct c; cbn; try exact Logic.I; try congruence. exfalso. eapply Hj; eauto.
    + (* spawn *)
      assert (X : sum_of is_up (schedulers s ++ [SReady]) = sum_of is_up (schedulers s) + 1) by (rewrite sum_app; cbn; lia).
      constructor; cbn; rewrite ?X; try lia.
      intros e' l' _. right. right. exists (length (schedulers s)), SReady. split; [|exact Logic.I].
      cbn. rewrite nth_error_app2 by lia. rewrite Nat.sub_diag. reflexivity.
    + (* assign *)
      destruct (sched_obj s) as [o|] eqn:O; [discriminate|]. rewrite Hj, app_length in E1. cbn in E1.
      constructor; cbn; auto. rewrite app_length. lia.
    + (* loop *)
      eapply sched_loop_invE; eauto. discriminate.
    + (* timeout *)
      pose proof (sum_update is_up j (STimedOut e) _ (schedulers s) Hj) as X. cbn in X. constructor; cbn; try lia.
      * intros Ne. specialize (E2 Ne). lia.
      * intros e' l' _. right. right. exists j, (STimedOut e). split; [eapply update_same; eauto|exact Logic.I].
    + (* move *)
      unfold sched_move in *. destruct (existsb (entry_is e) (scheduled s)); cbn [snd] in *; [|discriminate].
      eapply (sched_loop_invE _ j (STimedOut e)); cbn; auto. discriminate.
  - destruct H as [i Hi|j e Hj|k Hk|k Hk]; try (apply (invE_same s); auto; fail).
    pose proof (sum_update is_up j SReady _ (schedulers s) Hj) as X. cbn in X. constructor; cbn; try lia.
    + intros Ne. specialize (E2 Ne). lia.
    + intros e' l' _. right. right. exists j, SReady. split; [eapply update_same; eauto|exact Logic.I].
  - destruct H. apply (invE_same s); auto.
Qed.

Lemma step_stopping s e s' : step s e s' -> stopping s' = false -> stopping s = false.
Proof.
  intros S. destruct (stopping s) eqn:St; [|auto].
  cases S; unfold goto, sgoto, submit; cbn; rewrite ?St; auto; try discriminate;
    repeat (match goal with |- context [match ?x with _ => _ end] => destruct x end; cbn); rewrite ?St; auto; try discriminate.
Qed.
Lemma exec_invE n clock tr s : exec (initial n clock) tr s -> status s = Alive -> stopping s = false -> invE s.
Proof.
  intros H. induction H as [|tr s e s' H IH S]; intros Al St.
  - constructor; cbn; auto; congruence.
  - pose proof (step_stopping _ _ _ S St) as St0. assert (Al0 : status s = Alive) by apply S.
    eapply step_invE; eauto. eapply exec_invA; eauto.
Qed.

Lemma due_of s : invE s -> ForallOrdPairs (fun a b : sched_entry => (fst a <= fst b)%Z) (scheduled s) -> quiescent s ->
  forall e, In e (scheduled s) -> (now s < fst e)%Z.
Proof.
  intros [E1 E2 E3] So Q e He.
  pose proof (quiet_handoff _ _ s Q) as Z. pose proof (quiet_sched _ _ s Q) as Ps.
  destruct (scheduled s) as [|h l] eqn:Sc; [destruct He|].
  destruct (E3 h l eq_refl) as [X|[X|(j & c & Hj & A)]]; [lia|unfold handoff in Z; lia|].
  assert (L : (fst h <= fst e)%Z).
  { inversion So as [|? ? H1 _]; subst. destruct He as [->|He]; [lia|]. rewrite Forall_forall in H1. apply H1, He. }
  destruct c; cbn in A; try contradiction.
  - exfalso. eapply Q, i_sched_loop; eauto.
  - destruct (Z.lt_ge_cases (now s) (fst e0)) as [T|T]; [lia|]. exfalso. eapply Q, i_sched_timeout; eauto.
  - exfalso. eapply Q, i_sched_move; eauto.
Qed.
Lemma due_proof n clock tr s : exec (initial n clock) tr s -> status s = Alive -> quiescent s -> stopping s = false ->
  forall e, In e (scheduled s) -> (now s < fst e)%Z.
Proof. intros H Al Q St. exact (due_of _ (exec_invE _ _ _ _ H Al St) (exec_sorted _ _ _ _ _ _ H) Q). Qed.
End Due.
