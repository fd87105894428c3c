(** Stopping the thread pool, and the scheduler thread. *)
From Coq Require Import List Bool Arith ZArith Lia Permutation.
From Verif Require Import ListUpdate PoolModel PoolSpec PoolProofs PoolLive.
Import ListNotations.

Local Arguments Nat.ltb : simpl never.
Local Arguments workers_size : simpl never.

Section Stop.
Variable throws : nat -> bool.
Variable deps : nat -> list nat.
Notation step := (step throws deps).
Notation exec := (exec throws deps).
Notation internal := (internal throws deps).
Notation quiescent := (quiescent throws deps).
Notation exec_calm := (exec_calm throws deps).

Lemma exec_app s0 tr1 s1 tr2 s2 : exec s0 tr1 s1 -> exec s1 tr2 s2 -> exec s0 (tr1 ++ tr2) s2.
Proof.
  intros H1 H2. induction H2 as [|tr s e s' H IH S]; [rewrite app_nil_r; exact H1|].
  rewrite app_assoc. econstructor; eauto.
Qed.

Lemma step_stopped s e s' : stopping s = true -> step s e s' ->
  stopping s' = true /\ target s' = target s /\ size (workers s') = size (workers s) /\
  (onStop s' = onStop s \/ e = EOnStop (onStop s')) /\ (started e <> [] -> continues s = true).
Proof.
  intros St H. cases H; unfold goto, sgoto, submit; cbn; rewrite ?St, ?wake_size;
    try (repeat split; auto; congruence);
    try (repeat split; auto; try congruence; unfold size; upds; fin);
    try (repeat split; auto; try congruence; unfold size; upds; match goal with w : wpc |- _ => destruct w end; try contradiction; fin).
  - destruct (sched_obj s); [dif|]; cbn; repeat split; auto; congruence.
  - destruct (sched_obj s); cbn; repeat split; auto; congruence.
  - destruct (is_empty (waiting s) && (active s =? 0)); cbn; repeat split; auto; congruence.
  - destruct (is_empty (waiting s)); cbn; repeat split; auto; congruence.
Qed.

Lemma step_stop s s' : step s EStop s' ->
  stopping s' = true /\ target s' = target s /\ workers s' = workers s /\ onStop s' = onStop s /\ waiting s' = waiting s.
Proof.
  intros [_ [X|[X|[X|X]]]]; inversion X; subst; cbn; auto 8.
  - destruct (work_cases i w s) as [(_ & _ & V)|[(p & t & rest & _ & _ & V)|(_ & V)]]; rewrite V in *; discriminate.
  - destruct (sched_move_frame j e s) as [(_ & V)|(_ & c & o & st & V)]; rewrite V in *; discriminate.
  - destruct (is_empty (waiting s) && (active s =? 0)); discriminate.
  - destruct (is_empty (waiting s)); discriminate.
Qed.

(** what stays the same after the destructor has been called *)
Lemma exec_stopped s0 tr s : stopping s0 = true -> exec s0 tr s ->
  stopping s = true /\ target s = target s0 /\ size (workers s) = size (workers s0) /\
  (forall a, onStop s0 = a -> (forall b, In (EOnStop b) tr -> b = a) -> onStop s = a).
Proof.
  intros St H. induction H as [|tr s e s' H IH S]; [repeat split; auto|].
  destruct IH as (I1 & I2 & I3 & I4). destruct (step_stopped s e s' I1 S) as (J1 & J2 & J3 & J4 & _).
  repeat split; try congruence. intros a Ha Hb. destruct J4 as [->| ->].
  - apply I4; [exact Ha|]. intros b Hi. apply Hb. apply in_or_app. auto.
  - apply Hb. apply in_or_app. right. left. reflexivity.
Qed.
Lemma nothing_starts s0 tr s : stopping s0 = true ->
  (target s0 < size (workers s0) \/ (onStop s0 = JoinAll /\ forall b, In (EOnStop b) tr -> b = JoinAll)) ->
  exec s0 tr s -> starts tr = [].
Proof.
  intros St Q H. induction H as [|tr s e s' H IH S]; [reflexivity|].
  unfold starts. rewrite flat_map_snoc. fold (starts tr).
  assert (Q' : target s0 < size (workers s0) \/ (onStop s0 = JoinAll /\ forall b, In (EOnStop b) tr -> b = JoinAll)).
  { destruct Q as [Q|[Q1 Q2]]; [left; exact Q|right; split; [exact Q1|]]. intros b Hb. apply Q2. apply in_or_app. auto. }
  rewrite (IH Q'). destruct (exec_stopped s0 tr s St H) as (I1 & I2 & I3 & I4).
  destruct (step_stopped s e s' I1 S) as (_ & _ & _ & _ & J).
  destruct (started e) eqn:E; [reflexivity|exfalso]. assert (C : continues s = true) by (apply J; discriminate).
  destruct Q' as [Q'|[Q1 Q2]].
  - apply continues_size in C. lia.
  - unfold continues in C. rewrite I1, (I4 JoinAll Q1 Q2) in C. cbn in C. rewrite andb_false_r in C. discriminate.
Qed.

Lemma join_all_proof s1 s2 tr s : step s1 EStop s2 -> exec s2 tr s -> onStop s1 = JoinAll ->
  (forall b, In (EOnStop b) tr -> b = JoinAll) -> starts tr = [].
Proof.
  intros S H O N. destruct (step_stop _ _ S) as (A & _ & _ & B & _). eapply nothing_starts; eauto. right. split; [congruence|exact N].
Qed.
Lemma shrinking_proof s1 s2 tr s : step s1 EStop s2 -> exec s2 tr s -> target s1 < workers_size s1 -> starts tr = [].
Proof.
  intros S H O. rewrite size_ok in O. destruct (step_stop _ _ S) as (A & B & C & _). eapply nothing_starts; eauto. left. congruence.
Qed.

(** complete_tasks *)
Lemma step_available s e s' : stopping s = true -> onStop s = CompleteTasks -> size (workers s) <= target s ->
  step s e s' -> 0 < live s + waits s -> 0 < live s' + waits s' \/ waiting s' = [].
Proof.
  intros St O L H A. cases H; unfold goto, sgoto, submit; cbn; auto; rewrite ?wake_live, ?wake_waits, ?Nat.add_0_r;
    try (left; upds; fin); try (left; upds; match goal with w : wpc |- _ => destruct w end; try contradiction; fin); auto.
  - destruct (sched_obj s); [dif|]; auto.
  - rewrite St. auto.
  - right. unfold continues in Co. rewrite size_ok, St, O in Co. apply Nat.leb_le in L. rewrite L in Co. cbn in Co.
    destruct (waiting s); [reflexivity|discriminate].
  - destruct (sched_obj s); auto.
Qed.

Lemma submit_live s e s' t : invA s -> stopping s = true -> step s e s' -> (exists p, e = ESubmit t p) -> 0 < live s'.
Proof.
  intros I St H (p0 & ->). assert (N : dtor s <> DNone) by (intros X; apply (a_dtor _ I) in X; congruence).
  destruct H as [_ [X|[X|[X|X]]]]; inversion X; subst; cbn.
  - match goal with Q : may_call s |- _ => destruct (may_call_live s Q); [congruence|assumption] end.
  - match goal with Q : may_call s |- _ => destruct (may_call_live s Q); [congruence|assumption] end.
  - destruct (work_cases i w s) as [(_ & _ & V)|[(p & t0 & rest & _ & _ & V)|(_ & V)]]; rewrite V in *; discriminate.
  - destruct (sched_move_frame j e s) as [(_ & V)|(_ & c & o & st & V)]; rewrite V in *; discriminate.
  - destruct (is_empty (waiting s) && (active s =? 0)); discriminate.
  - destruct (is_empty (waiting s)); discriminate.
Qed.

Lemma complete_tasks_proof n clock tr1 s1 s2 tr2 s t p :
  exec (initial n clock) tr1 s1 -> step s1 EStop s2 -> exec s2 tr2 s ->
  onStop s1 = CompleteTasks -> (forall b, In (EOnStop b) tr2 -> b = CompleteTasks) ->
  workers_size s1 = target s1 -> 1 <= target s1 -> dtor s = DDone ->
  In (ESubmit t p) (tr1 ++ EStop :: tr2) -> In (EFinish t) (tr1 ++ EStop :: tr2).
Proof.
  intros H1 S H2 O N Sz T D Sub. rewrite size_ok in Sz.
  assert (H12 : exec (initial n clock) (tr1 ++ [EStop]) s2) by (econstructor; eauto).
  destruct (step_stop _ _ S) as (A & B & C & O2 & W).
  assert (Ex : forall tr s, exec s2 tr s -> exec (initial n clock) (tr1 ++ EStop :: tr) s).
  { intros tr s' X. pose proof (exec_app _ _ _ _ _ H12 X) as Y. rewrite <- app_assoc in Y. exact Y. }
  assert (K : forall q u, In (q, u) (waiting s) -> In (ESubmit u q) (tr1 ++ EStop :: tr2) -> 0 < live s + waits s).
  { clear D Sub. induction H2 as [|tr2 s e s' H2 IH S'].
    - intros q u _ _. rewrite C. pose proof (size_split (workers s1)) as SS.
      pose proof (exec_invA _ _ _ _ _ _ H1) as IA. rewrite (exited_zero s1 IA) in SS; [lia|].
      destruct S as [_ S]. apply (a_dtor _ IA). destruct S as [X|[X|[X|X]]]; inversion X; subst; auto.
      + destruct (work_cases i w s1) as [(_ & _ & V)|[(p0 & t0 & rest & _ & _ & V)|(_ & V)]]; rewrite V in *; discriminate.
      + destruct (sched_move_frame j e s1) as [(_ & V)|(_ & c & o & st & V)]; rewrite V in *; discriminate.
      + destruct (is_empty (waiting s1) && (active s1 =? 0)); discriminate.
      + destruct (is_empty (waiting s1)); discriminate.
    - assert (N' : forall b, In (EOnStop b) tr2 -> b = CompleteTasks) by (intros b Hb; apply N, in_or_app; auto).
      specialize (IH N'). destruct (exec_stopped s2 tr2 s A H2) as (I1 & I2 & I3 & I4).
      assert (O' : onStop s = CompleteTasks) by (apply I4; [congruence|exact N']).
      pose proof (exec_invA _ _ _ _ _ _ (Ex _ _ H2)) as IA. pose proof (exec_invT _ _ _ _ _ _ (Ex _ _ H2)) as IT.
      intros q u Hw Hs.
      assert (Av : 0 < live s + waits s -> 0 < live s' + waits s').
      { intros Z. destruct (step_available s e s' I1 O' ltac:(rewrite I3, C, I2; lia) S' Z) as [X|X]; [exact X|]. rewrite X in Hw. destruct Hw. }
      assert (Old : In (ESubmit u q) (tr1 ++ EStop :: tr2) \/ e = ESubmit u q).
      { rewrite app_comm_cons, app_assoc in Hs. apply in_app_or in Hs. destruct Hs as [Hs|[Hs|[]]]; auto. }
      destruct Old as [Old|New].
      + apply Av. destruct (step_waiting _ _ _ _ _ S') as [(E & _)|[(p' & t' & E & _ & _ & Q)|(x & w & E & _)]].
        * rewrite E in Hw. eapply IH; eauto.
        * rewrite E in Hw. apply insert_waiting_in in Hw. destruct Hw as [Hw|Hw]; [|eapply IH; eauto]. injection Hw as -> ->.
          assert (G1 : forall x, cnt (givens (tr1 ++ EStop :: tr2)) x <= 1) by (intros x; rewrite (t_givens _ _ _ IT); destruct (x <? next s); lia).
          exfalso. destruct Q as [->|(j & d & Q & Ed)].
          -- assert (G2 : forall x, cnt (givens ((tr1 ++ EStop :: tr2) ++ [ESubmit t' p'])) x <= 1).
             { intros x. rewrite (t_givens clock _ s'); [destruct (x <? next s'); lia|].
               rewrite <- app_assoc. apply (exec_invT throws deps n clock). apply Ex. econstructor; eauto. }
             specialize (G2 t'). unfold givens in G2. rewrite flat_map_snoc, cnt_app in G2. cbn in G2. rewrite cnt_cons, one_self, cnt_nil in G2.
             assert (X : In t' (flat_map given (tr1 ++ EStop :: tr2))) by (apply in_flat_map; exists (ESubmit t' p'); split; [exact Old|left; reflexivity]).
             apply cnt_in in X. lia.
          -- pose proof (t_sched _ _ _ IT j d (or_intror Q)) as R. rewrite Ed in R.
             assert (X := given_once _ t' _ _ G1 R Old (or_introl eq_refl) (or_introl eq_refl)). discriminate.
        * eapply IH; [rewrite E; right; exact Hw|exact Old].
      + assert (0 < live s') by (eapply submit_live; eauto). lia. }
  pose proof (Ex _ _ H2) as HE. pose proof (exec_invA _ _ _ _ _ _ HE) as IA. pose proof (exec_invT _ _ _ _ _ _ HE) as IT.
  destruct (exec_invD _ _ _ _ _ _ HE) as [D1 _ _ _ D5]. specialize (D5 (or_intror D)).
  assert (W0 : waits s = 0) by (apply D1; congruence).
  assert (En : In t (entries (tr1 ++ EStop :: tr2))) by (apply in_flat_map; exists (ESubmit t p); split; [exact Sub|left; reflexivity]).
  apply cnt_in in En. pose proof (t_entries _ _ _ IT t) as TE. pose proof (a_places _ IA t) as Pl. unfold total in Pl.
  assert (R0 : sum_of (runs t) (workers s) = 0).
  { rewrite <- running_ok, no_live_running by exact D5. reflexivity. }
  destruct (cnt (map snd (waiting s)) t) eqn:Wc.
  - assert (F : In t (finishes (tr1 ++ EStop :: tr2))).
    { apply cnt_in. rewrite (t_finishes _ _ _ IT). destruct (t <? next s); lia. }
    apply in_flat_map in F. destruct F as (e & He & Hf). destruct e; try contradiction. destruct Hf as [<-|[]]. exact He.
  - exfalso. assert (X : In t (map snd (waiting s))) by (apply cnt_in; lia). apply in_map_iff in X. destruct X as ([q u] & E & Hq). cbn in E. subst u.
    assert (q = p).
    { eapply priority_once; [exact IT|eapply t_waiting; eauto|left; exact Sub]. }
    subst q. specialize (K _ _ Hq Sub). lia.
Qed.

(** * The scheduler thread, when run_at's hand-over is left alone *)
Definition owner (s : pool) (k : nat) : Prop := sched_obj s = Some k \/ pend_assign s = [k].
Record invC (s : pool) : Prop := {
  c_one : pend_spawn s + length (pend_assign s) <= 1;
  c_sched : forall k c, nth_error (schedulers s) k = Some c -> c <> SDone -> owner s k;
  c_none : handoff s <> 0 -> sched_obj s = None;
  c_in : forall j e, nth_error (schedulers s) j = Some (SWait e) \/ nth_error (schedulers s) j = Some (STimedOut e) -> In e (scheduled s);
  c_empty : stopping s = false -> sched_obj s = None -> handoff s = 0 -> scheduled s = [];
  c_hand : stopping s = false -> handoff s <> 0 -> scheduled s <> [];
  c_works : stopping s = false -> forall j, sched_obj s = Some j \/ In j (pend_assign s) ->
      exists c, nth_error (schedulers s) j = Some c /\ c <> SDone;
  c_sorted : ForallOrdPairs (fun a b : sched_entry => (fst a <= fst b)%Z) (scheduled s);
  c_head : forall j e, nth_error (schedulers s) j = Some (SWait e) ->
      0 < pend_sched s \/ forall e', In e' (scheduled s) -> (fst e <= fst e')%Z;
  c_status : (forall t, throws t = false) -> status s = Alive
}.

Lemma initial_invC n clock : invC (initial n clock).
Proof.
  constructor; cbn; intros; auto; try discriminate; try contradiction.
  - destruct k; discriminate.
  - destruct H as [H|H]; destruct j; discriminate.
  - destruct H0 as [H0|H0]; [discriminate|contradiction].
  - constructor.
  - destruct j; discriminate.
Qed.

Lemma insert_scheduled_sorted e l : ForallOrdPairs (fun a b : sched_entry => (fst a <= fst b)%Z) l ->
  ForallOrdPairs (fun a b : sched_entry => (fst a <= fst b)%Z) (insert_scheduled e l).
Proof.
  induction l as [|a l IH]; intros So; cbn; [repeat constructor|]. inversion So as [|? ? H1 H2]; subst.
  destruct (Z.ltb_spec (fst e) (fst a)) as [L|L].
  - constructor; [|exact So]. constructor; [lia|]. eapply Forall_impl; [|exact H1]. cbn. intros; lia.
  - constructor; [|apply IH, H2]. apply Forall_forall. intros y Hy. apply insert_scheduled_in in Hy.
    destruct Hy as [->|Hy]; [lia|]. rewrite Forall_forall in H1. apply H1, Hy.
Qed.
Lemma filter_sorted (f : sched_entry -> bool) l : ForallOrdPairs (fun a b : sched_entry => (fst a <= fst b)%Z) l ->
  ForallOrdPairs (fun a b : sched_entry => (fst a <= fst b)%Z) (filter f l).
Proof.
  induction l as [|a l IH]; intros So; cbn; [constructor|]. inversion So as [|? ? H1 H2]; subst.
  destruct (f a); [|auto]. constructor; [|auto]. apply Forall_forall. intros y Hy. apply filter_In in Hy.
  rewrite Forall_forall in H1. apply H1, Hy.
Qed.
Lemma insert_scheduled_head e l e' l' : insert_scheduled e l = e' :: l' -> (fst e' <= fst e)%Z.
Proof.
  destruct l as [|a l]; cbn; [intros E; injection E as <- _; lia|].
  destruct (Z.ltb_spec (fst e) (fst a)); intros E; injection E as <- _; lia.
Qed.

(** steps that do not concern the scheduler *)
Lemma invC_same s s' : invC s -> schedulers s' = schedulers s -> sched_obj s' = sched_obj s -> scheduled s' = scheduled s ->
  pend_sched s' = pend_sched s -> pend_spawn s' = pend_spawn s -> pend_assign s' = pend_assign s ->
  (stopping s' = false -> stopping s = false) -> ((forall t, throws t = false) -> status s = Alive -> status s' = Alive) -> invC s'.
Proof.
  intros [C1 C2 C3 C4 C5 C5' C6 C7 C8 C9] E1 E2 E3 E4 E5 E6 E7 E8.
  assert (Eh : handoff s' = handoff s) by (unfold handoff; congruence).
  assert (Eo : forall k, owner s k -> owner s' k) by (unfold owner; intros k; rewrite E2, E6; auto).
  constructor; rewrite ?E1, ?E2, ?E3, ?E4, ?E5, ?E6, ?Eh; eauto.
Qed.

(** the unique scheduler [j] takes a step of its loop *)
Lemma sched_loop_invC s j c : nth_error (schedulers s) j = Some c -> owner s j ->
  pend_spawn s + length (pend_assign s) <= 1 -> (handoff s <> 0 -> sched_obj s = None) ->
  (stopping s = false -> handoff s <> 0 -> scheduled s <> []) ->
  (forall k c', k <> j -> nth_error (schedulers s) k = Some c' -> c' = SDone) ->
  ForallOrdPairs (fun a b : sched_entry => (fst a <= fst b)%Z) (scheduled s) ->
  ((forall t, throws t = false) -> status s = Alive) ->
  invC (sched_loop j s).
Proof.
  intros Hj O C1 C3 CH U So Al.
  assert (Oth : forall c0 k c', nth_error (update j c0 (schedulers s)) k = Some c' -> (k = j /\ c' = c0) \/ (k <> j /\ c' = SDone)).
  { intros c0 k c' Q. apply update_inv in Q. destruct Q as [(-> & -> & _)|[N Q]]; [auto|right; split; [auto|eapply U; eauto]]. }
  assert (Ow : forall k, sched_obj s = Some k \/ In k (pend_assign s) -> k = j).
  { intros k [X|X].
    - destruct O as [O|O]; [congruence|]. rewrite C3 in X; [discriminate|]. unfold handoff. rewrite O. cbn. lia.
    - destruct O as [O|O]; [|rewrite O in X; destruct X as [X|[]]; auto]. rewrite C3 in O; [discriminate|].
      unfold handoff. destruct (pend_assign s); [destruct X|cbn; lia]. }
  destruct (sched_loop_cases j s) as [(St & ->)|[(St & e & l & Sc & ->)|[(St & Sc & o & Ob & ->)|(St & Sc & X & _)]]].
  - constructor; cbn; auto; try congruence.
    + intros k c' Q N. destruct (Oth _ _ _ Q) as [[-> ->]|[_ ->]]; congruence.
    + intros k e [Q|Q]; destruct (Oth _ _ _ Q) as [[-> X]|[_ X]]; discriminate.
    + intros k e Q; destruct (Oth _ _ _ Q) as [[-> X]|[_ X]]; discriminate.
  - constructor; cbn; auto.
    + intros k c' Q N. destruct (Oth _ _ _ Q) as [[-> ->]|[_ ->]]; [exact O|congruence].
    + intros k e' [Q|Q]; destruct (Oth _ _ _ Q) as [[-> X]|[_ X]]; try discriminate. injection X as ->. rewrite Sc. left. reflexivity.
    + intros _ X Y. exfalso. destruct O as [O|O]; [congruence|]. unfold handoff in Y. cbn in Y. rewrite O in Y. cbn in Y. lia.
    + intros _ k Q. apply Ow in Q. subst k. exists (SWait e). split; [|discriminate]. eapply update_same; eauto.
    + intros k e' Q; destruct (Oth _ _ _ Q) as [[-> X]|[_ X]]; try discriminate. injection X as ->. right. intros e' He'.
      rewrite Sc in So, He'. inversion So as [|? ? H1 _]; subst. destruct He' as [->|He']; [lia|]. rewrite Forall_forall in H1. apply H1, He'.
  - assert (Z : handoff s = 0) by (destruct (Nat.eq_dec (handoff s) 0) as [Z|Z]; [exact Z|apply C3 in Z; congruence]).
    assert (Pa : pend_assign s = []) by (unfold handoff in Z; destruct (pend_assign s); [reflexivity|cbn in Z; lia]).
    constructor; cbn; auto.
    + intros k c' Q N. destruct (Oth _ _ _ Q) as [[-> ->]|[_ ->]]; congruence.
    + intros k e [Q|Q]; destruct (Oth _ _ _ Q) as [[-> X]|[_ X]]; discriminate.
    + intros _ k [Q|Q]; [discriminate|rewrite Pa in Q; destruct Q].
    + intros k e Q; destruct (Oth _ _ _ Q) as [[-> X]|[_ X]]; discriminate.
  - exfalso. destruct O as [O|O]; [congruence|]. apply (CH St); [|exact Sc]. unfold handoff. rewrite O. cbn. lia.
Qed.

(** it goes to another state, without a change of the other threads *)
Lemma sgoto_invC s j c c' pe : invC s -> nth_error (schedulers s) j = Some c -> c <> SDone ->
  c' = SReady \/ (exists e, c = SWait e /\ c' = STimedOut e) -> invC (set_pend_sched pe (sgoto j c' s)).
Proof.
  intros [C1 C2 C3 C4 C5 C5' C6 C7 C8 C9] Hj Nc Cc.
  pose proof (C2 j c Hj Nc) as O.
  assert (Uniq : forall k x, k <> j -> nth_error (schedulers s) k = Some x -> x = SDone).
  { intros k x Nk Hk. destruct x; try reflexivity; exfalso; destruct (C2 k _ Hk ltac:(discriminate)) as [Y|Y], O as [O|O]; try congruence;
      assert (X : sched_obj s = None) by (apply C3; unfold handoff; rewrite ?O, ?Y; cbn; lia); congruence. }
  assert (Oth : forall k x, nth_error (update j c' (schedulers s)) k = Some x -> (k = j /\ x = c') \/ (k <> j /\ x = SDone)).
  { intros k x X. apply update_inv in X. destruct X as [(-> & -> & _)|[N X]]; [auto|right; split; [auto|eapply Uniq; eauto]]. }
  assert (Nd : c' <> SDone) by (destruct Cc as [->|(e & _ & ->)]; discriminate).
  constructor; cbn; auto.
  - intros k x X N. destruct (Oth _ _ X) as [[-> ->]|[_ ->]]; [exact O|congruence].
  - intros k e' [X|X]; destruct (Oth _ _ X) as [[-> Y]|[_ Y]]; try discriminate; destruct Cc as [->|(e & -> & ->)]; try discriminate.
    injection Y as ->. eapply C4; eauto.
  - intros St k X. assert (k = j) as ->.
    { destruct X as [X|X], O as [O|O]; try congruence; try (rewrite O in X; destruct X as [X|[]]; congruence);
        (assert (Y : sched_obj s = None); [apply C3; unfold handoff; rewrite ?O; cbn; try lia|congruence]).
      destruct (pend_assign s); [destruct X|cbn; lia]. }
    exists c'. split; [|exact Nd]. eapply update_same; eauto.
  - intros k e' X; destruct (Oth _ _ X) as [[-> Y]|[_ Y]]; try discriminate; destruct Cc as [->|(e & -> & ->)]; discriminate.
Qed.

Lemma step_invC s e s' : invA s -> invC s -> step s e s' -> orderly s e s' -> invC s'.
Proof.
  intros IA C H Q. pose proof C as C0. destruct C0 as [C1 C2 C3 C4 C5 C5' C6 C7 C8 C9].
  assert (P0 : handoff s = 0 -> pend_spawn s = 0 /\ pend_assign s = []).
  { unfold handoff. intros Z. split; [lia|]. destruct (pend_assign s); [reflexivity|cbn in Z; lia]. }
  assert (Uniq : forall j c k c', nth_error (schedulers s) j = Some c -> c <> SDone -> k <> j ->
      nth_error (schedulers s) k = Some c' -> c' = SDone).
  { intros j c k c' Hj N Nk Hk. pose proof (C2 j c Hj N) as O. destruct c'; try reflexivity; exfalso;
      destruct (C2 k _ Hk ltac:(discriminate)) as [Y|Y], O as [O|O]; try congruence;
      assert (X : sched_obj s = None) by (apply C3; unfold handoff; rewrite ?O, ?Y; cbn; lia); congruence. }
  destruct H as [Al [H|[H|[H|H]]]].
  - destruct H as [p M|p M|time p M|n M|a M|M|M|D]; try (apply (invC_same s); auto; fail).
    + (* run_at *)
      cbn in Q. rename Q into Z.
      destruct (P0 Z) as [Ps Pa]. cbv zeta.
      assert (So := insert_scheduled_sorted (time, (p, next s)) _ C7).
      assert (Ne : insert_scheduled (time, (p, next s)) (scheduled s) <> []).
      { destruct (scheduled s) as [|h l]; cbn; [discriminate|]. dif; discriminate. }
      destruct (sched_obj s) as [o|] eqn:O.
      * assert (Hd : forall b, (b = true -> True) -> forall j e, nth_error (schedulers s) j = Some (SWait e) ->
           (match insert_scheduled (time, (p, next s)) (scheduled s) with e0 :: _ => (time =? fst e0)%Z | [] => false end = true) \/
           0 < pend_sched s \/ forall e', In e' (insert_scheduled (time, (p, next s)) (scheduled s)) -> (fst e <= fst e')%Z).
        { intros _ _ j e Hj. destruct (C8 j e Hj) as [X|X]; [auto|].
          destruct (insert_scheduled (time, (p, next s)) (scheduled s)) as [|h l] eqn:E.
          - right. right. intros e' [].
          - pose proof (insert_scheduled_head _ _ _ _ E) as Le. cbn in Le.
            destruct (Z.eqb_spec time (fst h)) as [Eq|Ne']; [left; reflexivity|]. right. right. intros e' He'.
            assert (Inh : h = (time, (p, next s)) \/ In h (scheduled s)) by (apply insert_scheduled_in; rewrite E; left; reflexivity).
            destruct Inh as [->|Inh]; [cbn in Ne'; congruence|]. specialize (X h Inh).
            inversion So as [|? ? H1 _]; subst. destruct He' as [<-|He']; [exact X|]. rewrite Forall_forall in H1. specialize (H1 e' He'). lia. }
        destruct (match insert_scheduled (time, (p, next s)) (scheduled s) with e0 :: _ => (time =? fst e0)%Z | [] => false end) eqn:B;
          constructor; unfold owner in *; cbn; rewrite ?O, ?Ps, ?Pa in *; cbn; auto.
        -- intros j e Hj. apply insert_scheduled_in. right. eapply C4; eauto.
        -- discriminate.
        -- intros j e Hj. left. lia.
        -- intros j e Hj. apply insert_scheduled_in. right. eapply C4; eauto.
        -- discriminate.
        -- intros j e Hj. destruct (Hd true (fun _ => I) j e Hj) as [X|X]; [discriminate|exact X].
      * constructor; unfold owner in *; cbn; rewrite ?O, ?Ps, ?Pa in *; cbn; auto.
        -- intros j e Hj. apply insert_scheduled_in. right. eapply C4; eauto.
        -- unfold handoff. cbn. lia.
        -- intros j e Hj. exfalso. destruct (C2 j _ Hj ltac:(discriminate)); discriminate.
    + destruct (stopping s) eqn:St; [exact C|]. cbv zeta. dif; (apply (invC_same s); cbn; auto).
    + apply (invC_same s); cbn; auto. discriminate.
  - destruct H as [i w Hi Hw|i t Hi Ht Hd|i t Hi Ht|i n Hn Hi|n Hn Hi|n Hn|j e n Hn Hj|j Hn Hj|n Hn|j l1 l2 Hj|j Hj|j e Hj Hnow|j e Hj
                  |k Hk|k Hk|l1 l2 t Hs Hc|D|D|D Hex|D Hso|j D Hso Hj]; try (apply (invC_same s); auto; fail).
    + destruct (work_cases i w s) as [(Co & Wt & V)|[(p & t & rest & Co & Wt & V)|(Co & V)]]; rewrite V; apply (invC_same s); auto.
    + apply (invC_same s); cbn; auto. intros X. rewrite X in Ht. discriminate.
    + (* notify the scheduler *)
      eapply sgoto_invC; eauto. discriminate.
    + (* nobody to notify *)
      constructor; cbn; auto. intros k e X. exfalso. eapply Hj; eauto.
    + (* spawn *)
      assert (Pa : pend_assign s = []) by (destruct (pend_assign s); [reflexivity|cbn in C1; lia]).
      assert (n = 0) by (rewrite Hn in C1; lia). subst n.
      assert (O : sched_obj s = None) by (apply C3; unfold handoff; lia).
      assert (Alld : forall k c, nth_error (schedulers s) k = Some c -> c = SDone).
      { intros k c X. destruct c; try reflexivity; destruct (C2 k _ X ltac:(discriminate)) as [Y|Y]; congruence. }
      assert (New : forall k c, nth_error (schedulers s ++ [SReady]) k = Some c -> c = SDone \/ (k = length (schedulers s) /\ c = SReady)).
      { intros k c X. destruct (Nat.lt_ge_cases k (length (schedulers s))) as [L|L].
        - rewrite nth_error_app1 in X by exact L. left. eapply Alld; eauto.
        - rewrite nth_error_app2 in X by exact L. destruct (k - length (schedulers s)) as [|m] eqn:E; [|destruct m; discriminate].
          right. split; [lia|]. cbn in X. injection X as <-. reflexivity. }
      constructor; cbn; rewrite ?Pa; auto.
      * intros k c X N. destruct (New k c X) as [->|[-> ->]]; [congruence|right; auto].
      * intros k e [X|X]; destruct (New _ _ X) as [Y|[_ Y]]; discriminate.
      * intros _ _ X. unfold handoff in X. cbn in X. lia.
      * intros St _. apply (C5' St). unfold handoff. lia.
      * intros _ k [X|[<-|[]]]; [congruence|]. exists SReady. split; [|discriminate]. rewrite nth_error_app2 by lia. rewrite Nat.sub_diag. reflexivity.
      * intros k e X; destruct (New _ _ X) as [Y|[_ Y]]; discriminate.
    + (* assign *)
      assert (X : l1 = [] /\ l2 = [] /\ pend_spawn s = 0).
      { rewrite Hj, app_length in C1. cbn in C1. destruct l1, l2; cbn in C1; try lia. repeat split; lia. }
      destruct X as (-> & -> & Ps). cbn in Hj.
      assert (O : sched_obj s = None) by (apply C3; unfold handoff; rewrite Hj; cbn; lia). rewrite O.
      constructor; cbn; auto.
      * lia.
      * intros k c X N. destruct (C2 k c X N) as [Y|Y]; [congruence|]. left. cbn. congruence.
      * unfold handoff. cbn. lia.
      * discriminate.
      * unfold handoff. cbn. lia.
      * intros St k [X|[]]. injection X as <-. apply C6; [exact St|right; rewrite Hj; left; reflexivity].
    + (* loop *)
      eapply sched_loop_invC; eauto.
      * eapply C2; eauto. discriminate.
      * intros k c' N X. eapply (Uniq j); eauto. discriminate.
    + (* timeout *)
      change (sgoto j (STimedOut e) s) with (set_pend_sched (pend_sched s) (sgoto j (STimedOut e) s)).
      eapply sgoto_invC; eauto. discriminate.
    + (* move *)
      assert (Ine : In e (scheduled s)) by (eapply C4; eauto).
      assert (Ex : existsb (entry_is e) (scheduled s) = true).
      { apply existsb_exists. exists e. split; [exact Ine|apply Nat.eqb_refl]. }
      assert (Q' : handoff s = 0 \/ stopping s = true \/ filter (fun e' => negb (entry_is e e')) (scheduled s) <> []).
      { destruct (sched_move_frame j e s) as [(V0 & V)|(_ & c & o & st & V)]; [congruence|]. rewrite V in Q. cbn in Q.
        destruct Q as [Z|[Z|Z]]; auto. right. right. intros X. apply Z. unfold scheduled_tasks. cbn. rewrite X. reflexivity. }
      unfold sched_move. rewrite Ex. cbn [snd].
      eapply (sched_loop_invC _ j (STimedOut e)); cbn; auto.
      * eapply (C2 j); eauto. discriminate.
      * intros St Hn. destruct Q' as [X|[X|X]]; [contradiction|congruence|exact X].
      * intros k c' N X. eapply (Uniq j); eauto. discriminate.
      * apply filter_sorted, C7.
    + (* wake all schedulers *)
      assert (Wk : forall k c, nth_error (map wake_sched (schedulers s)) k = Some c ->
                   exists c0, nth_error (schedulers s) k = Some c0 /\ c = wake_sched c0).
      { intros k c X. rewrite nth_error_map in X. destruct (nth_error (schedulers s) k) as [c0|]; [|discriminate]. cbn in X. injection X as <-. eauto. }
      assert (NS : stopping s = true).
      { destruct (stopping s) eqn:St; [reflexivity|]. apply (a_dtor _ IA) in St. congruence. }
      constructor; cbn; auto; try congruence.
      * intros k c X N. destruct (Wk k c X) as (c0 & Y & ->). apply (C2 k c0 Y). intros ->. auto.
      * intros k e [X|X]; destruct (Wk k _ X) as (c0 & Y & Z); destruct c0; try discriminate. injection Z as ->. eapply C4; eauto.
      * intros k e X; destruct (Wk k _ X) as (c0 & Y & Z); destruct c0; discriminate.
    + (* join the scheduler *)
      assert (NS : stopping s = true).
      { destruct (stopping s) eqn:St; [reflexivity|]. apply (a_dtor _ IA) in St. congruence. }
      constructor; cbn; auto; try congruence.
      * intros k c X N. destruct (C2 k c X N) as [Y|Y]; [|right; exact Y]. exfalso. rewrite Hso in Y. injection Y as ->. congruence.
  - destruct H as [i Hi|j e Hj|k Hk|k Hk]; try (apply (invC_same s); auto; fail).
    change (sgoto j SReady s) with (set_pend_sched (pend_sched s) (sgoto j SReady s)). eapply sgoto_invC; eauto. discriminate.
  - destruct H. apply (invC_same s); auto.
Qed.

Lemma calm_exec s0 tr s : exec_calm s0 tr s -> exec s0 tr s.
Proof. intros H. induction H; econstructor; eauto. Qed.
Lemma calm_invC n clock tr s : exec_calm (initial n clock) tr s -> invC s.
Proof.
  intros H. induction H as [|tr s e s' H IH S Q]; [apply initial_invC|]. eapply step_invC; eauto.
  eapply exec_invA. eapply calm_exec; eauto.
Qed.

Lemma calm_alive_proof n clock tr s : exec_calm (initial n clock) tr s -> (forall t, throws t = false) -> status s = Alive.
Proof. intros H T. apply (c_status _ (calm_invC _ _ _ _ H)), T. Qed.

Lemma calm_due_proof n clock tr s : exec_calm (initial n clock) tr s -> quiescent s -> stopping s = false ->
  forall e, In e (scheduled s) -> (now s < fst e)%Z.
Proof.
  intros H Q St e He. destruct (calm_invC _ _ _ _ H) as [C1 C2 C3 C4 C5 C5' C6 C7 C8 C9].
  pose proof (quiet_handoff _ _ s Q) as Z. pose proof (quiet_sched _ _ s Q) as Ps.
  destruct (sched_obj s) as [j|] eqn:O; [|rewrite (C5 St eq_refl Z) in He; destruct He].
  destruct (C6 St j (or_introl eq_refl)) as (c & Hj & N). destruct c.
  - exfalso. eapply Q, i_sched_loop; eauto.
  - destruct (C8 j e0 Hj) as [X|X]; [lia|]. specialize (X e He). destruct (Z.lt_ge_cases (now s) (fst e0)) as [L|L]; [lia|].
    exfalso. eapply Q, i_sched_timeout; eauto.
  - exfalso. eapply Q, i_sched_move; eauto.
  - congruence.
Qed.

(** * The schedule is in order of time, and a scheduler thread waits for its first entry *)
Lemma exec_sorted n0 clock tr s : exec (initial n0 clock) tr s ->
  ForallOrdPairs (fun a b : sched_entry => (fst a <= fst b)%Z) (scheduled s).
Proof.
  intros H. induction H as [|tr s e s' H IH S]; [constructor|].
  cases S; unfold goto, sgoto, submit; cbn; auto.
  - assert (X := insert_scheduled_sorted (time, (p, next s)) _ IH). destruct (sched_obj s); [dif|]; exact X.
  - destruct (stopping s); cbn; [exact IH|]. dif; exact IH.
  - destruct (sched_obj s); exact IH.
  - apply filter_sorted, IH.
Qed.
Lemma sched_loop_wait k s x : nth_error (schedulers (sched_loop k s)) k = Some (SWait x) ->
  exists l, scheduled (sched_loop k s) = x :: l.
Proof.
  intros H. destruct (sched_loop_cases k s) as [(St & E)|[(St & y & l & Sc & E)|[(St & Sc & o & _ & E)|(_ & _ & X & E)]]]; rewrite E in *; cbn in *;
    apply update_inv in H; destruct H as [(_ & H & _)|[H _]]; try congruence. exists l. congruence.
Qed.
Lemma sched_loop_other k s j x : j <> k -> nth_error (schedulers (sched_loop k s)) j = Some (SWait x) ->
  nth_error (schedulers s) j = Some (SWait x).
Proof.
  intros N H. destruct (sched_loop_cases k s) as [(St & E)|[(St & y & l & Sc & E)|[(St & Sc & o & _ & E)|(_ & _ & X & E)]]]; rewrite E in *; cbn in *;
    apply update_inv in H; destruct H as [(H & _)|[_ H]]; congruence.
Qed.
Lemma earliest_proof n clock tr s e s' j x : exec (initial n clock) tr s -> step s e s' ->
  nth_error (schedulers s') j = Some (SWait x) -> nth_error (schedulers s) j <> Some (SWait x) ->
  In x (scheduled s') /\ forall y, In y (scheduled s') -> (fst x <= fst y)%Z.
Proof.
  intros H S Hx Nx. assert (So : ForallOrdPairs (fun a b : sched_entry => (fst a <= fst b)%Z) (scheduled s')).
  { eapply exec_sorted. econstructor; eauto. }
  assert (G : forall l, scheduled s' = x :: l -> In x (scheduled s') /\ forall y, In y (scheduled s') -> (fst x <= fst y)%Z).
  { intros l El. rewrite El in *. split; [left; reflexivity|]. inversion So as [|? ? H1 _]; subst. intros y [->|Hy]; [lia|].
    rewrite Forall_forall in H1. apply H1, Hy. }
  assert (U : forall k c s0, schedulers s0 = schedulers s -> nth_error (update k c (schedulers s0)) j = Some (SWait x) -> c = SWait x).
  { intros k c s0 E Q. apply update_inv in Q. destruct Q as [(_ & <- & _)|[_ Q]]; [reflexivity|congruence]. }
  destruct S as [_ [S|[S|[S|S]]]]; destruct S; cbn in *; try contradiction; try (exfalso; apply Nx; exact Hx);
    try (exfalso; apply (U _ _ s eq_refl) in Hx; discriminate).
  - exfalso. destruct (sched_obj s); [destruct (match insert_scheduled _ _ with [] => _ | _ => _ end)|]; auto.
  - exfalso. destruct (stopping s); [auto|]. dif_in Hx; auto.
  - exfalso. destruct (work_cases i w s) as [(_ & _ & V)|[(p & t & rest & _ & _ & V)|(_ & V)]]; rewrite V in Hx; auto.
  - exfalso. destruct (Nat.lt_ge_cases j (length (schedulers s))) as [L|L].
    + rewrite nth_error_app1 in Hx by exact L. auto.
    + rewrite nth_error_app2 in Hx by exact L. destruct (j - length (schedulers s)) as [|m]; [discriminate|destruct m; discriminate].
  - exfalso. destruct (sched_obj s); auto.
  - destruct (Nat.eq_dec j j0) as [->|N]; [|exfalso; apply sched_loop_other in Hx; auto].
    destruct (sched_loop_wait _ _ _ Hx) as (l & El). eauto.
  - unfold sched_move in *. destruct (existsb (entry_is e) (scheduled s)); cbn [snd] in *; [|exfalso; auto].
    destruct (Nat.eq_dec j j0) as [->|N]; [|exfalso; apply sched_loop_other in Hx; auto].
    destruct (sched_loop_wait _ _ _ Hx) as (l & El). eauto.
  - exfalso. rewrite nth_error_map in Hx. destruct (nth_error (schedulers s) j) as [[]|]; discriminate.
Qed.

(** * Nothing happens after the destructor has returned *)
Lemma step_ended s e s' : dtor s = DDone -> Forall ended (workers s) -> step s e s' ->
  dtor s' = DDone /\ Forall ended (workers s') /\ started e = [] /\ finished e = [] /\ given e = [].
Proof.
  intros D F S. assert (B : forall i w, nth_error (workers s) i = Some w -> ended w).
  { intros i w Hi. rewrite Forall_forall in F. apply F. eapply nth_error_In; eauto. }
  assert (NC : may_call s -> False).
  { intros [X|(i & t & X)]; [congruence|]. destruct (B _ _ X); discriminate. }
  destruct S as [_ [S|[S|[S|S]]]]; destruct S; cbn; try (exfalso; auto; fail); try congruence; auto 8;
    try (exfalso; match goal with Hi : nth_error (workers s) _ = Some _ |- _ => destruct (B _ _ Hi); subst; try discriminate; contradiction end).
  - repeat split; auto. apply Forall_forall. intros w Hw. apply in_map_iff in Hw. destruct Hw as (w0 & <- & Hw). rewrite Forall_forall in F.
    destruct (F w0 Hw) as [->| ->]; [left|right]; reflexivity.
  - destruct (sched_obj s); cbn; auto 8.
  - destruct (sched_loop_frame j s) as (c & o & st & V). rewrite V. cbn. auto 8.
  - destruct (sched_move_frame j e s) as [(_ & V)|(_ & c & o & st & V)]; rewrite V; cbn; auto 8.
  - destruct (is_empty (waiting s) && (active s =? 0)); cbn; auto 8.
  - destruct (is_empty (waiting s)); cbn; auto 8.
Qed.
Lemma done_ended n clock tr s : exec (initial n clock) tr s -> dtor s = DDone -> Forall ended (workers s).
Proof.
  intros H D. destruct (exec_invD _ _ _ _ _ _ H) as [D1 _ _ _ D5]. specialize (D5 (or_intror D)).
  assert (W0 : waits s = 0) by (apply D1; congruence). apply Forall_forall. intros w Hw. apply In_nth_error in Hw. destruct Hw as (i & Hi).
  pose proof (sum_ge is_live i w _ Hi). pose proof (sum_ge is_wait i w _ Hi). unfold ended. destruct w; cbn in *; auto; lia.
Qed.
Lemma after_destroyed_proof n clock tr s tr' s' : exec (initial n clock) tr s -> dtor s = DDone -> exec s tr' s' ->
  running s = [] /\ running s' = [] /\ starts tr' = [] /\ finishes tr' = [] /\ givens tr' = [].
Proof.
  intros H D H'. pose proof (done_ended _ _ _ _ H D) as F.
  assert (R : forall s, Forall ended (workers s) -> running s = []).
  { intros s0 F0. unfold running. induction F0 as [|w l [->| ->] _ IH]; cbn; auto. }
  split; [auto|].
  assert (K : dtor s' = DDone /\ Forall ended (workers s') /\ starts tr' = [] /\ finishes tr' = [] /\ givens tr' = []).
  { induction H' as [|tr' s' e s'' H' IH S]; [auto 8|]. destruct IH as (D' & F' & I1 & I2 & I3).
    destruct (step_ended _ _ _ D' F' S) as (J1 & J2 & J3 & J4 & J5).
    unfold starts, finishes, givens in *. rewrite !flat_map_snoc, I1, I2, I3, J3, J4, J5. auto 8. }
  destruct K as (K1 & K2 & K3). split; [auto|]. exact K3.
Qed.
(** in calm executions no scheduler thread is left either *)
Lemma calm_destroyed_proof n clock tr s s' : exec_calm (initial n clock) tr s -> step s EDestroyed s' -> handoff s = 0 ->
  dtor s' = DDone /\ Forall ended (workers s') /\ Forall (eq SDone) (schedulers s').
Proof.
  intros H S Z. pose proof (calm_exec _ _ _ H) as HE.
  assert (HE' : exec (initial n clock) (tr ++ [EDestroyed]) s') by (econstructor; eauto).
  assert (K : dtor s' = DDone /\ schedulers s' = schedulers s /\
              (sched_obj s = None \/ exists j, sched_obj s = Some j /\ nth_error (schedulers s) j = Some SDone)).
  { destruct S as [_ [X|[X|[X|X]]]]; inversion X; subst; cbn; eauto 6.
    - destruct (work_cases i w s) as [(_ & _ & V)|[(p & t & rest & _ & _ & V)|(_ & V)]]; rewrite V in *; discriminate.
    - destruct (sched_move_frame j e s) as [(_ & V)|(_ & c & o & st & V)]; rewrite V in *; discriminate.
    - destruct (is_empty (waiting s) && (active s =? 0)); discriminate.
    - destruct (is_empty (waiting s)); discriminate. }
  destruct K as (K1 & K2 & K3). split; [exact K1|]. split; [eapply done_ended; eauto|]. rewrite K2.
  apply Forall_forall. intros c Hc. apply In_nth_error in Hc. destruct Hc as (k & Hk).
  destruct (calm_invC _ _ _ _ H) as [C1 C2 C3 _ _ _ _ _ _ _].
  destruct c; try reflexivity; exfalso; destruct (C2 k _ Hk ltac:(discriminate)) as [X|X];
    try (unfold handoff in Z; rewrite X in Z; cbn in Z; lia); destruct K3 as [K3|(j & K3 & K4)]; congruence.
Qed.
(** * Settings, and calls that return *)
Lemma last_target_snoc n tr e : last_target n (tr ++ [e]) =
  if existsb (fun e => match e with EStop => true | _ => false end) tr then last_target n tr
  else match e with ETarget m => m | _ => last_target n tr end.
Proof.
  revert n. induction tr as [|e0 tr IH]; intros n; [destruct e; reflexivity|].
  destruct e0; cbn; auto.
Qed.
Lemma step_settings s e s' : step s e s' ->
  onStop s' = match e with EOnStop b => b | _ => onStop s end /\
  target s' = (if stopping s then target s else match e with ETarget m => m | _ => target s end) /\
  stopping s' = (stopping s || match e with EStop => true | _ => false end).
Proof.
  intros H. cases H; unfold goto, sgoto, submit; cbn; rewrite ?orb_false_r, ?orb_true_r;
    try (destruct (stopping s) eqn:St; cbn; repeat split; auto; fail).
  - destruct (sched_obj s); [dif|]; destruct (stopping s) eqn:St; cbn; auto.
  - destruct (stopping s) eqn:St; [rewrite St; auto|]. dif; cbn; auto.
  - destruct (sched_obj s); cbn; destruct (stopping s); auto.
  - destruct (is_empty (waiting s) && (active s =? 0)); destruct (stopping s); auto.
  - destruct (is_empty (waiting s)); destruct (stopping s); auto.
Qed.
Lemma settings_proof n clock tr s : exec (initial n clock) tr s ->
  on_stop s = last_on_stop tr /\ target_workers_size s = last_target n tr.
Proof.
  intros H. assert (G : onStop s = last_on_stop tr /\ target s = last_target n tr /\
    stopping s = existsb (fun e => match e with EStop => true | _ => false end) tr).
  { induction H as [|tr s e s' H IH S]; [cbn; auto|]. destruct IH as (I1 & I2 & I3).
    destruct (step_settings s e s' S) as (J1 & J2 & J3). rewrite last_target_snoc, existsb_app. unfold last_on_stop in *.
    rewrite fold_left_app. cbn [fold_left existsb]. rewrite orb_false_r, J1, J2, J3, <- I1, <- I2, <- I3. auto. }
  unfold on_stop, target_workers_size. tauto.
Qed.

Lemma nth_wake l k : nth_error (map wake_caller l) k = Some CReturned -> nth_error l k = Some CReturned.
Proof. rewrite nth_error_map. destruct (nth_error l k) as [[]|]; cbn; congruence. Qed.
Lemma nth_snoc_check l k : nth_error (l ++ [CCheck]) k = Some CReturned -> nth_error l k = Some CReturned.
Proof.
  destruct (Nat.lt_ge_cases k (length l)); [rewrite nth_error_app1 by assumption; auto|].
  rewrite nth_error_app2 by assumption. destruct (k - length l) as [|[]]; cbn; congruence.
Qed.
Lemma nth_update_other l k j c : nth_error (update j c l) k = Some CReturned -> c <> CReturned -> nth_error l k = Some CReturned.
Proof. intros H N. destruct (update_inv _ _ _ _ _ H) as [(_ & E & _)|(_ & E)]; [congruence|exact E]. Qed.

Lemma step_all_returned s e s' k0 : step s e s' -> returned_at k0 (all_waiters s') -> ~ returned_at k0 (all_waiters s) -> e = EAllReturned k0.
Proof.
  unfold returned_at. intros H. cases H; unfold goto, sgoto, submit; cbn; try congruence.
  - destruct (sched_obj s); [dif|]; cbn; congruence.
  - destruct (stopping s); [congruence|]. dif; cbn; congruence.
  - intros R N. apply nth_snoc_check in R. contradiction.
  - intros R N. destruct (active_from w s =? 0); [apply nth_wake in R|]; contradiction.
  - destruct (sched_obj s); cbn; congruence.
  - intros R N. destruct (is_empty (waiting s) && (active s =? 0)).
    + destruct (update_inv _ _ _ _ _ R) as [(E & _)|(_ & E)]; [subst; reflexivity|contradiction].
    + apply nth_update_other in R; [contradiction|discriminate].
  - intros R N. apply nth_update_other in R; [contradiction|discriminate].
Qed.
Lemma step_none_returned s e s' k0 : step s e s' -> returned_at k0 (none_waiters s') -> ~ returned_at k0 (none_waiters s) -> e = ENoneReturned k0.
Proof.
  unfold returned_at. intros H. cases H; unfold goto, sgoto, submit; cbn; try congruence.
  - destruct (sched_obj s); [dif|]; cbn; congruence.
  - destruct (stopping s); [congruence|]. dif; cbn; congruence.
  - intros R N. apply nth_snoc_check in R. contradiction.
  - intros R N. destruct (is_empty rest); [apply nth_wake in R|]; contradiction.
  - destruct (sched_obj s); cbn; congruence.
  - intros R N. destruct (is_empty (waiting s)).
    + destruct (update_inv _ _ _ _ _ R) as [(E & _)|(_ & E)]; [subst; reflexivity|contradiction].
    + apply nth_update_other in R; [contradiction|discriminate].
  - intros R N. apply nth_update_other in R; [contradiction|discriminate].
Qed.
Lemma all_returns_state_proof n clock tr s e s' k : exec (initial n clock) tr s -> step s e s' ->
  returned_at k (all_waiters s') -> ~ returned_at k (all_waiters s) ->
  waiting_tasks s = [] /\ running s = [] /\ filter busy (workers s) = [].
Proof. intros H S R N. rewrite (step_all_returned _ _ _ _ S R N) in S. eapply all_returns_idle_proof; eauto. Qed.
Lemma none_returns_state_proof n clock tr s e s' k : exec (initial n clock) tr s -> step s e s' ->
  returned_at k (none_waiters s') -> ~ returned_at k (none_waiters s) -> waiting_tasks s = [].
Proof. intros H S R N. rewrite (step_none_returned _ _ _ _ S R N) in S. eapply none_returns_proof; eauto. Qed.
Lemma syncs_finished_proof n0 clock tr s t0 : exec (initial n0 clock) tr s -> In (t0, true) (syncs s) -> In (EFinish t0) tr.
Proof.
  intros H. assert (G : In (t0, true) (syncs s) -> In t0 (completed s)).
  { induction H as [|tr s e s' H IH S]; [intros []|]. cases S; unfold goto, sgoto, submit; cbn; auto.
    - intros [Q|Q]; [discriminate|auto].
    - destruct (sched_obj s); [dif|]; cbn; auto.
    - destruct (stopping s); [auto|]. dif; cbn; auto.
    - destruct (sched_obj s); cbn; auto.
    - intros Q. apply in_app_or in Q. destruct Q as [Q|[Q|Q]].
      + apply IH. rewrite Hs. apply in_or_app. auto.
      + injection Q as <-. exact Hc.
      + apply IH. rewrite Hs. apply in_or_app. right. right. exact Q. }
  intros Q. destruct (exec_invT _ _ _ _ _ _ H) as [_ TF _ _ _ _ _ _ _ _ _]. specialize (TF t0). apply G, cnt_in in Q.
  assert (F : In t0 (finishes tr)) by (apply cnt_in; lia). apply in_flat_map in F. destruct F as (e & He & Hf).
  destruct e; try contradiction. destruct Hf as [<-|[]]. exact He.
Qed.
End Stop.
