(** Proofs about pools without workers and about the promise of run_sync. *)
From Coq Require Import List Bool Arith ZArith Lia Permutation.
From Verif Require Import Base ListUpdate PoolModel PoolSpec PoolProofs PoolLive PoolStop PoolUseProofs PoolCallModel PoolCallSpec.
Import ListNotations.

Section Empty.
Variable throws : nat -> bool.
Variable deps : nat -> list nat.
Notation step := (step throws deps).
Notation exec := (exec throws deps).

Lemma empty_start s w t s' : size (workers s) <= 0 -> ~ step s (EStart w t) s'.
Proof.
  intros B S. assert (K : exists x, nth_error (workers s) w = Some x /\ match x with WReady | WAfter _ => True | _ => False end).
  { destruct S as [_ S]. destruct S as [X|[X|[X|X]]]; inversion X; subst; clear X.
    - destruct (work_cases i w0 s) as [(_ & _ & V)|[(p & t0 & rest & _ & _ & V)|(_ & V)]]; rewrite V in *; try discriminate.
      match goal with E : fst _ = EStart _ _ |- _ => cbn in E; injection E as -> -> end. eauto.
    - destruct (sched_move_frame j e s) as [(_ & V)|(_ & c & o & st & V)]; rewrite V in *; discriminate.
    - destruct (is_empty (waiting s) && (active s =? 0)); discriminate.
    - destruct (is_empty (waiting s)); discriminate. }
  destruct K as (x & Hw & Hx). pose proof (sum_ge is_in_map w x _ Hw) as G. unfold size in B.
  destruct x; try contradiction; cbn in G; lia.
Qed.
Lemma empty_starts n clock tr s : exec (initial n clock) tr s -> n = 0 -> (forall m, In (ETarget m) tr -> m = 0) -> starts tr = [].
Proof.
  intros H ->. induction H as [|tr s e s' H IH S]; intros T; [reflexivity|].
  assert (T' : forall m, In (ETarget m) tr -> m = 0) by (intros m Hm; apply T, in_or_app; auto).
  unfold starts in *. rewrite flat_map_app. rewrite (IH T'). destruct e; try reflexivity. exfalso.
  refine (empty_start _ _ _ _ _ S). apply (exec_size throws deps 0 (initial 0 clock) tr s); [rewrite initial_size; lia|exact H|].
  intros m Hm. rewrite (T' m Hm). lia.
Qed.
Lemma empty_proof clock tr s : exec (default_pool 0 clock) tr s -> (forall m, In (ETarget m) tr -> m = 0) ->
  starts tr = [] /\ (forall t, In t (entries tr) -> In t (waiting_tasks s)) /\ (forall t, ~ In (ESyncReturned t) tr) /\
  (forall l k l', tr = l ++ EAllReturned k :: l' -> entries l = []) /\ (forall l k l', tr = l ++ ENoneReturned k :: l' -> entries l = []).
Proof.
  unfold default_pool. intros H T. pose proof (empty_starts _ _ _ _ H eq_refl T) as E.
  assert (P : forall tr1 s1, exec (initial 0 clock) tr1 s1 -> starts tr1 = [] -> waiting_tasks s1 = [] -> entries tr1 = []).
  { intros tr1 s1 H1 E1 W. destruct (entries tr1) as [|t l] eqn:En; [reflexivity|]. exfalso.
    assert (I : In t (waiting_tasks s1)) by (apply (entered_not_started _ _ _ _ _ _ t H1); rewrite En, E1; split; [left; reflexivity|intros []]).
    rewrite W in I. destruct I. }
  split; [exact E|]. split.
  { intros t I. apply (entered_not_started _ _ _ _ _ _ t H). rewrite E. split; [exact I|intros []]. }
  assert (G : (forall t, ~ In (ESyncReturned t) tr) /\ (forall l k l', tr = l ++ EAllReturned k :: l' -> entries l = []) /\
    (forall l k l', tr = l ++ ENoneReturned k :: l' -> entries l = [])); [|exact G].
  clear P. revert E T. induction H as [|tr s e s' H IH S]; intros E T.
  { split; [intros t []|split; intros [|? l] k l' D; discriminate]. }
  assert (E' : starts tr = []).
  { unfold starts in *. rewrite flat_map_app in E. apply app_eq_nil in E. apply E. }
  destruct (IH E') as (I1 & I2 & I3). { intros m Hm. apply T, in_or_app. auto. }
  assert (P : waiting_tasks s = [] -> entries tr = []).
  { intros W. destruct (entries tr) as [|t l] eqn:En; [reflexivity|]. exfalso.
    assert (I : In t (waiting_tasks s)) by (apply (entered_not_started _ _ _ _ _ _ t H); rewrite En, E'; split; [left; reflexivity|intros []]).
    rewrite W in I. destruct I. }
  assert (L : forall x l l', tr ++ [e] = l ++ x :: l' -> (tr = l /\ e = x) \/ exists l'', tr = l ++ x :: l'').
  { intros x l l' D. destruct (exists_last (l := x :: l')) as (l2 & y & D2); [discriminate|].
    rewrite D2, app_assoc in D. apply app_inj_tail in D. destruct D as (D & ->).
    destruct l2 as [|x' l2]; cbn in D2; injection D2 as D3 D4.
    - left. rewrite app_nil_r in D. split; [exact D|symmetry; exact D3].
    - right. exists l2. rewrite D, D3. reflexivity. }
  split; [|split].
  - intros t I. apply in_app_or in I. destruct I as [I|[->|[]]]; [exact (I1 t I)|].
    destruct (sync_proof _ _ _ _ _ _ _ _ H S) as (_ & w & Iw).
    assert (X : In t (starts tr)) by (unfold starts; apply in_flat_map; eexists; split; [exact Iw|left; reflexivity]). rewrite E' in X. destruct X.
  - intros l k l' D. destruct (L _ _ _ D) as [(<- & ->)|(l'' & ->)].
    + apply P. apply (all_returns_idle_proof _ _ _ _ _ _ _ _ H S).
    + exact (I2 _ _ _ eq_refl).
  - intros l k l' D. destruct (L _ _ _ D) as [(<- & ->)|(l'' & ->)].
    + apply P. exact (none_returns_proof _ _ _ _ _ _ _ _ H S).
    + exact (I3 _ _ _ eq_refl).
Qed.
Lemma last_target_unset n tr : (forall m, ~ In (ETarget m) tr) -> last_target n tr = n.
Proof.
  induction tr as [|e tr IH]; intros N; [reflexivity|]. assert (N' : forall m, ~ In (ETarget m) tr) by (intros m I; apply (N m); right; exact I).
  destruct e; cbn; auto. exfalso. apply (N n0). left. reflexivity.
Qed.
Lemma default_proof hw clock tr s : exec (default_pool hw clock) tr s -> plain throws deps -> 1 <= hw -> (forall m, ~ In (ETarget m) tr) ->
  quiescent throws deps s -> stopping s = false -> (forall t, In t (entries tr) -> In t (finishes tr)) /\ forall t b, In (t, b) (syncs s) -> b = true.
Proof.
  unfold default_pool. intros H P Hw N Q St. destruct (settings_proof _ _ _ _ _ _ H) as (_ & T). rewrite (last_target_unset _ _ N) in T. change (target s = hw) in T.
  assert (T1 : 1 <= target s) by lia. destruct (tasks_done_proof _ _ _ _ _ _ H P Q St T1) as (W & R). split.
  - intros t I. destruct (in_dec Nat.eq_dec t (starts tr)) as [J|J].
    + destruct (places_proof _ _ _ _ _ _ H) as (_ & _ & PS & PF & _). apply (Permutation_in _ PS) in J. rewrite R in J.
      exact (Permutation_in _ (Permutation_sym PF) J).
    + exfalso. assert (X : In t (waiting_tasks s)) by (apply (entered_not_started _ _ _ _ _ _ t H); auto). rewrite W in X. destruct X.
  - intros t b I. exact (sync_not_stuck_proof _ _ _ _ _ _ _ _ H P Q St T1 I).
Qed.
End Empty.

(** * The promise *)
Definition krank (k : kpc) : nat := match k with KBefore => 0 | KMade => 1 | KGiven => 2 | KFuture => 3 | KWaited => 4 | KGone => 5 end.
Definition jrank (j : jpc) : nat := match j with JIdle => 0 | JTask | JThrew => 1 | JReturned => 2 | JSetting => 3 | JReady => 4 | JDone => 5 end.
Definition erank (e : pevent) (s : kpc * jpc) : bool :=
  match e with
  | PMake => 1 <=? krank (fst s) | PGive => 2 <=? krank (fst s) | PFuture => 3 <=? krank (fst s) | PWaited => 4 <=? krank (fst s) | PDestroy => 5 <=? krank (fst s)
  | PStart => 1 <=? jrank (snd s) | PTaskDone => 2 <=? jrank (snd s) | PSetBegin => 3 <=? jrank (snd s) | PReady => 4 <=? jrank (snd s) | PSetEnd => 5 <=? jrank (snd s)
  end.
Definition cinv (s : kpc * jpc) : Prop := (1 <= jrank (snd s) -> 2 <= krank (fst s)) /\ (4 <= krank (fst s) -> 4 <= jrank (snd s)).
Lemma crun_inv throws tr s : crun throws tr s -> cinv s /\ forall e, In e tr <-> erank e s = true.
Proof.
  intros H. induction H as [|tr s l s' H (I & IH) S].
  - split; [split; cbn; lia|]. intros e. destruct e; cbn; split; try contradiction; discriminate.
  - split.
    + destruct I as (I1 & I2). destruct S; unfold cinv in *; cbn in *; try (split; intros; lia).
      * destruct H0 as [-> | ->]; cbn in *; split; intros; lia.
      * split; intros; [|destruct k; cbn in *; lia]. destruct k; cbn in *; try congruence; lia.
    + intros e. rewrite in_app_iff, IH. destruct S; destruct e; cbn;
        try (destruct j as [| | | | | |]; cbn; intuition congruence); try (destruct k; cbn; intuition congruence).
Qed.
(** what had happened when an event happened *)
Lemma crun_at throws tr s : crun throws tr s -> forall l e l', tr = l ++ e :: l' -> exists s1 s2, crun throws l s1 /\ cstep throws s1 [e] s2.
Proof.
  intros H. induction H as [|tr s es s' H IH S]; intros l e l' D; [destruct l; discriminate|].
  assert (C : es = [] \/ exists x, es = [x]) by (destruct S; eauto).
  destruct C as [->|(x & ->)].
  - rewrite app_nil_r in D. exact (IH _ _ _ D).
  - destruct (exists_last (l := e :: l')) as (l2 & y & D2); [discriminate|].
    rewrite D2, app_assoc in D. apply app_inj_tail in D. destruct D as (D & ->).
    destruct l2 as [|x' l2]; cbn in D2; injection D2 as D3 D4.
    + rewrite app_nil_r in D. subst. eauto.
    + subst x'. exact (IH _ _ _ D).
Qed.
Lemma promise_begun throws tr s : crun throws tr s -> begun_while_it_exists tr.
Proof.
  intros H l e l' D B. destruct (crun_at _ _ _ H _ _ _ D) as (s1 & s2 & H1 & S). destruct (crun_inv _ _ _ H1) as ((I1 & I2) & I).
  rewrite !I. destruct B as [->|[->| ->]]; inversion S; subst; cbn in *; split; try discriminate; try reflexivity.
  - specialize (I1 ltac:(lia)). destruct k; cbn in *; try lia; reflexivity.
  - destruct k; cbn in *; try discriminate. specialize (I2 ltac:(lia)). lia.
Qed.
Lemma promise_ready throws tr s l l' : crun throws tr s -> tr = l ++ PDestroy :: l' -> In PTaskDone l /\ In PReady l /\ (l' = [] \/ l' = [PSetEnd]).
Proof.
  intros H D. destruct (crun_at _ _ _ H _ _ _ D) as (s1 & s2 & H1 & S). destruct (crun_inv _ _ _ H1) as ((I1 & I2) & I).
  inversion S; subst. cbn in *. specialize (I2 ltac:(lia)).
  assert (A : In PTaskDone l /\ In PReady l) by (rewrite !I; cbn; destruct j; cbn in *; try lia; split; reflexivity).
  destruct A as (A1 & A2). revert l' H.
  (* what can follow *)
  assert (F : forall tr2 s3, crun throws tr2 s3 -> forall l2, tr2 = l ++ PDestroy :: l2 ->
            fst s3 = KGone /\ ((l2 = [] /\ 4 <= jrank (snd s3)) \/ (l2 = [PSetEnd] /\ snd s3 = JDone))).
  { intros tr2 s3 H. induction H as [|tr2 s3 es s4 H IH S2]; intros l2 D2; [destruct l; discriminate|].
    assert (C : es = [] \/ exists x, es = [x]) by (destruct S2; eauto).
    destruct C as [->|(x & ->)].
    { rewrite app_nil_r in D2. destruct (IH _ D2) as (K & J). inversion S2; subst; cbn in *. destruct J as [(-> & J)|(_ & J)]; [lia|discriminate]. }
    destruct (exists_last (l := PDestroy :: l2)) as (l3 & y & D3); [discriminate|].
    rewrite D3, app_assoc in D2. apply app_inj_tail in D2. destruct D2 as (D2 & ->).
    destruct l3 as [|x' l3]; cbn in D3; injection D3 as D4 D5.
    - subst y l2. rewrite app_nil_r in D2. subst tr2. inversion S2; subst. split; [reflexivity|]. left. split; [reflexivity|].
      destruct (crun_inv _ _ _ H) as ((_ & J2) & _). cbn in *. apply J2. lia.
    - subst x'. destruct (IH _ D2) as (K & J). destruct s3 as (k3, j3). cbn in K. subst k3. cbn in J.
      destruct J as [(-> & J)|(-> & J)]; inversion S2; subst; cbn in *; try lia; try discriminate.
      split; [reflexivity|]. right. split; reflexivity. }
  intros l' H. destruct (F _ _ H l' eq_refl) as (_ & [(-> & _)|(-> & _)]); auto.
Qed.
(** a task that throws: the future never becomes ready, the promise is not destroyed, and nothing happens after the throw *)
Lemma promise_thrown tr s : crun true tr s -> ~ In PTaskDone tr /\ ~ In PReady tr /\ ~ In PDestroy tr /\ (snd s = JThrew -> forall l s', ~ cstep true s l s').
Proof.
  intros H. assert (J : snd s = JIdle \/ snd s = JTask \/ snd s = JThrew).
  { induction H as [|tr s l s' H IH S]; [left; reflexivity|]. destruct S; cbn in *; auto; try discriminate; destruct IH as [IH|[IH|IH]]; discriminate. }
  destruct (crun_inv _ _ _ H) as ((I1 & I2) & I). rewrite !I. destruct s as (k, j). cbn in *.
  split; [destruct J as [->|[->| ->]]; cbn; discriminate|]. split; [destruct J as [->|[->| ->]]; cbn; discriminate|].
  split; [destruct J as [->|[->| ->]]; cbn in *; destruct k; cbn in *; try discriminate; intros _; lia|].
  intros -> l s' S. inversion S; subst; cbn in *; try congruence; try lia; match goal with X : _ \/ _ |- _ => destruct X; discriminate end.
Qed.
Lemma promise_not_thrown tr s : crun false tr s -> snd s <> JThrew.
Proof. intros H. induction H as [|tr s l s' H IH S]; [discriminate|]. destruct S; cbn in *; congruence. Qed.
