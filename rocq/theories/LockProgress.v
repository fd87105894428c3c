(** No deadlock: a program that follows the discipline of LockProofs.v, and in which only the main thread joins other
    threads, can go on until all threads have ended. *)
From Coq Require Import List Bool Arith Lia.
From Verif Require Import ListUpdate LockModel LockSpec LockProofs LockPool LockLogger.
Import ListNotations.

Section Progress.
Context {L : Type}.
Variables (body : kind -> stmt L) (public : nat -> stmt L).
(** only the main thread joins threads, and it does not join itself *)
Fixpoint joins (k : kind) (p : stmt L) : Prop :=
  match p with
  | Seq p q | Choice p q | IfFlag _ p q => joins k p /\ joins k q
  | Loop p => joins k p
  | Any f => forall n, joins k (f n)
  | Join k' => k = Main /\ k' <> Main
  | _ => True
  end.
Definition all_joins (s : state L) : Prop :=
  forall i t, nth_error (threads s) i = Some t -> Forall (joins (th_kind t)) (th_stack t).
Hypothesis body_joins : forall k, joins k (body k).
Hypothesis public_joins : forall k n, joins k (public n).

Lemma joins_put (s : state L) i k r g r' h f : all_joins s -> nth_error (threads s) i = Some (Th k r g) -> Forall (joins k) r' ->
  forall g', all_joins (St (update i (Th k r' g') (threads s)) h f).
Proof.
  intros H E F g' j t. cbn [threads]. destruct (Nat.eq_dec j i) as [->|N].
  - rewrite (update_same _ _ _ _ E). intros X. injection X as <-. exact F.
  - rewrite update_other by congruence. apply H.
Qed.
Lemma step_joins s i c s' : all_joins s -> step body public s i c = Some s' -> all_joins s'.
Proof.
  intros H St. unfold step in St. destruct (nth_error (threads s) i) as [[k [|p r] g]|] eqn:E; try discriminate.
  pose proof (H _ _ E) as F. cbn [th_kind th_stack] in F. inversion F as [|? ? Jp Jr]; subst.
  assert (P : forall r' h f g', Forall (joins k) r' -> all_joins (LockModel.St (update i (Th k r' g') (threads s)) h f))
    by (intros; eapply joins_put; eauto).
  destruct p; cbn [joins] in Jp;
    try (injection St as <-; apply P; try exact Jr; repeat constructor; tauto).
  - injection St as <-. apply P. destruct (c =? 0); constructor; tauto.
  - injection St as <-. apply P. destruct (c =? 0); repeat constructor; auto.
  - injection St as <-. apply P. constructor; auto.
  - injection St as <-. apply P. destruct c; repeat constructor; auto.
  - destruct (holder s m); [discriminate|]. injection St as <-. apply P. exact Jr.
  - destruct (owns s i m); [|discriminate]. injection St as <-. apply P. exact Jr.
  - destruct (owns s i m); [|discriminate]. injection St as <-. apply P. repeat constructor; auto.
  - injection St as <-. apply P. destruct (flags s n); constructor; tauto.
  - injection St as <-. intros j t. cbn [threads]. intros X. destruct (Nat.lt_ge_cases j (length (update i (Th k r g) (threads s)))) as [Lt|Ge].
    + rewrite nth_error_app1 in X by exact Lt. exact (P r (holder s) (flags s) g Jr j t X).
    + rewrite nth_error_app2 in X by exact Ge. destruct (j - _) as [|n]; cbn in X; [|destruct n; discriminate].
      injection X as <-. repeat constructor. apply body_joins.
  - destruct (forallb _ _); [|discriminate]. injection St as <-. apply P. exact Jr.
Qed.
Lemma run_joins l : forall s s', all_joins s -> run body public s l = Some s' -> all_joins s'.
Proof.
  induction l as [|[i c] l IH]; intros s s' H R; cbn in R.
  - injection R as <-. exact H.
  - destruct (step body public s i c) as [s1|] eqn:E; [|discriminate]. eauto using step_joins.
Qed.
Lemma initial_joins : all_joins (initial body).
Proof. intros [|[|i]] t X; cbn in X; try discriminate. injection X as <-. repeat constructor. apply (body_joins Main). Qed.

Definition is_join (p : stmt L) : bool := match p with Join _ => true | _ => false end.
Lemma head_goes_on s : (forall m i, holder s m = Some i -> exists s', step body public s i 0 = Some s') -> ~ misuse s ->
  forall i k p r g, nth_error (threads s) i = Some (Th k (p :: r) g) -> is_join p = false ->
  exists j s', step body public s j 0 = Some s'.
Proof.
  intros Ow Mi i k p r g E J.
  assert (N : next s i p) by (exists k, r, g; exact E).
  assert (D : forall x, step body public s i 0 = Some x -> exists j s', step body public s j 0 = Some s') by eauto.
  unfold step in D. rewrite E in D. destruct p; try discriminate; try (eapply D; reflexivity).
  - destruct (holder s m) as [j|] eqn:Hm; [|eapply D; reflexivity]. destruct (Ow _ _ Hm) as (s' & X). eauto.
  - destruct (owns s i m) eqn:O; [eapply D; reflexivity|]. exfalso. apply Mi. right. exists i, m. split; [auto|].
    intros X. unfold owns in O. rewrite X, Nat.eqb_refl in O. discriminate.
  - destruct (owns s i m) eqn:O; [eapply D; reflexivity|]. exfalso. apply Mi. right. exists i, m. split; [auto|].
    intros X. unfold owns in O. rewrite X, Nat.eqb_refl in O. discriminate.
Qed.
Lemma progress s : all_joins s -> (forall m i, holder s m = Some i -> exists s', step body public s i 0 = Some s') -> ~ misuse s ->
  forall i p, next s i p -> exists j s', step body public s j 0 = Some s'.
Proof.
  intros Jo Ow Mi i p (k & r & g & E). destruct (is_join p) eqn:J; [|eauto using head_goes_on].
  destruct p; try discriminate. rename k0 into k'.
  destruct (forallb (ended k') (threads s)) eqn:F.
  { exists i. unfold step. rewrite E, F. eauto. }
  assert (Ex : existsb (fun t => negb (ended k' t)) (threads s) = true).
  { clear - F. induction (threads s) as [|t l IH]; cbn in *; [discriminate|]. destruct (ended k' t); cbn in *; auto. }
  apply existsb_exists in Ex. destruct Ex as (t & In_t & Et). apply In_nth_error in In_t. destruct In_t as (j & Ej).
  destruct t as [k2 [|q r2] g2]; unfold ended in Et; cbn in Et.
  { rewrite orb_true_r in Et. discriminate. }
  pose proof (Jo _ _ E) as X. cbn in X. inversion X as [|? ? Hj _]; subst. destruct Hj as (_ & Nk).
  pose proof (Jo _ _ Ej) as Y. cbn in Y. inversion Y as [|? ? Hq _]; subst.
  eapply head_goes_on; eauto. destruct q; cbn; auto. exfalso. destruct Hq as (-> & _).
  destruct k'; cbn in Et; congruence.
Qed.
End Progress.

Lemma pool_joins ra de k : joins k (pool_body Skip ra de k).
Proof. destruct k, ra, de; cbn; repeat split; auto; discriminate. Qed.
Lemma pool_public_joins ra k n : joins k (pool_public Skip ra n).
Proof. unfold pool_public, pool_functions. do 14 try destruct n as [|n]; destruct ra; cbn; repeat split; auto; destruct n; exact I. Qed.
Lemma pool_goes_on l s i p :
  run (pool_body Skip true false) (pool_public Skip true) (initial (pool_body Skip true false)) l = Some s -> next s i p ->
  exists j s', step (pool_body Skip true false) (pool_public Skip true) s j 0 = Some s'.
Proof.
  intros R. apply progress.
  - eapply run_joins; [apply pool_joins|intros; apply pool_public_joins|apply initial_joins; apply pool_joins|exact R].
  - intros m j. apply (pool_owner_goes_on l); exact R.
  - eapply pool_no_misuse; exact R.
Qed.
Lemma log_joins k : joins k (log_body Skip k).
Proof. destruct k; cbn; repeat split; auto; discriminate. Qed.
Lemma log_public_joins k n : joins k (log_public Skip n).
Proof. unfold log_public, log_functions. do 5 try destruct n as [|n]; cbn; repeat split; auto; destruct n; exact I. Qed.
Lemma logger_goes_on l s i p : run (log_body Skip) (log_public Skip) (initial (log_body Skip)) l = Some s -> next s i p ->
  exists j s', step (log_body Skip) (log_public Skip) s j 0 = Some s'.
Proof.
  intros R. apply progress.
  - eapply run_joins; [apply log_joins|intros; apply log_public_joins|apply initial_joins; apply log_joins|exact R].
  - intros m j. apply (logger_owner_goes_on l); exact R.
  - eapply logger_no_misuse; exact R.
Qed.
