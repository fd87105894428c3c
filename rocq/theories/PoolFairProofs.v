(** Proofs about how long a task waits in the queue of the pool. *)
From Coq Require Import List Bool Arith ZArith Lia Permutation.
From Verif Require Import Base ListUpdate PoolModel PoolSpec PoolProofs PoolLive PoolStop PoolExamples.
Import ListNotations.

Section Fair.
Variable throws : nat -> bool.
Variable deps : nat -> list nat.
Notation step := (step throws deps).
Notation exec := (exec throws deps).

Lemma exec_event s0 tr s : exec s0 tr s -> forall l e l', tr = l ++ e :: l' -> exists s1 s2, exec s0 l s1 /\ step s1 e s2.
Proof.
  intros H. induction H as [|tr s x s' H IH S]; intros l e l' D; [destruct l; discriminate|].
  destruct (exists_last (l := e :: l')) as (l2 & y & D2); [discriminate|].
  rewrite D2, app_assoc in D. apply app_inj_tail in D. destruct D as (D & ->).
  destruct l2 as [|x' l2]; cbn in D2; injection D2 as D3 D4.
  - rewrite app_nil_r in D. subst. eauto.
  - subst x'. exact (IH _ _ _ D).
Qed.
Lemma given_more tr tr' t p : given_priority tr t p -> given_priority (tr ++ tr') t p.
Proof. intros [I|(z & I)]; [left|right; exists z]; apply in_or_app; auto. Qed.
Lemma given_some tr t : In t (givens tr) -> exists p, given_priority tr t p.
Proof.
  unfold givens. intros I. apply in_flat_map in I. destruct I as (e & Ie & It). destruct e; cbn in It; try contradiction; destruct It as [->|[]].
  - exists p. left. exact Ie.
  - exists p. right. exists at_. exact Ie.
Qed.
Lemma starts_split tr t : In t (starts tr) -> exists l w l', tr = l ++ EStart w t :: l'.
Proof.
  unfold starts. intros I. apply in_flat_map in I. destruct I as (e & Ie & It). destruct e; cbn in It; try contradiction. destruct It as [->|[]].
  apply in_split in Ie. destruct Ie as (l & l' & ->). eauto.
Qed.
Lemma before_more {A} (l l' : list A) x y : before l x y -> before (l ++ l') x y.
Proof. intros (a & b & c & ->). exists a, b, (c ++ l'). rewrite <- !app_assoc. cbn. rewrite <- app_assoc. reflexivity. Qed.

Lemma overtaken_proof n clock tr1 s1 tr2 s2 t p t' p' : exec (initial n clock) tr1 s1 -> exec s1 tr2 s2 ->
  In t (waiting_tasks s1) -> In t (waiting_tasks s2) -> given_priority (tr1 ++ tr2) t p ->
  In t' (starts tr2) -> given_priority (tr1 ++ tr2) t' p' -> (p < p')%Z \/ (p' = p /\ before (entries (tr1 ++ tr2)) t' t).
Proof.
  intros H1 H2 W1 W2 G I G'. pose proof (exec_app _ _ _ _ _ _ _ H1 H2) as H.
  pose proof (proj1 (entered_not_started _ _ _ _ _ _ t H1) W1) as (E1 & N1).
  pose proof (proj1 (entered_not_started _ _ _ _ _ _ t H) W2) as (E2 & N2).
  destruct (starts_split _ _ I) as (l & w & l' & D). destruct (exec_event _ _ _ H2 _ _ _ D) as (s & s' & Hl & S).
  pose proof (exec_app _ _ _ _ _ _ _ H1 Hl) as Hs.
  assert (Gt : exists q, given_priority (tr1 ++ l) t q).
  { apply given_some. destruct (places_proof _ _ _ _ _ _ Hs) as (Pl & _). apply (Permutation_in _ Pl). apply in_or_app. right. apply in_or_app. left.
    apply (entered_not_started _ _ _ _ _ _ t Hs). split; [unfold entries; rewrite flat_map_app; apply in_or_app; left; exact E1|].
    intros X. apply N2. rewrite D. unfold starts in *. rewrite !flat_map_app in *. apply in_app_or in X. apply in_or_app. destruct X as [X|X]; [left; exact X|].
    right. apply in_or_app. left. exact X. }
  assert (Nt : ~ In t (starts (tr1 ++ l))).
  { intros X. apply N2. rewrite D. unfold starts in *. rewrite !flat_map_app in *. apply in_app_or in X. apply in_or_app. destruct X as [X|X]; [left; exact X|].
    right. apply in_or_app. left. exact X. }
  assert (Et : In t (entries (tr1 ++ l))) by (unfold entries; rewrite flat_map_app; apply in_or_app; left; exact E1).
  assert (Gt' : exists q, given_priority (tr1 ++ l) t' q).
  { apply given_some. pose proof (exec_snoc _ _ _ _ _ _ _ Hs S) as Hs'. destruct (places_proof _ _ _ _ _ _ Hs') as (Pl & _ & PS & _).
    assert (X : In t' (givens ((tr1 ++ l) ++ [EStart w t']))).
    { apply (Permutation_in _ Pl). apply in_or_app. right. apply in_or_app. right. apply (Permutation_in _ PS).
      unfold starts. rewrite flat_map_app. apply in_or_app. right. left. reflexivity. }
    unfold givens in X. rewrite flat_map_app in X. cbn in X. rewrite app_nil_r in X. exact X. }
  destruct Gt as (q & Gq). destruct Gt' as (q' & Gq').
  assert (Dq : tr1 ++ tr2 = (tr1 ++ l) ++ EStart w t' :: l') by (rewrite D, app_assoc; reflexivity).
  assert (q = p) by (apply (priority_once _ _ _ t q p (exec_invT _ _ _ _ _ _ H)); [rewrite Dq; apply given_more; exact Gq|exact G]).
  assert (q' = p') by (apply (priority_once _ _ _ t' q' p' (exec_invT _ _ _ _ _ _ H)); [rewrite Dq; apply given_more; exact Gq'|exact G']).
  subst q q'.
  assert (Ne : t <> t').
  { intros ->. apply N2. unfold starts. rewrite flat_map_app. apply in_or_app. right. exact I. }
  destruct (start_order_proof _ _ _ _ _ _ _ _ _ _ _ _ Hs S Gq' Et Nt Gq Ne) as [X|(X & Y & _)]; [left; exact X|].
  right. split; [symmetry; exact X|]. rewrite Dq. unfold entries in *. rewrite flat_map_app. apply before_more. exact Y.
Qed.
Lemma overtaken_bound n clock tr1 s1 tr2 s2 t p L : exec (initial n clock) tr1 s1 -> exec s1 tr2 s2 ->
  In t (waiting_tasks s1) -> In t (waiting_tasks s2) -> given_priority (tr1 ++ tr2) t p ->
  (forall t' p', given_priority (tr1 ++ tr2) t' p' -> (p < p')%Z \/ (p' = p /\ before (entries (tr1 ++ tr2)) t' t) -> In t' L) ->
  length (starts tr2) <= length L.
Proof.
  intros H1 H2 W1 W2 G F. pose proof (exec_app _ _ _ _ _ _ _ H1 H2) as H.
  destruct (places_proof _ _ _ _ _ _ H) as (Pl & _ & PS & _ & N & _).
  apply NoDup_incl_length.
  - unfold starts in N. rewrite flat_map_app in N. revert N. generalize (flat_map started tr1). intros l.
    induction l as [|x l IH]; cbn; intros N; [exact N|]. inversion N; auto.
  - intros t' I. destruct (given_some (tr1 ++ tr2) t') as (p' & G').
    { apply (Permutation_in _ Pl). apply in_or_app. right. apply in_or_app. right. apply (Permutation_in _ PS).
      unfold starts. rewrite flat_map_app. apply in_or_app. right. exact I. }
    apply (F t' p' G'). exact (overtaken_proof _ _ _ _ _ _ _ _ _ _ H1 H2 W1 W2 G I G').
Qed.
End Fair.

(** one worker; a task of priority 0 waits while tasks of priority 1 come and go *)
Definition hungry (s : pool) : Prop := status s = Alive /\ waiting s = [(0%Z, 0)] /\ (exists t, workers s = [WAfter t]) /\ dtor s = DNone /\
  stopping s = false /\ target s = 1.
Lemma hungry_start : exists tr s, exec no_throw no_deps (initial 1 0) (ESubmit 0 0 :: tr) s /\ length (starts tr) = 1 /\ hungry s.
Proof.
  pose proof (exec_nil no_throw no_deps (initial 1 0)) as E.
  eapply exec_snoc in E; [|split; [reflexivity|left; eapply (c_run_async _ 0%Z); left; reflexivity]].
  eapply exec_snoc in E; [|split; [reflexivity|left; eapply (c_run_async _ 1%Z); left; reflexivity]].
  eapply exec_snoc in E; [|split; [reflexivity|right; left; eapply (i_work _ _ _ 0); [reflexivity|exact I]]].
  eapply exec_snoc in E; [|split; [reflexivity|right; left; eapply (i_finish _ _ _ 0); [reflexivity|reflexivity|intros x []]]].
  do 2 eexists. split; [exact E|]. split; [reflexivity|]. split; [reflexivity|]. split; [reflexivity|]. split; [eexists; reflexivity|]. repeat split.
Qed.
Lemma hungry_step s : hungry s -> exists tr s', exec no_throw no_deps s tr s' /\ length (starts tr) = 1 /\ hungry s'.
Proof.
  destruct s as [st ws wt sc scs so os sp tg ac p1 pa ps psp pas al no sy co dt nw nx]. unfold hungry. cbn. intros (-> & -> & (t & ->) & -> & -> & ->).
  match goal with |- exists tr s', exec _ _ ?s _ _ /\ _ => pose proof (exec_nil no_throw no_deps s) as E end.
  eapply exec_snoc in E; [|split; [reflexivity|left; eapply (c_run_async _ 1%Z); left; reflexivity]].
  eapply exec_snoc in E; [|split; [reflexivity|right; left; eapply (i_work _ _ _ 0); [reflexivity|exact I]]].
  eapply exec_snoc in E; [|split; [reflexivity|right; left; eapply (i_finish _ _ _ 0); [reflexivity|reflexivity|intros x []]]].
  do 2 eexists. split; [exact E|]. split; [reflexivity|]. split; [reflexivity|]. split; [reflexivity|]. split; [eexists; reflexivity|]. repeat split.
Qed.
Lemma starved n : exists tr s, exec no_throw no_deps (initial 1 0) (ESubmit 0 0 :: tr) s /\ length (starts tr) = S n /\ In 0 (waiting_tasks s) /\
  length (running s) = 0 /\ target s = 1.
Proof.
  assert (X : exists tr s, exec no_throw no_deps (initial 1 0) (ESubmit 0 0 :: tr) s /\ length (starts tr) = S n /\ hungry s).
  { induction n as [|n (tr & s & E & L & Hs)]; [exact hungry_start|]. destruct (hungry_step s Hs) as (tr' & s' & E' & L' & H').
    exists (tr ++ tr'), s'. split; [exact (exec_app _ _ _ _ _ _ _ E E')|]. split; [|exact H']. unfold starts in *. rewrite flat_map_app, app_length. lia. }
  destruct X as (tr & s & E & L & (_ & W & (t & Ws) & _ & _ & T)). exists tr, s. split; [exact E|]. split; [exact L|]. split; [unfold waiting_tasks; rewrite W; left; reflexivity|].
  split; [unfold running; rewrite Ws; reflexivity|exact T].
Qed.
(** two tasks of priority 5 before one of priority 0 *)
Lemma overtaken_execution : exists s1 s2, exec no_throw no_deps (initial 1 0) [ESubmit 0 0; ESubmit 1 5] s1 /\
  exec no_throw no_deps s1 [ESubmit 2 5; EStart 0 1; EFinish 1; EStart 0 2] s2 /\ In 0 (waiting_tasks s1) /\ In 0 (waiting_tasks s2).
Proof.
  pose proof (exec_nil no_throw no_deps (initial 1 0)) as E.
  eapply exec_snoc in E; [|split; [reflexivity|left; eapply (c_run_async _ 0%Z); left; reflexivity]].
  eapply exec_snoc in E; [|split; [reflexivity|left; eapply (c_run_async _ 5%Z); left; reflexivity]].
  match type of E with exec _ _ _ _ ?s => pose proof (exec_nil no_throw no_deps s) as F end.
  eapply exec_snoc in F; [|split; [reflexivity|left; eapply (c_run_async _ 5%Z); left; reflexivity]].
  eapply exec_snoc in F; [|split; [reflexivity|right; left; eapply (i_work _ _ _ 0); [reflexivity|exact I]]].
  eapply exec_snoc in F; [|split; [reflexivity|right; left; eapply (i_finish _ _ _ 0); [reflexivity|reflexivity|intros x []]]].
  eapply exec_snoc in F; [|split; [reflexivity|right; left; eapply (i_work _ _ _ 0); [reflexivity|exact I]]].
  do 2 eexists. split; [exact E|]. split; [exact F|]. split; cbn; auto.
Qed.
