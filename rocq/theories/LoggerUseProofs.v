From Coq Require Import List Bool Arith ZArith Lia Permutation.
From Verif Require Import Base ListUpdate LoggerModel LoggerSpec LoggerProofs LoggerAccount LoggerLive LoggerUseModel LoggerUseSpec.
Import ListNotations.

Section Use.
Context {K M : Type} (ltb : K -> K -> bool).
Hypothesis O : strict_total_order ltb.
Notation entry := (entry K M).
Notation event := (@event K M).
Notation logger := (@logger K M).
Notation step := (step ltb).
Notation exec := (exec ltb).
Implicit Types (s : logger) (tr : list event).

Lemma nodup_left {A} (l l' : list A) : NoDup (l ++ l') -> NoDup l.
Proof.
  induction l as [|x l IH]; intros H; [constructor|]. inversion H as [|y m N H']; subst. constructor; [|auto].
  intros Hi. apply N. apply in_or_app. auto.
Qed.
Lemma nodup_right {A} (l l' : list A) : NoDup (l ++ l') -> NoDup l'.
Proof. induction l as [|x l IH]; intros H; [exact H|]. inversion H. auto. Qed.

(** * is_logging *)
Lemma is_logging_proof lvl max flush clock tr s : exec (initial lvl max flush clock) tr s ->
  (is_logging s = true <-> dtor s = DNone) /\ (is_logging s = true -> thread_runs s).
Proof.
  intros H. pose proof (exec_inv ltb O _ _ _ _ _ _ H) as J. pose proof (j_logging _ _ _ _ _ J) as L.
  split; [exact L|]. intros Q P. apply (exec_exited ltb O _ _ _ _ _ _ H P). apply L. exact Q.
Qed.

(** * The strings of the source *)
Lemma in_written tr k e : In (EWrite k e) tr -> In e (written_to ltb k tr).
Proof.
  intros H. apply in_flat_map. exists (EWrite k e). split; [exact H|]. cbn. rewrite (equivb_refl ltb O). left. reflexivity.
Qed.
Lemma written_accepted lvl max flush clock tr s k e : exec (initial lvl max flush clock) tr s -> In (EWrite k e) tr ->
  In (EAccept e) tr /\ e_file e = k.
Proof.
  intros H Hi. destruct (prefix_proof ltb O _ _ _ _ _ _ k H) as [r E]. apply in_written in Hi.
  assert (A : In e (accepted_for ltb k tr)) by (rewrite E; apply in_or_app; auto).
  apply in_flat_map in A. destruct A as (ev & A & B). destruct ev; try contradiction. cbn in B. unfold same_file in B.
  destruct (equivb ltb k (e_file e0)) eqn:Q; [|contradiction]. destruct B as [->|[]]. apply (equivb_true ltb O) in Q. auto.
Qed.
Lemma accepted_once lvl max flush clock tr s : exec (initial lvl max flush clock) tr s -> NoDup (acceptances tr).
Proof.
  intros H. destruct (counted_proof ltb _ _ _ _ _ _ H) as (N & P & _). apply (Permutation_NoDup P) in N.
  apply nodup_left in N. exact N.
Qed.
Lemma acceptances_in tr e : In (EAccept e) tr -> In (e_id e) (acceptances tr).
Proof. intros H. apply in_flat_map. exists (EAccept e). split; [exact H|left; reflexivity]. Qed.
Lemma same_id tr e e' : NoDup (acceptances tr) -> In (EAccept e) tr -> In (EAccept e') tr -> e_id e = e_id e' -> e = e'.
Proof.
  induction tr as [|ev tr IH]; intros N H H' E; [destruct H|].
  change (acceptances (ev :: tr)) with (accepted ev ++ acceptances tr) in N.
  destruct H as [->|H], H' as [H'|H'].
  - injection H' as ->. reflexivity.
  - cbn in N. inversion N as [|x l A B]. exfalso. apply A. rewrite E. apply acceptances_in. exact H'.
  - subst. cbn in N. inversion N as [|x l A B]. exfalso. apply A. rewrite <- E. apply acceptances_in. exact H.
  - apply IH; auto. eapply nodup_right. exact N.
Qed.
Lemma ids_once k tr : NoDup (acceptances tr) -> NoDup (map e_id (accepted_for ltb k tr)).
Proof.
  induction tr as [|ev tr IH]; intros N; [constructor|].
  change (acceptances (ev :: tr)) with (accepted ev ++ acceptances tr) in N.
  change (accepted_for ltb k (ev :: tr)) with (accepted_in ltb k ev ++ accepted_for ltb k tr).
  rewrite map_app. specialize (IH (nodup_right _ _ N)). destruct ev; cbn; auto.
  destruct (same_file ltb k e); [|exact IH]. cbn. cbn in N. inversion N as [|x l A B]; subst. constructor; [|exact IH].
  intros Hi. apply in_map_iff in Hi. destruct Hi as (e' & E & Hi). apply in_flat_map in Hi. destruct Hi as (ev & Hi & Hj).
  destruct ev; try contradiction. cbn in Hj. destruct (same_file ltb k e0); [|contradiction]. destruct Hj as [->|[]].
  apply A. rewrite <- E. apply acceptances_in. exact Hi.
Qed.
(** after the last event of the destructor nothing is written *)
Lemma step_destroyed s ev s' : step s ev s' -> ev = EDestroyed -> dtor s' = DDone.
Proof.
  intros H E. cases H; try discriminate E; cbn; auto.
  - destruct (should_log s x); discriminate E.
  - destruct (accepts ltb x s); discriminate E.
  - destruct (next_file ltb p (lfiles s)) as [[k b]|]; [discriminate E|reflexivity].
Qed.
Lemma step_done A W ok s ev s' : inv ltb A W ok s -> dtor s = DDone -> step s ev s' -> dtor s' = DDone /\ reads ev = [].
Proof.
  intros J Dd H. pose proof (j_exited _ _ _ _ _ J) as X. rewrite Dd in X.
  destruct (j_calls _ _ _ _ _ J ltac:(congruence)) as [Jc Jp].
  cases H; try congruence; try (rewrite Hc in Jc; destruct l1; discriminate); cbn; auto.
Qed.
Lemma done_later A W ok s0 tr s : inv ltb A W ok s0 -> dtor s0 = DDone -> exec s0 tr s ->
  dtor s = DDone /\ (forall k e, ~ In (EWrite k e) tr) /\ exists A' W' ok', inv ltb A' W' ok' s.
Proof.
  intros J D H. induction H as [|tr s e s' H IH S]; [split; [exact D|split; [intros k e []|eauto]]|].
  destruct IH as (D1 & N & A' & W' & ok' & J'). destruct (step_done _ _ _ _ _ _ J' D1 S) as [D2 R]. split; [exact D2|]. split.
  - intros k x Hi. apply in_app_or in Hi. destruct Hi as [Hi|[->|[]]]; [eapply N; eauto|discriminate R].
  - do 3 eexists. eapply (step_inv ltb O); eauto.
Qed.
Lemma exec_split s0 a b s : exec s0 (a ++ b) s -> exists s1, exec s0 a s1 /\ exec s1 b s.
Proof.
  revert s. induction b as [|x b IH] using rev_ind; intros s H.
  - rewrite app_nil_r in H. exists s. split; [exact H|constructor].
  - rewrite app_assoc in H. inversion H as [E|tr s1 e s' H1 H2 E]; [destruct a, b; discriminate|].
    apply app_inj_tail in E. destruct E as [-> ->]. destruct (IH _ H1) as (s2 & A & B). exists s2. split; [exact A|]. econstructor; eauto.
Qed.
Lemma in_count (x : nat) l : In x l -> 0 < cnt l x.
Proof. intros H. apply (count_occ_In Nat.eq_dec). exact H. Qed.
(** once a call is over, no step reads its strings *)
Lemma over_unread lvl max flush clock a b s i k e : exec (initial lvl max flush clock) (a ++ b) s ->
  over i a -> In (EWrite k e) b -> e_id e <> i.
Proof.
  intros H Ov Hi Ei. assert (Hw : In (EWrite k e) (a ++ b)) by (apply in_or_app; auto).
  destruct (written_accepted _ _ _ _ _ _ _ _ H Hw) as [Ac Ef]. pose proof (acceptances_in _ _ Ac) as Ai. rewrite Ei in Ai.
  destruct (exec_balance ltb _ _ _ _ _ _ H) as [B1 B2 _]. specialize (B1 i). specialize (B2 i).
  apply in_count in Ai.
  destruct Ov as [Ov|[Ov|[Ov|Ov]]].
  - assert (R : In i (rejects (a ++ b))). { unfold rejects. rewrite flat_map_app. apply in_or_app. auto. }
    apply in_count in R. destruct (i <? next_id s); lia.
  - assert (R : In i (discards (a ++ b))). { unfold discards. rewrite flat_map_app. apply in_or_app. auto. }
    apply in_count in R. destruct (i <? next_id s); lia.
  - destruct Ov as (k' & e' & Hj & Ej). assert (Hw' : In (EWrite k' e') (a ++ b)) by (apply in_or_app; auto).
    destruct (written_accepted _ _ _ _ _ _ _ _ H Hw') as [Ac' Ef']. pose proof (accepted_once _ _ _ _ _ _ H) as N.
    assert (e' = e) by (eapply same_id; eauto; congruence). subst e'. assert (k' = k) by congruence. subst k'.
    apply (ids_once k) in N. destruct (prefix_proof ltb O _ _ _ _ _ _ k H) as [r E]. rewrite E in N. rewrite map_app in N.
    apply nodup_left in N. unfold written_to in N. rewrite flat_map_app, map_app in N.
    apply in_written in Hj, Hi. apply (in_map e_id) in Hj, Hi.
    apply in_split in Hj. destruct Hj as (x & y & E1). unfold written_to in E1. rewrite Ef in E1. rewrite E1 in N. rewrite <- app_assoc in N. cbn in N.
    apply NoDup_remove_2 in N. apply N. rewrite !in_app_iff. auto.
  - destruct (exec_split _ _ _ _ H) as (s1 & H1 & H2).
    assert (D : dtor s1 = DDone).
    { apply in_split in Ov. destruct Ov as (x & y & ->). replace (x ++ EDestroyed :: y) with ((x ++ [EDestroyed]) ++ y) in H1 by (rewrite <- app_assoc; reflexivity).
      destruct (exec_split _ _ _ _ H1) as (s2 & H3 & H4). inversion H3 as [E|tr s3 ev s4 H5 S E]; [destruct x; discriminate|].
      apply app_inj_tail in E. destruct E as [-> ->]. subst s4.
      pose proof (exec_inv ltb O _ _ _ _ _ _ H3) as J. apply (done_later _ _ _ _ _ _ J (step_destroyed _ _ _ S eq_refl) H4). }
    destruct (done_later _ _ _ _ _ _ (exec_inv ltb O _ _ _ _ _ _ H1) D H2) as (_ & N & _). apply (N k e Hi).
Qed.
Lemma patient_proof lvl max flush clock h s : exec (initial lvl max flush clock) (events h) s -> patient h -> ~ reads_released h.
Proof.
  intros H P (a & i & b & ev & c & E & R). pose proof (P _ _ _ E) as Ov. destruct ev; try contradiction R. destruct R as [R|[]].
  subst h. unfold events in H. rewrite flat_map_app in H. cbn in H. rewrite flat_map_app in H. cbn in H.
  refine (over_unread _ _ _ _ _ _ _ i k e H Ov _ R). apply in_or_app. right. left. reflexivity.
Qed.

(** * Strings of accepted entries are needed *)
(** a logger that is not quiescent can make a step *)
Lemma progress s : quiescent ltb s \/ exists ev s', internal ltb s ev s'.
Proof.
  assert (P : (exists ev s', internal ltb s ev s') \/ (pc s = LWaiting \/ pc s = LExited)).
  { destruct (pc s) eqn:E; auto; left; do 2 eexists.
    - eapply l_start; eauto. - eapply l_check; eauto. - eapply l_wait; auto. - eapply l_woken; auto. - eapply l_scan; eauto.
    - eapply l_open; eauto.
    - instantiate (1 := match todo with [] => set_pc (LRelock k n) s | e :: t => set_pc (LWrite k t (S n)) s end).
      instantiate (1 := match todo with [] => ETau | e :: t => EWrite k e end). destruct todo; [eapply l_written|eapply l_write]; eauto.
    - eapply l_erase; eauto. }
  destruct P as [P|P]; [auto|].
  destruct (calls s) as [|[x|x|x|x] l] eqn:E.
  2: right; do 2 eexists; apply (p_check ltb s x [] l E).
  2: right; do 2 eexists; apply (p_time ltb s x [] l E).
  2: right; do 2 eexists; apply (p_add ltb s x [] l E); destruct P as [->| ->]; reflexivity.
  2: right; do 2 eexists; apply (p_notify ltb s x [] l E).
  destruct (pend s) eqn:Ep. 2: right; do 2 eexists; eapply f_notify; eauto.
  destruct (dtor s) eqn:D.
  - left. intros ev s' H. destruct H as [y l1 l2 Hc|y l1 l2 Hc|y l1 l2 Hc Hh|y l1 l2 Hc|m Hn|P'|sw P'|P'|P'|sw p P'|k todo P'|k y todo m P'|k m P'|k m P'
                  |D'|D' P'|p D'|k todo D'|k y todo D'|k D']; try (rewrite Hc in E; destruct l1; discriminate); try congruence;
                  destruct P as [P|P]; congruence.
  - right. do 2 eexists. apply d_notify. exact D.
  - destruct P as [P|P].
    + left. intros ev s' H. destruct H as [y l1 l2 Hc|y l1 l2 Hc|y l1 l2 Hc Hh|y l1 l2 Hc|m Hn|P'|sw P'|P'|P'|sw p P'|k todo P'|k y todo m P'|k m P'|k m P'
                  |D'|D' P'|p D'|k todo D'|k y todo D'|k D']; try (rewrite Hc in E; destruct l1; discriminate); congruence.
    + right. do 2 eexists. apply d_join; auto.
  - right. do 2 eexists. eapply d_flush; eauto.
  - right. do 2 eexists. eapply d_open; eauto.
  - destruct todo; right; do 2 eexists; [eapply d_written|eapply d_write]; eauto.
  - left. intros ev s' H. destruct H as [y l1 l2 Hc|y l1 l2 Hc|y l1 l2 Hc Hh|y l1 l2 Hc|m Hn|P'|sw P'|P'|P'|sw p P'|k todo P'|k y todo m P'|k m P'|k m P'
                  |D'|D' P'|p D'|k todo D'|k y todo D'|k D']; try (rewrite Hc in E; destruct l1; discriminate); try congruence;
                  destruct P as [P|P]; congruence.
Qed.
Definition quiet_trace tr : Prop := forall k, ~ In (EFail k) tr.
Lemma internal_no_fail s ev s' k : internal ltb s ev s' -> ev <> EFail k.
Proof.
  intros H. destruct H; try discriminate.
  - destruct (should_log s e); discriminate.
  - destruct (accepts ltb e s); discriminate.
  - destruct (next_file ltb p (lfiles s)); discriminate.
Qed.
Lemma internal_destroy s ev s' : internal ltb s ev s' -> dtor s = DNone -> dtor s' = DNone.
Proof.
  intros H D. destruct H; cbn; auto; try congruence. destruct (add_frame ltb e s) as (_ & F & _). rewrite F. exact D.
Qed.
Lemma settle s : live ltb s -> exists tr s', exec s tr s' /\ quiescent ltb s' /\ quiet_trace tr /\ (dtor s = DNone -> dtor s' = DNone).
Proof.
  intros L. remember (room s) as C eqn:HC. assert (R : room s <= C) by lia. clear HC.
  remember (measure ltb C s) as m eqn:Hm. revert s L R Hm. induction m as [m IH] using lt_wf_ind. intros s L R Hm.
  destruct (progress s) as [Q|(ev & s1 & S)].
  - exists [], s. split; [constructor|]. split; [exact Q|]. split; [intros k []|auto].
  - destruct (step_measure ltb O C s ev s1 L R S) as [Lt R1].
    assert (L1 : live ltb s1) by (eapply (step_live ltb O); eauto; right; left; exact S).
    destruct (IH (measure ltb C s1) ltac:(lia) s1 L1 R1 eq_refl) as (tr & s2 & H & Q & N & D).
    exists ([ev] ++ tr), s2. split; [|split; [exact Q|split]].
    + eapply (exec_app ltb); [|exact H]. change [ev] with ([] ++ [ev]). econstructor; [constructor|]. right; left; exact S.
    + intros k [E|Hi]; [exact (internal_no_fail _ _ _ _ S E)|exact (N k Hi)].
    + intros D0. apply D. eapply internal_destroy; eauto.
Qed.
Lemma needed_proof lvl max flush clock tr s e : exec (initial lvl max flush clock) tr s -> dtor s = DNone ->
  In (EAccept e) tr -> ~ written_call (e_id e) tr ->
  exists tr' s' k, exec s tr' s' /\ In (EWrite k e) tr'.
Proof.
  intros H D Ac Nw. destruct (settle s (exec_live ltb O _ _ _ _ _ _ H)) as (tr1 & s1 & H1 & Q1 & N1 & D1). specialize (D1 D).
  pose proof (exec_app ltb _ _ _ _ _ H H1) as E1. destruct (quiescent_pc ltb s1 Q1) as (P1 & Hc & Hp).
  assert (P : pc s1 <> LExited). { intros P. exact (exec_exited ltb O _ _ _ _ _ _ E1 P D1). }
  set (s2 := set_dtor DStopped (set_logging false s1)).
  assert (S2 : step s1 EDestroy s2) by (left; constructor; auto).
  set (s3 := set_dtor DNotified (set_pc (wake (pc s2)) s2)).
  assert (S3 : step s2 EWakeAll s3) by (right; left; apply d_notify; reflexivity).
  assert (E3 : exec (initial lvl max flush clock) ((tr ++ tr1) ++ [EDestroy]) s2) by (econstructor; eauto).
  assert (E4 : exec (initial lvl max flush clock) (((tr ++ tr1) ++ [EDestroy]) ++ [EWakeAll]) s3) by (econstructor; eauto).
  destruct (settle s3 (exec_live ltb O _ _ _ _ _ _ E4)) as (tr4 & s4 & H4 & Q4 & N4 & _).
  assert (D4 : dtor s4 = DDone).
  { eapply (destroyed_proof ltb O); [exact E3|exact S3| |exact H4|exact Q4]. cbn. destruct P1; congruence. }
  assert (H5 : exec s2 (EWakeAll :: tr4) s4).
  { change (EWakeAll :: tr4) with ([EWakeAll] ++ tr4). eapply (exec_app ltb); [|exact H4]. change [EWakeAll] with ([] ++ [@EWakeAll K M]). econstructor; [constructor|exact S3]. }
  assert (W : written_to ltb (e_file e) ((tr ++ tr1) ++ EDestroy :: EWakeAll :: tr4) = accepted_for ltb (e_file e) ((tr ++ tr1) ++ EDestroy :: EWakeAll :: tr4)).
  { eapply (all_written_proof ltb O); eauto. intros [Hi|Hi]; [discriminate|exact (N4 _ Hi)]. }
  assert (Hi : In e (written_to ltb (e_file e) ((tr ++ tr1) ++ EDestroy :: EWakeAll :: tr4))).
  { rewrite W. apply in_flat_map. exists (EAccept e). split; [rewrite !in_app_iff; auto|]. cbn. unfold same_file. rewrite (equivb_refl ltb O). left. reflexivity. }
  apply in_flat_map in Hi. destruct Hi as (ev & Hi & Hj). destruct ev; try contradiction. cbn in Hj.
  destruct (equivb ltb (e_file e) k); [|contradiction]. destruct Hj as [->|[]].
  exists (tr1 ++ EDestroy :: EWakeAll :: tr4), s4, k. split.
  - eapply (exec_app ltb); [exact H1|]. change (EDestroy :: EWakeAll :: tr4) with ([EDestroy] ++ (EWakeAll :: tr4)).
    eapply (exec_app ltb); [|exact H5]. change [EDestroy] with ([] ++ [@EDestroy K M]). econstructor; [constructor|exact S2].
  - rewrite <- app_assoc in Hi. apply in_app_or in Hi. destruct Hi as [Hi|Hi]; [|exact Hi].
    exfalso. apply Nw. exists k, e. auto.
Qed.
End Use.
