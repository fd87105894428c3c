(** The true parts of C81, C83 and C84: time stamps of calls one after the other, a logging thread that sleeps,
    and buffers that are written before they are full. *)
From Coq Require Import List Bool Arith ZArith Lia Permutation.
From Verif Require Import Base ListUpdate LoggerModel LoggerSpec LoggerProofs LoggerAccount LoggerLive.
Import ListNotations.

Section Times.
Context {K M : Type} (ltb : K -> K -> bool).
Notation entry := (entry K M).
Notation event := (@event K M).
Notation logger := (@logger K M).
Notation step := (step ltb).
Notation exec := (exec ltb).
Implicit Types (s : logger) (tr : list event).

Lemma exec_split s0 a b s : exec s0 (a ++ b) s -> exists s1, exec s0 a s1 /\ exec s1 b s.
Proof.
  revert s. induction b as [|ev b IH] using rev_ind; intros s H.
  - rewrite app_nil_r in H. exists s. split; [exact H|constructor].
  - rewrite app_assoc in H. inversion H as [E|tr s1 e s2 H' S E]; [destruct (a ++ b); discriminate|].
    apply app_inj_tail in E. destruct E as [E1 E2]. subst. destruct (IH _ H') as (s3 & X1 & X2). exists s3. split; [exact X1|].
    econstructor; eauto.
Qed.
Lemma step_ids s e s' : step s e s' -> next_id s <= next_id s' /\ forall x, e = ECall x -> e_id x = next_id s.
Proof.
  intros H. cases H; cbn; (split; [try lia|intros y E; try discriminate E]).
  - injection E as <-. reflexivity.
  - destruct (should_log s x); discriminate.
  - destruct (add_frame ltb x s) as (_ & _ & _ & _ & _ & _ & _ & _ & F & _). rewrite F. lia.
  - destruct (accepts ltb x s); discriminate.
  - destruct (next_file ltb p (lfiles s)); discriminate.
Qed.
Lemma later_calls s0 tr s : exec s0 tr s -> next_id s0 <= next_id s /\ forall x, In (ECall x) tr -> next_id s0 <= e_id x.
Proof.
  intros H. induction H as [|tr s e s' H IH S]; [split; [lia|intros x []]|]. destruct IH as [I1 I2].
  destruct (step_ids _ _ _ S) as [S1 S2]. split; [lia|]. intros x Hx. apply in_app_or in Hx. destruct Hx as [Hx|[Hx|[]]]; [auto|].
  rewrite (S2 x Hx). exact I1.
Qed.
Lemma clock_mono clock (a b : list event) : forward clock (a ++ b) -> (clock_after clock a <= clock_after clock (a ++ b))%Z.
Proof.
  induction b as [|ev b IH] using rev_ind; intros F; [rewrite app_nil_r; lia|]. rewrite app_assoc in *.
  apply forward_snoc in F. destruct F as [F1 F2]. specialize (IH F1). rewrite clock_snoc. destruct ev; cbn in F2; lia.
Qed.
Lemma forward_prefix clock (a b : list event) : forward clock (a ++ b) -> forward clock a.
Proof.
  induction b as [|ev b IH] using rev_ind; intros F; [rewrite app_nil_r in F; exact F|]. rewrite app_assoc in F.
  apply forward_snoc in F. apply IH, F.
Qed.

Lemma separate_times_proof lvl max flush clock a e1 b e2 c s e0 :
  exec (initial lvl max flush clock) (a ++ EAccept e1 :: b ++ EAccept e2 :: c) s ->
  forward clock (a ++ EAccept e1 :: b ++ EAccept e2 :: c) ->
  In (ECall e0) b -> e_id e0 = e_id e2 -> (e_time e1 <= e_time e2)%Z.
Proof.
  intros H Fw Ic Id.
  set (P := a ++ [EAccept e1]).
  assert (E : a ++ EAccept e1 :: b ++ EAccept e2 :: c = (P ++ b) ++ EAccept e2 :: c).
  { unfold P. rewrite <- !app_assoc. reflexivity. }
  rewrite E in *. destruct (stamped_proof ltb _ _ _ _ _ _ _ _ _ H eq_refl) as (t0 & x & t1 & t2 & Ea & Es).
  apply exec_split in H. destruct H as (sb & H & _). apply exec_split in H. destruct H as (sp & Hp & Hb).
  pose proof (forward_prefix _ _ _ Fw) as Fb. pose proof (forward_prefix _ _ _ Fb) as Fp.
  destruct (later_calls _ _ _ Hb) as [_ Lc]. specialize (Lc _ Ic).
  assert (T1 : (e_time e1 <= clock_after clock P)%Z).
  { pose proof (exec_timed _ _ _ _ _ _ _ Hp Fp) as T. rewrite <- (t_now _ _ _ T). apply (t_past _ _ _ T).
    unfold P, accepted_entries. rewrite flat_map_app. apply in_or_app. right. left. reflexivity. }
  assert (Ln : length P <= length t0).
  { destruct (Nat.le_gt_cases (length P) (length t0)) as [L|L]; [exact L|exfalso].
    assert (Ix : In (EPass x) P).
    { assert (N : nth_error (P ++ b) (length t0) = Some (EPass x)).
      { rewrite Ea, nth_error_app2, Nat.sub_diag by lia. reflexivity. }
      rewrite nth_error_app1 in N by exact L. eapply nth_error_In; eauto. }
    destruct (exec_balance _ _ _ _ _ _ _ Hp) as [_ B2 _]. specialize (B2 (e_id x)).
    assert (Ip : 0 < cnt (passes P) (e_id x)) by (apply cnt_in, in_flat_map; exists (EPass x); split; [exact Ix|left; reflexivity]).
    destruct (Nat.ltb_spec (e_id x) (next_id sp)) as [L'|L']; [|lia].
    assert (e_id e2 = e_id x) by (rewrite Es; reflexivity). lia. }
  assert (Et : exists t0', t0 = P ++ t0').
  { exists (skipn (length P) t0). rewrite <- (firstn_skipn (length P) t0) at 1. f_equal.
    assert (F : firstn (length P) (P ++ b) = firstn (length P) (t0 ++ EPass x :: t1 ++ t2)) by (rewrite Ea; reflexivity).
    rewrite !firstn_app in F. replace (length P - length P) with 0 in F by lia. replace (length P - length t0) with 0 in F by lia.
    rewrite firstn_all in F. cbn in F. rewrite !app_nil_r in F. symmetry. exact F. }
  destruct Et as (t0' & ->). rewrite Es. cbn [e_time stamp]. etransitivity; [exact T1|].
  rewrite <- app_assoc. apply clock_mono. rewrite Ea in Fb. rewrite <- app_assoc in Fb.
  replace (P ++ t0' ++ EPass x :: t1 ++ t2) with ((P ++ t0' ++ EPass x :: t1) ++ t2) in Fb by (rewrite <- !app_assoc; reflexivity).
  exact (forward_prefix _ _ _ Fb).
Qed.

Hypothesis O : strict_total_order ltb.
Lemma asleep_proof lvl max flush clock tr s : exec (initial lvl max flush clock) tr s -> quiescent ltb s -> dtor s = DNone ->
  pc s = LWaiting /\ calls s = [] /\ pend s = 0.
Proof.
  intros H Q D. destruct (quiescent_pc _ _ Q) as ([P|P] & Hc & Hp); [auto|]. exfalso. apply (exec_exited _ O _ _ _ _ _ _ H P D).
Qed.
Lemma not_full_proof lvl max flush clock tr s k : exec_calm ltb (initial lvl max flush clock) tr s -> quiescent ltb s -> dtor s = DNone ->
  0 < max_size s -> flush_size s <= max_size s -> length (buffer ltb k (lfiles s)) < max_size s.
Proof.
  intros H Q D Pm L. destruct (Nat.lt_ge_cases (length (buffer ltb k (lfiles s))) (max_size s)) as [X|X]; [exact X|exfalso].
  apply (flushed_proof _ O _ _ _ _ _ _ k H Q D). split; [|lia]. intros E. rewrite E in X. cbn in X. lia.
Qed.
End Times.
