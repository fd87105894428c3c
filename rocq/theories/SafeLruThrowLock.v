(** The lock of safe_lru_cache whatever the calls do: throw anywhere, use an order that is not one, or be undefined. *)
From Coq Require Import List Bool Arith Lia.
From Verif Require Import Base LruApi LruModel ListUpdate SafeLruModel SafeLruThrowModel SafeLruThrowSpec.
Import ListNotations.

Section Proofs.
Context {K V : Type} (ltb : K -> K -> bool).
Notation op := (lru_op K V * faults)%type.
Notation res := (option (lru_res V)).
Variable programs : list (list op).
Variable cap : nat.
Notation step := (step ltb programs).
Notation exec := (exec ltb programs cap).
Notation pc := (pc (K:=K) (V:=V)).
Notation sys := (sys (K:=K) (V:=V)).

(** the thread holds the lock in the given way; one whose call was undefined may hold it in any way *)
Definition must_hold (p : pc) (l : lock_kind) : Prop :=
  match p with Locked o | Body o _ | Finished o _ => lock_of o = l | _ => False end.
Definition may_hold (p : pc) (l : lock_kind) : Prop :=
  match p with Locked o | Body o _ | Finished o _ => lock_of o = l | Crashed => True | _ => False end.

Record linv (s : sys) : Prop := {
  l_len : length (threads s) = length programs;
  l_writer : forall t, writer s = Some t -> readers s = [] /\
    exists k p, nth_error (threads s) t = Some (Th k p) /\ may_hold p Exclusive;
  l_lock : forall t k p, nth_error (threads s) t = Some (Th k p) ->
    (must_hold p Exclusive -> writer s = Some t) /\ (must_hold p Shared -> In t (readers s));
  l_readers : forall t, In t (readers s) ->
    exists k p, nth_error (threads s) t = Some (Th k p) /\ may_hold p Shared;
  l_calls : forall t k p, nth_error (threads s) t = Some (Th k p) -> exists pr, nth_error programs t = Some pr /\
    k <= length pr /\ (p <> Idle -> k < length pr)
}.

Lemma linv_init : linv (initial programs cap).
Proof.
  assert (T : forall t k p, nth_error (threads (initial programs cap)) t = Some (Th (K:=K) (V:=V) k p) ->
    k = 0 /\ p = Idle /\ exists pr, nth_error programs t = Some pr).
  { intros t k p H. simpl in H. destruct (nth_error programs t) as [pr|] eqn:E.
    - rewrite (map_nth_error _ _ _ E) in H. injection H as <- <-. eauto.
    - exfalso. apply nth_error_None in E. assert (N : nth_error (map (fun _ : list op => Th (K:=K) (V:=V) 0 Idle) programs) t = None)
        by (apply nth_error_None; rewrite map_length; exact E). congruence. }
  constructor; simpl; try (intros; contradiction).
  - apply map_length.
  - discriminate.
  - intros t k p H. apply T in H. destruct H as (_ & -> & _). simpl. split; intros [].
  - intros t k p H. apply T in H. destruct H as (-> & -> & pr & E). exists pr. split; [exact E|]. split; [lia|congruence].
Qed.

Lemma same_th (s : sys) t th t' k p :
  nth_error (goto s t th) t' = Some (Th k p) ->
  (t' = t /\ th = Th k p) \/ (t' <> t /\ nth_error (threads s) t' = Some (Th k p)).
Proof. unfold goto. intros H. apply update_inv in H. destruct H as [(-> & -> & _)|[N H]]; auto. Qed.
Lemma goto_same (s : sys) t k p th : nth_error (threads s) t = Some (Th k p) -> nth_error (goto s t th) t = Some th.
Proof. intros H. unfold goto. eapply update_same; eauto. Qed.
Lemma goto_other (s : sys) t th t' : t' <> t -> nth_error (goto s t th) t' = nth_error (threads s) t'.
Proof. intros H. unfold goto. apply update_other. auto. Qed.
Lemma goto_len (s : sys) t th : length (goto s t th) = length (threads s).
Proof. unfold goto. apply update_length. Qed.

Lemma lift (s : sys) t k p k' p' (P : pc -> Prop) :
  nth_error (threads s) t = Some (Th k p) -> (P p -> P p') ->
  forall t', (exists k p, nth_error (threads s) t' = Some (Th k p) /\ P p) ->
  exists k p, nth_error (goto s t (Th k' p')) t' = Some (Th k p) /\ P p.
Proof.
  intros H HP t' (k1 & p1 & H1 & H2). destruct (Nat.eq_dec t' t) as [->|N].
  - rewrite H in H1. injection H1 as <- <-. exists k', p'. split; [eapply goto_same; eauto|auto].
  - exists k1, p1. split; [rewrite goto_other by exact N; exact H1|exact H2].
Qed.

(** a thread moves on and the lock stays as it is *)
Lemma linv_move s c t k p k' p' : linv s -> nth_error (threads s) t = Some (Th k p) ->
  (forall l, may_hold p l -> may_hold p' l) -> (forall l, must_hold p' l -> must_hold p l) ->
  (forall pr, nth_error programs t = Some pr -> k' <= length pr /\ (p' <> Idle -> k' < length pr)) ->
  linv (Sys (writer s) (readers s) c (goto s t (Th k' p'))).
Proof.
  intros I H Hm Hn Hk. constructor; cbn [writer readers cache_ threads].
  - rewrite goto_len. apply I.
  - intros t' E. destruct (l_writer _ I _ E) as [R0 X]. split; [exact R0|]. revert X. eapply lift; eauto.
  - intros t' k1 p1 E. apply same_th in E. destruct E as [[-> E]|[N E]].
    + injection E as <- <-. destruct (l_lock _ I _ _ _ H) as [A B]. split; auto.
    + exact (l_lock _ I _ _ _ E).
  - intros t' E. apply (l_readers _ I) in E. revert E. eapply lift; eauto.
  - intros t' k1 p1 E. apply same_th in E. destruct E as [[-> E]|[N E]].
    + injection E as <- <-. destruct (l_calls _ I _ _ _ H) as (pr & Ep & _). exists pr. auto.
    + exact (l_calls _ I _ _ _ E).
Qed.

Lemma linv_step s e s' : linv s -> step s e s' -> linv s'.
Proof.
  intros I H. destruct H as [t k o pr H Hp Ho|t k o H Hl Hw|t k o H Hl Hw Hr|t k o H|t k o seen H|t k o r H|t k o r H].
  - eapply linv_move; eauto; simpl; try tauto. intros pr' E. rewrite Hp in E. injection E as <-.
    assert (k < length pr) by (apply nth_error_Some; congruence). lia.
  - constructor; cbn [writer readers cache_ threads].
    + rewrite goto_len. apply I.
    + discriminate.
    + intros t' k1 p1 E. apply same_th in E. destruct E as [[-> E]|[N E]].
      * injection E as <- <-. simpl. rewrite Hl. split; [discriminate|auto].
      * destruct (l_lock _ I _ _ _ E) as [A B]. split; [intros Q; specialize (A Q); congruence|simpl; auto].
    + intros t' [<-|E].
      * exists k, (Locked o). split; [eapply goto_same; eauto|exact Hl].
      * apply (l_readers _ I) in E. revert E. eapply lift; [exact H|]. intros [].
    + intros t' k1 p1 E. apply same_th in E. destruct E as [[-> E]|[N E]].
      * injection E as <- <-. destruct (l_calls _ I _ _ _ H) as (pr & Ep & L1 & L2). exists pr. split; [exact Ep|].
        split; [exact L1|]. intros _. apply L2. discriminate.
      * exact (l_calls _ I _ _ _ E).
  - constructor; cbn [writer readers cache_ threads].
    + rewrite goto_len. apply I.
    + intros t' E. injection E as <-. split; [reflexivity|]. exists k, (Locked o). split; [eapply goto_same; eauto|exact Hl].
    + intros t' k1 p1 E. apply same_th in E. destruct E as [[-> E]|[N E]].
      * injection E as <- <-. simpl. rewrite Hl. split; [reflexivity|discriminate].
      * destruct (l_lock _ I _ _ _ E) as [A B]. rewrite Hr in B. split; [intros Q; specialize (A Q); congruence|exact B].
    + intros t' [].
    + intros t' k1 p1 E. apply same_th in E. destruct E as [[-> E]|[N E]].
      * injection E as <- <-. destruct (l_calls _ I _ _ _ H) as (pr & Ep & L1 & L2). exists pr. split; [exact Ep|].
        split; [exact L1|]. intros _. apply L2. discriminate.
      * exact (l_calls _ I _ _ _ E).
  - eapply linv_move; eauto; simpl; try tauto. intros pr Ep. destruct (l_calls _ I _ _ _ H) as (pr' & Ep' & L1 & L2).
    rewrite Ep in Ep'. injection Ep' as <-. split; [exact L1|]. intros _. apply L2. discriminate.
  - assert (Hk : forall q, forall pr, nth_error programs t = Some pr -> k <= length pr /\ (q <> @Idle K V -> k < length pr)).
    { intros q pr Ep. destruct (l_calls _ I _ _ _ H) as (pr' & Ep' & L1 & L2).
      rewrite Ep in Ep'. injection Ep' as <-. split; [exact L1|]. intros _. apply L2. discriminate. }
    destruct (call ltb (snd o) (fst o) seen) as [[c x]| | |]; eapply linv_move; eauto; simpl; try tauto.
  - assert (Hk : forall pr, nth_error programs t = Some pr -> k <= length pr /\ k < length pr).
    { intros pr Ep. destruct (l_calls _ I _ _ _ H) as (pr' & Ep' & L1 & L2).
      rewrite Ep in Ep'. injection Ep' as <-. split; [exact L1|]. apply L2. discriminate. }
    pose proof (l_lock _ I _ _ _ H) as [L1 L2]. simpl in L1, L2. destruct (lock_of o) eqn:Lo.
    + specialize (L2 eq_refl).
      assert (W0 : writer s = None).
      { destruct (writer s) eqn:W; [|reflexivity]. destruct (l_writer _ I _ W) as [R0 _]. rewrite R0 in L2. destruct L2. }
      constructor; cbn [writer readers cache_ threads].
      * rewrite goto_len. apply I.
      * intros t' E. congruence.
      * intros t' k1 p1 E. apply same_th in E. destruct E as [[-> E]|[N E]].
        -- injection E as <- <-. simpl. tauto.
        -- destruct (l_lock _ I _ _ _ E) as [A B]. split; [exact A|]. intros Q. apply in_in_remove; auto.
      * intros t' E. apply in_remove in E. destruct E as [E N]. destruct (l_readers _ I _ E) as (k1 & p1 & E1 & E2).
        exists k1, p1. rewrite goto_other by exact N. auto.
      * intros t' k1 p1 E. apply same_th in E. destruct E as [[-> E]|[N E]]; [|exact (l_calls _ I _ _ _ E)].
        injection E as <- <-. destruct (l_calls _ I _ _ _ H) as (pr & Ep & _). exists pr. destruct (Hk _ Ep). auto.
    + specialize (L1 eq_refl). destruct (l_writer _ I _ L1) as [R0 _].
      constructor; cbn [writer readers cache_ threads].
      * rewrite goto_len. apply I.
      * discriminate.
      * intros t' k1 p1 E. apply same_th in E. destruct E as [[-> E]|[N E]].
        -- injection E as <- <-. simpl. tauto.
        -- destruct (l_lock _ I _ _ _ E) as [A B]. split; [|exact B]. intros Q. specialize (A Q). congruence.
      * rewrite R0. intros t' [].
      * intros t' k1 p1 E. apply same_th in E. destruct E as [[-> E]|[N E]]; [|exact (l_calls _ I _ _ _ E)].
        injection E as <- <-. destruct (l_calls _ I _ _ _ H) as (pr & Ep & _). exists pr. destruct (Hk _ Ep). auto.
  - eapply linv_move; eauto; simpl; try tauto. intros pr Ep. destruct (l_calls _ I _ _ _ H) as (pr' & Ep' & L1 & L2).
    rewrite Ep in Ep'. injection Ep' as <-. split; [apply L2; discriminate|congruence].
Qed.

Lemma linv_exec n h s : exec n h s -> linv s.
Proof. intros H. induction H; [apply linv_init|]. eapply linv_step; eauto. Qed.

Theorem no_data_race n h s : exec n h s -> ~ data_race s.
Proof.
  intros H (t & t' & k & k' & o & o' & x & x' & N & E & E' & C). pose proof (linv_exec _ _ _ H) as I.
  assert (G : forall t t' k k' (o o' : op) x x', t <> t' -> nth_error (threads s) t = Some (Th k (Body o x)) ->
    nth_error (threads s) t' = Some (Th k' (Body o' x')) -> is_const o = false -> False).
  { clear - I. intros t t' k k' o o' x x' N E E' C.
    assert (Lo : lock_of o = Exclusive) by (destruct o as [[] ?]; discriminate || reflexivity).
    destruct (l_lock _ I _ _ _ E) as [A1 _]. destruct (l_lock _ I _ _ _ E') as [B1 B2]. simpl in *.
    specialize (A1 Lo). destruct (l_writer _ I _ A1) as [R0 _]. rewrite R0 in B2.
    destruct (lock_of o'); [apply B2; reflexivity|]. specialize (B1 eq_refl). congruence. }
  apply andb_false_iff in C. destruct C as [C|C]; [eapply (G t t')|eapply (G t' t)]; eauto.
Qed.

Theorem lock_released n h s t k p : exec n h s -> nth_error (threads s) t = Some (Th k p) ->
  (p = Idle \/ exists o r, p = Released o r) -> writer s <> Some t /\ ~ In t (readers s).
Proof.
  intros H E P. pose proof (linv_exec _ _ _ H) as I.
  assert (N : forall l, ~ may_hold p l) by (destruct P as [->|(o & r & ->)]; simpl; tauto). split.
  - intros W. destruct (l_writer _ I _ W) as (_ & k' & p' & E' & Hh). rewrite E in E'. injection E' as <- <-. exact (N _ Hh).
  - intros W. destruct (l_readers _ I _ W) as (k' & p' & E' & Hh). rewrite E in E'. injection E' as <- <-. exact (N _ Hh).
Qed.

(** a holder of the lock can go on unless its call was undefined *)
Lemma holder_goes s t k p l : nth_error (threads s) t = Some (Th k p) -> may_hold p l -> p = Crashed \/ exists s', step s None s'.
Proof.
  intros E Hh. destruct p; simpl in Hh; try contradiction; try (left; reflexivity); right; eexists.
  - eapply step_begin; eauto.
  - eapply step_end; eauto.
  - eapply step_unlock; eauto.
Qed.

Theorem progress n h s : exec n h s ->
  completed programs s \/ (exists e s', step s e s') \/ exists t k, nth_error (threads s) t = Some (Th k Crashed).
Proof.
  intros H. pose proof (linv_exec _ _ _ H) as I.
  set (good := (exists e s', step s e s') \/ exists t k, nth_error (threads s) t = Some (Th k Crashed)).
  assert (D : forall m, good \/
    forall t pr, t < m -> nth_error programs t = Some pr -> exists k, nth_error (threads s) t = Some (Th k Idle) /\ length pr <= k).
  { induction m as [|m IH]; [right; intros; lia|]. destruct IH as [IH|IH]; [auto|].
    destruct (nth_error (threads s) m) as [[k p]|] eqn:E.
    - assert (Q : good \/ (p = Idle /\ forall pr, nth_error programs m = Some pr -> nth_error pr k = None)).
      { destruct p; try (left; left; do 2 eexists; solve [econstructor; eauto]).
        - destruct (nth_error programs m) as [pr|] eqn:Ep.
          + destruct (nth_error pr k) eqn:Eo; [left; left; do 2 eexists; eapply step_call; eauto|].
            right. split; [reflexivity|]. intros ? Q. injection Q as <-. exact Eo.
          + right. split; [reflexivity|discriminate].
        - left. destruct (writer s) as [w|] eqn:W.
          + destruct (l_writer _ I _ W) as (_ & k' & p' & E' & Hh). destruct (holder_goes _ _ _ _ _ E' Hh) as [->|[s' S]]; [right|left]; eauto.
          + destruct (readers s) as [|t' rd] eqn:Rd.
            * left. destruct (lock_of o) eqn:Lo; do 2 eexists; [eapply step_lock_shared; eauto|eapply step_lock_exclusive; eauto].
            * destruct (l_readers _ I t') as (k' & p' & E' & Hh); [rewrite Rd; left; reflexivity|].
              destruct (holder_goes _ _ _ _ _ E' Hh) as [->|[s' S]]; [right|left]; eauto.
        - left. right. eauto. }
      destruct Q as [Q|[-> G]]; [auto|]. right. intros t pr L Ep. destruct (Nat.eq_dec t m) as [->|N]; [|apply IH; [lia|exact Ep]].
      exists k. split; [exact E|]. apply nth_error_None. apply G. exact Ep.
    - right. intros t pr L Ep. destruct (Nat.eq_dec t m) as [->|N]; [|apply IH; [lia|exact Ep]].
      exfalso. apply nth_error_None in E. rewrite (l_len _ I) in E.
      assert (m < length programs) by (apply nth_error_Some; congruence). lia. }
  destruct (D (length programs)) as [G|G]; [auto|]. left. intros t pr Ep.
  assert (L : t < length programs) by (apply nth_error_Some; congruence).
  destruct (G t pr L Ep) as (k & E & Lk). destruct (l_calls _ I _ _ _ E) as (pr' & Ep' & L1 & _).
  rewrite Ep in Ep'. injection Ep' as <-. replace (length pr) with k by lia. exact E.
Qed.

Definition pc_steps (p : pc) : nat :=
  match p with Idle => 0 | Calling _ => 1 | Locked _ => 2 | Body _ _ => 3 | Finished _ _ | Crashed => 4 | Released _ _ => 5 end.
Definition th_steps (th : thread (K:=K) (V:=V)) : nat := 6 * done th + pc_steps (at_ th).

Lemma step_counts s e s' : step s e s' -> sum_of th_steps (threads s') = S (sum_of th_steps (threads s)).
Proof.
  intros H. destruct H; cbn [threads]; unfold goto;
    try (destruct (call ltb (snd o) (fst o) seen) as [[? []]| | |]); try destruct (lock_of o); cbn [threads];
  match goal with |- sum_of _ (update ?t ?x ?l) = _ =>
    pose proof (sum_update th_steps t x _ l H) as E; unfold th_steps in E at 2 4; cbn [done at_ pc_steps] in E; lia end.
Qed.
Lemma exec_counts n h s : exec n h s -> sum_of th_steps (threads s) = n.
Proof.
  intros H. induction H; [|erewrite step_counts; eauto].
  simpl. apply sum_zero. intros m y Hm. apply nth_error_In, in_map_iff in Hm. destruct Hm as (? & <- & _). reflexivity.
Qed.

Theorem bounded n h s : exec n h s -> n <= 6 * length (concat programs).
Proof.
  intros H. pose proof (exec_counts _ _ _ H) as <-. pose proof (linv_exec _ _ _ H) as I.
  assert (G : forall t k p pr, nth_error (threads s) t = Some (Th k p) -> nth_error programs t = Some pr ->
     th_steps (Th k p) <= 6 * length pr).
  { intros t k p pr E Ep. unfold th_steps. cbn [done at_]. destruct (l_calls _ I _ _ _ E) as (pr' & Ep' & L1 & L2).
    rewrite Ep in Ep'. injection Ep' as <-. destruct p; simpl; try lia; (assert (k < length pr) by (apply L2; discriminate); lia). }
  pose proof (l_len _ I) as L. clear - G L. revert G L.
  generalize (threads s) as l. intros l. generalize programs as ps. induction l as [|[k p] l IH]; intros [|pr ps] G L; simpl in *; try lia.
  rewrite app_length. specialize (IH ps (fun t k p pr => G (S t) k p pr) ltac:(lia)).
  specialize (G 0 k p pr eq_refl eq_refl). lia.
Qed.
End Proofs.
