(** Proofs about pools with few workers, about calls of the pool by its own tasks, and about run_after. *)
From Coq Require Import List Bool Arith ZArith Lia Permutation.
From Verif Require Import Base ListUpdate PoolModel PoolSpec PoolProofs PoolLive PoolStop PoolUseModel.
Import ListNotations.

Local Arguments Nat.ltb : simpl never.
Local Arguments workers_size : simpl never.

Section Use.
Variable throws : nat -> bool.
Variable deps : nat -> list nat.
Notation step := (step throws deps).
Notation exec := (exec throws deps).

(** * The size is bounded by what was asked for *)
Lemma step_size b s e s' : size (workers s) <= b -> step s e s' -> (forall m, e = ETarget m -> m <= b) -> size (workers s') <= b.
Proof.
  intros B H T. cases H; unfold goto, sgoto, submit; cbn; rewrite ?wake_size; try exact B;
    try (unfold size in *; upds; fin);
    try (unfold size in *; upds; match goal with w : wpc |- _ => destruct w end; try contradiction; fin).
  - destruct (sched_obj s); [dif|]; exact B.
  - specialize (T _ eq_refl). destruct (stopping s); [exact B|]. dif; cbn; rewrite size_ok; unfold size in *; rewrite sum_app, sum_repeat; cbn; lia.
  - unfold size in *. upds. destruct (stopping s), w; try contradiction; cbn in *; lia.
  - destruct (sched_obj s); exact B.
Qed.
Lemma exec_size b s0 tr s : size (workers s0) <= b -> exec s0 tr s -> (forall m, In (ETarget m) tr -> m <= b) -> size (workers s) <= b.
Proof.
  intros B H. induction H as [|tr s e s' H IH S]; intros T; [exact B|].
  apply (step_size b s e s'); [apply IH; intros m Hm; apply T, in_or_app; auto|exact S|].
  intros m ->. apply T, in_or_app. right. left. reflexivity.
Qed.
Lemma running_size l : length (flat_map running_task l) <= size l.
Proof. unfold size. induction l as [|w l IH]; cbn; [lia|]. rewrite app_length. destruct w; cbn in *; lia. Qed.
Lemma initial_size n clock : size (workers (initial n clock)) = n.
Proof. unfold size. cbn. rewrite sum_repeat. unfold is_in_map. cbn. lia. Qed.

Lemma bounded_proof b n clock tr s : exec (initial n clock) tr s -> n <= b -> (forall m, In (ETarget m) tr -> m <= b) ->
  workers_size s <= b /\ length (running s) <= b.
Proof.
  intros H Hn T. assert (B : size (workers s) <= b) by (apply (exec_size b (initial n clock) tr s); auto; rewrite initial_size; exact Hn).
  rewrite size_ok. split; [exact B|]. pose proof (running_size (workers s)). unfold running. lia.
Qed.

(** * A pool with one worker *)
Lemma start_alone s w t s' : size (workers s) <= 1 -> step s (EStart w t) s' -> running s = [].
Proof.
  intros B [_ S].
  assert (K : exists x, nth_error (workers s) w = Some x /\ match x with WReady | WAfter _ => True | _ => False end).
  { destruct S as [X|[X|[X|X]]]; inversion X; subst; clear X.
    - destruct (work_cases i w0 s) as [(_ & _ & V)|[(p & t0 & rest & _ & _ & V)|(_ & V)]]; rewrite V in *; try discriminate.
      match goal with E : fst _ = EStart _ _ |- _ => cbn in E; injection E as -> -> end. eauto.
    - destruct (sched_move_frame j e s) as [(_ & V)|(_ & c & o & st & V)]; rewrite V in *; discriminate.
    - destruct (is_empty (waiting s) && (active s =? 0)); discriminate.
    - destruct (is_empty (waiting s)); discriminate. }
  destruct K as (x & Hw & Hx). destruct (running s) as [|t0 l] eqn:R; [reflexivity|]. exfalso.
  assert (I : In t0 (running s)) by (rewrite R; left; reflexivity).
  unfold running in I. apply in_flat_map in I. destruct I as (y & Iy & It). apply In_nth_error in Iy. destruct Iy as (i & Hi).
  assert (N : i <> w). { intros ->. rewrite Hw in Hi. injection Hi as <-. destruct x; cbn in It; contradiction. }
  pose proof (sum_update is_in_map w WGone x (workers s) Hw) as U.
  assert (Hi' : nth_error (update w WGone (workers s)) i = Some y) by (rewrite update_other; auto).
  pose proof (sum_ge is_in_map i y _ Hi') as G. unfold size in B. destruct x; try contradiction; destruct y; cbn in *; try contradiction; lia.
Qed.
Lemma completed_first_proof n clock tr s w t s' p t' p' :
  exec (initial n clock) tr s -> n <= 1 -> (forall m, In (ETarget m) tr -> m <= 1) ->
  step s (EStart w t) s' -> given_priority tr t p -> In t' (entries tr) -> given_priority tr t' p' -> (p < p')%Z ->
  In (EFinish t') tr.
Proof.
  intros H Hn T S P E P' L.
  assert (B : size (workers s) <= 1) by (apply (exec_size 1 (initial n clock) tr s); auto; rewrite initial_size; exact Hn).
  pose proof (start_alone _ _ _ _ B S) as R.
  destruct (places_proof _ _ _ _ _ _ H) as (_ & _ & PS & PF & _).
  destruct (in_dec Nat.eq_dec t' (starts tr)) as [I|I].
  - apply (Permutation_in _ PS) in I. rewrite R in I. cbn in I. apply (Permutation_in _ (Permutation_sym PF)) in I.
    unfold finishes in I. apply in_flat_map in I. destruct I as (e & Ie & It). destruct e; cbn in It; try contradiction. destruct It as [->|[]]. exact Ie.
  - assert (N : t' <> t).
    { intros ->. pose proof (priority_once _ _ _ _ _ _ (exec_invT _ _ _ _ _ _ H) P P') as X. lia. }
    destruct (start_order_proof _ _ _ _ _ _ _ _ _ _ _ _ H S P E I P' N) as [X|(X & _)]; lia.
Qed.

(** * Tasks that call the pool *)
Lemma step_running s e s' t : invA s -> In t (running s) -> step s e s' -> In t (running s') \/ e = EFinish t.
Proof.
  intros IA R S. destruct (step_counts _ _ _ _ _ t IA S) as (C1 & C2 & _).
  assert (X : 0 < sum_of (runs t) (workers s)) by (rewrite <- running_ok; apply (count_occ_In Nat.eq_dec), R).
  destruct (Nat.eq_0_gt_0_cases (cnt (finished e) t)) as [Z|Z].
  - left. apply (count_occ_In Nat.eq_dec). fold (cnt (running s') t). rewrite running_ok. lia.
  - right. apply (count_occ_In Nat.eq_dec) in Z. destruct e; cbn in Z; try contradiction. destruct Z as [->|[]]. reflexivity.
Qed.
Lemma wait_all_in_task_proof n clock tr1 s1 t k tr2 s2 : exec (initial n clock) tr1 s1 -> In t (running s1) -> exec s1 tr2 s2 ->
  (forall l l', tr2 = l ++ EFinish t :: l' -> In (EAllReturned k) l) ->
  ~ In (EAllReturned k) tr2 /\ In t (running s2).
Proof.
  intros H R H2. induction H2 as [|tr s e s' H2 IH S]; intros F; [split; [intros []|exact R]|].
  destruct IH as (N & R').
  { intros l l' E. apply (F l (l' ++ [e])). rewrite E, <- app_assoc. reflexivity. }
  assert (HE : exec (initial n clock) (tr1 ++ tr) s) by (apply (exec_app _ _ _ _ s1); assumption).
  assert (A : e <> EAllReturned k).
  { intros ->. destruct (all_returns_idle_proof _ _ _ _ _ _ _ _ HE S) as (_ & X & _). rewrite X in R'. destruct R'. }
  split.
  - intros I. apply in_app_or in I. destruct I as [I|[I|[]]]; [exact (N I)|exact (A I)].
  - destruct (step_running _ _ _ _ (exec_invA _ _ _ _ _ _ HE) R' S) as [X|X]; [exact X|]. exfalso. subst e.
    apply N. apply (F tr []). reflexivity.
Qed.
Lemma wait_none_in_task_proof n clock tr1 s1 t k tr2 s2 : exec (initial n clock) tr1 s1 -> In t (running s1) -> waiting_tasks s1 <> [] ->
  workers_size s1 <= 1 -> exec s1 tr2 s2 -> (forall m, In (ETarget m) tr2 -> m <= 1) ->
  (forall l l', tr2 = l ++ EFinish t :: l' -> In (ENoneReturned k) l) ->
  ~ In (ENoneReturned k) tr2 /\ In t (running s2) /\ waiting_tasks s2 <> [] /\ starts tr2 = [].
Proof.
  intros H R W B H2. rewrite size_ok in B. induction H2 as [|tr s e s' H2 IH S]; intros T F; [split; [intros []|auto]|].
  assert (T' : forall m, In (ETarget m) tr -> m <= 1) by (intros m Hm; apply T, in_or_app; auto).
  destruct IH as (N & R' & W' & St); [exact T'| |].
  { intros l l' E. apply (F l (l' ++ [e])). rewrite E, <- app_assoc. reflexivity. }
  assert (HE : exec (initial n clock) (tr1 ++ tr) s) by (apply (exec_app _ _ _ _ s1); assumption).
  assert (B' : size (workers s) <= 1) by (apply (exec_size 1 s1 tr s); auto).
  assert (A : e <> ENoneReturned k).
  { intros ->. pose proof (none_returns_proof _ _ _ _ _ _ _ _ HE S) as X. exact (W' X). }
  assert (NS : forall w x, e <> EStart w x).
  { intros w x ->. pose proof (start_alone _ _ _ _ B' S) as X. rewrite X in R'. destruct R'. }
  split; [|split; [|split]].
  - intros I. apply in_app_or in I. destruct I as [I|[I|[]]]; [exact (N I)|exact (A I)].
  - destruct (step_running _ _ _ _ (exec_invA _ _ _ _ _ _ HE) R' S) as [X|X]; [exact X|]. exfalso. subst e.
    apply N. apply (F tr []). reflexivity.
  - destruct (step_waiting _ _ _ _ _ S) as [(E & _)|[X|X]].
    + unfold waiting_tasks. rewrite E. exact W'.
    + destruct X as (p & x & E & _). unfold waiting_tasks. rewrite E. intros Q. apply map_eq_nil in Q. exact (insert_waiting_nonempty _ _ _ Q).
    + destruct X as (x & w & _ & _ & E). exfalso. exact (NS _ _ E).
  - unfold starts in *. rewrite flat_map_app, St. cbn. destruct e; cbn; auto. exfalso. eapply NS; reflexivity.
Qed.

(** * run_sync and the destructor *)
Lemma sync_lost_proof n clock tr s t tr' s' : exec (initial n clock) tr s -> dtor s = DDone -> ~ In t (completed s) -> exec s tr' s' ->
  ~ In (ESyncReturned t) tr'.
Proof.
  intros H D C H'. induction H' as [|tr' s' e s'' H' IH S]; [intros []|].
  intros I. apply in_app_or in I. destruct I as [I|[I|[]]]; [exact (IH I)|]. subst e.
  assert (HE : exec (initial n clock) (tr ++ tr') s') by (apply (exec_app _ _ _ _ s); assumption).
  destruct (sync_proof _ _ _ _ _ _ _ _ HE S) as (F & _).
  destruct (after_destroyed_proof _ _ _ _ _ _ _ _ H D H') as (_ & _ & _ & F' & _).
  apply in_app_or in F. destruct F as [F|F].
  - destruct (places_proof _ _ _ _ _ _ H) as (_ & _ & _ & PF & _). apply C. apply (Permutation_in _ PF).
    unfold finishes. apply in_flat_map. exists (EFinish t). split; [exact F|left; reflexivity].
  - assert (X : In t (finishes tr')) by (unfold finishes; apply in_flat_map; exists (EFinish t); split; [exact F|left; reflexivity]).
    rewrite F' in X. destruct X.
Qed.

(** * run_after *)
Lemma after_time_proof now d : (forall at_, after_time now d = Ret at_ <-> at_ = (now + d)%Z /\ (- 2 ^ 63 <= now + d < 2 ^ 63)%Z) /\
  (after_time now d = Ub <-> (now + d < - 2 ^ 63 \/ 2 ^ 63 <= now + d)%Z).
Proof.
  unfold after_time, tick_ok. destruct (Z.leb_spec (- 2 ^ 63) (now + d)), (Z.ltb_spec (now + d) (2 ^ 63)); cbn [andb].
  all: split; [intros at_; split; [intros E; try discriminate E; injection E as <-; auto|intros [-> ?]; try reflexivity; lia]|].
  all: split; [intros E; try discriminate E; lia|intros ?; try reflexivity; lia].
Qed.
Lemma run_after_proof n clock tr s d at_ t p s' tr' s'' : exec (initial n clock) tr s -> after_time (now s) d = Ret at_ ->
  step s (ERunAt t at_ p) s' -> exec s' tr' s'' -> In t (entries tr') ->
  (clock <= now s)%Z -> (forall z, In (ETick z) tr -> (z <= now s)%Z) ->
  (d <= 0)%Z \/ exists z, In (ETick z) tr' /\ (now s + d <= z)%Z.
Proof.
  intros H A S H' E C M. apply (after_time_proof (now s) d) in A. destruct A as (-> & _).
  assert (H1 : exec (initial n clock) (tr ++ [ERunAt t (now s + d) p]) s') by (econstructor; eauto).
  assert (HE : exec (initial n clock) ((tr ++ [ERunAt t (now s + d) p]) ++ tr') s'') by (apply (exec_app _ _ _ _ s'); assumption).
  assert (X : clock_reached clock ((tr ++ [ERunAt t (now s + d) p]) ++ tr') (now s + d)).
  { apply (not_early_proof _ _ _ _ _ _ t (now s + d) p HE).
    - apply in_or_app. left. apply in_or_app. right. left. reflexivity.
    - unfold entries. rewrite flat_map_app. apply in_or_app. right. exact E. }
  destruct X as [X|(z & I & L)]; [left; lia|]. apply in_app_or in I. destruct I as [I|I]; [|right; eauto].
  apply in_app_or in I. destruct I as [I|[I|[]]]; [|discriminate]. left. specialize (M _ I). lia.
Qed.
End Use.
