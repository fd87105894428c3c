(** Proofs about the test programs of the thread pool. *)
From Coq Require Import List Bool Arith ZArith Lia Permutation.
From Verif Require Import ListUpdate PoolModel PoolSpec PoolProofs PoolLive PoolStop PoolWait PoolDue PoolTestModel PoolTestSpec.
Import ListNotations.

Local Arguments Nat.ltb : simpl never.
Local Arguments workers_size : simpl never.

Section Tests.
Variable throws : nat -> bool.
Variable deps : nat -> list nat.
Variable sleeps : pool -> Prop.
Notation step := (step throws deps).
Notation exec := (exec throws deps).
Notation internal := (internal throws deps).
Notation quiescent := (quiescent throws deps).
Notation other := (other throws deps).
Notation run := (run throws deps sleeps).

Lemma other_step s e s' : other s e s' -> step s e s'.
Proof. intros (A & H). split; [exact A|]. tauto. Qed.
Lemma effect_step s c e s' : status s = Alive -> dtor s = DNone -> effect c s e s' -> step s e s'.
Proof.
  intros A D H. split; [exact A|]. left. assert (M : may_call s) by (left; exact D).
  destruct c; cbn in H; try contradiction; destruct H as (-> & ->).
  - apply c_run_async, M.
  - apply c_run_sync, M.
  - exact (c_run_at s (now s + d)%Z p M).
  - exact (c_target s m M).
  - apply c_on_stop, M.
  - apply c_wait_none, M.
  - apply c_wait_all, M.
  - apply c_destroy, D.
Qed.
Lemma run_exec s prog tr s' rest seen s0 tr0 : run s prog tr s' rest seen -> exec s0 tr0 s -> exec s0 (tr0 ++ tr) s'.
Proof.
  intros H. revert tr0. induction H as [s prog|s prog e s1 tr s' rest seen O H IH|s c prog e s1 tr s' rest seen A R D E H IH| |];
    intros tr0 X; auto.
  - rewrite app_nil_r. exact X.
  - change (e :: tr) with ([e] ++ tr). rewrite app_assoc. apply IH. econstructor; [exact X|apply other_step, O].
  - change (e :: tr) with ([e] ++ tr). rewrite app_assoc. apply IH. econstructor; [exact X|]. eapply effect_step; eauto.
Qed.

(** * What the steps of the pool leave alone *)
Lemma other_frame s e s' : other s e s' ->
  next s' = next s /\ target s' = target s /\ stopping s' = stopping s /\ onStop s' = onStop s /\
  length (workers s') = length (workers s) /\
  (completed s' = completed s \/ exists t, completed s' = t :: completed s) /\
  (forall t at_ p, e <> ERunAt t at_ p) /\ (forall t p, e <> ESubmit t p) /\
  (forall x, In x (map fst (syncs s')) <-> In x (map fst (syncs s))).
Proof.
  intros (A & H). assert (S : step s e s') by (split; [exact A|tauto]).
  assert (Ne : next s' = next s /\ target s' = target s /\ stopping s' = stopping s /\ onStop s' = onStop s /\
    length (workers s') = length (workers s) /\ (forall x, In x (map fst (syncs s')) <-> In x (map fst (syncs s))) /\
    (completed s' = completed s \/ exists t, completed s' = t :: completed s) /\ (forall t at_ p, e <> ERunAt t at_ p) /\ (forall t p, e <> ESubmit t p)).
  { clear S. assert (H' : step s e s') by (split; [exact A|tauto]). clear A. destruct H as [H|[H|H]].
    - destruct H as [i w Hi Hw|i t Hi Ht Hd|i t Hi Ht|i n Hn Hi|n Hn Hi|n Hn|j e n Hn Hj|j Hn Hj|n Hn|j l1 l2 Hj|j Hj|j e Hj Hnow|j e Hj
                  |k Hk|k Hk|l1 l2 t Hs Hc|D|D|D Hex|D Hso|j D Hso Hj]; clear H';
      try match goal with
      | |- context [work_from ?i ?w ?s] =>
        destruct (work_cases i w s) as [(Co & Wt & V)|[(p & t & rest & Co & Wt & V)|(Co & V)]]; rewrite V; clear V
      | |- context [sched_loop ?j ?s] => destruct (sched_loop_frame j s) as (c & o & st & V); rewrite V; clear V
      | |- context [sched_move ?j ?e ?s] =>
        destruct (sched_move_frame j e s) as [(Ex & V)|(Ex & c & o & st & V)]; rewrite V; clear V
      end; unfold goto, sgoto; cbn; repeat split; rewrite ?update_length, ?map_length; auto; try (intros; discriminate); try tauto; eauto;
      try (destruct (sched_obj s); cbn; auto; fail);
      try (destruct (is_empty (waiting s) && (active s =? 0)); intros; discriminate);
      try (destruct (is_empty (waiting s)); intros; discriminate).
      all: try (destruct (sched_obj s); cbn; tauto).
      all: rewrite Hs, !map_app; cbn; auto.
    - destruct H; unfold goto, sgoto; cbn; repeat split; rewrite ?update_length; auto; try (intros; discriminate).
    - destruct H. cbn. repeat split; auto; intros; discriminate. }
  tauto.
Qed.
Lemma other_waiting s e s' : other s e s' -> waiting s = [] -> scheduled s = [] -> waiting s' = [] /\ scheduled s' = [].
Proof.
  intros O W C. pose proof (other_step _ _ _ O) as S. destruct (other_frame _ _ _ O) as (_ & _ & _ & _ & _ & _ & Na & Ns & _).
  assert (C' : scheduled s' = []).
  { destruct (step_scheduled _ _ _ _ _ S) as [(-> & _)|[(t & a & p & -> & _)|(j & d & _ & _ & _ & ->)]]; [exact C|exfalso; eapply Na; reflexivity|].
    rewrite C. reflexivity. }
  split; [|exact C']. destruct O as (A & H). destruct H as [H|[H|H]].
  - destruct H as [i w Hi Hw|i t Hi Ht Hd|i t Hi Ht|i n Hn Hi|n Hn Hi|n Hn|j e n Hn Hj|j Hn Hj|n Hn|j l1 l2 Hj|j Hj|j e Hj Hnow|j e Hj
                  |k Hk|k Hk|l1 l2 t Hs Hc|D|D|D Hex|D Hso|j D Hso Hj]; clear C' S Na Ns;
    try match goal with
    | |- context [work_from ?i ?w ?s] =>
        destruct (work_cases i w s) as [(Co & Wt & V)|[(p & t & rest & Co & Wt & V)|(Co & V)]]; rewrite V; clear V
    | |- context [sched_loop ?j ?s] => destruct (sched_loop_frame j s) as (c & o & st & V); rewrite V; clear V
    end; unfold goto, sgoto; cbn; auto; try congruence.
    + destruct (sched_obj s); exact W.
    + unfold sched_move. rewrite C. cbn. exact W.
  - destruct H; exact W.
  - destruct H. exact W.
Qed.

Ltac ocases H :=
  let A := fresh "A" in destruct H as (A & [H|[H|H]]);
  [ destruct H as [i w Hi Hw|i t Hi Ht Hd|i t Hi Ht|i n Hn Hi|n Hn Hi|n Hn|j e n Hn Hj|j Hn Hj|n Hn|j l1 l2 Hj|j Hj|j e Hj Hnow|j e Hj
                  |k Hk|k Hk|l1 l2 t Hs Hc|D|D|D Hex|D Hso|j D Hso Hj];
    try match goal with
    | |- context [work_from ?i ?w ?s] =>
        destruct (work_cases i w s) as [(Co & Wt & V)|[(p & t & rest & Co & Wt & V)|(Co & V)]]; rewrite V; clear V
    | |- context [sched_loop ?j ?s] => destruct (sched_loop_frame j s) as (c & o & st & V); rewrite V; clear V
    | |- context [sched_move ?j ?e ?s] =>
        destruct (sched_move_frame j e s) as [(Ex & V)|(Ex & c & o & st & V)]; rewrite V; clear V
    end
  | destruct H as [i Hi|j e Hj|k Hk|k Hk]
  | destruct H as [z] ];
  unfold goto, sgoto; cbn.

Lemma other_active s e s' : other s e s' -> waiting s = [] -> active s = 0 -> active s' = 0.
Proof.
  intros H W A0. ocases H; auto; try congruence.
  - destruct w; cbn; lia.
  - destruct w; cbn; lia.
  - destruct (sched_obj s); exact A0.
Qed.
Lemma other_callers s e s' : other s e s' ->
  length (all_waiters s') = length (all_waiters s) /\ length (none_waiters s') = length (none_waiters s) /\
  (forall k, nth_error (all_waiters s') k = Some CReturned -> nth_error (all_waiters s) k = Some CReturned \/ (waiting s' = [] /\ active s' = 0)) /\
  (forall k, nth_error (none_waiters s') k = Some CReturned -> nth_error (none_waiters s) k = Some CReturned \/ waiting s' = []) /\
  (forall k, nth_error (all_waiters s) k = Some CReturned -> nth_error (all_waiters s') k = Some CReturned) /\
  (forall k, nth_error (none_waiters s) k = Some CReturned -> nth_error (none_waiters s') k = Some CReturned).
Proof.
  assert (Wk : forall l k, nth_error (map wake_caller l) k = Some CReturned <-> nth_error l k = Some CReturned).
  { intros l k. rewrite nth_error_map. destruct (nth_error l k) as [[]|]; cbn; split; intros H; try discriminate H; reflexivity. }
  intros H. ocases H; repeat split; rewrite ?update_length; auto.
  1-3: destruct (active_from w s =? 0); rewrite ?map_length; auto; intros k; rewrite Wk; auto.
  1-3: destruct (is_empty rest); rewrite ?map_length; auto; intros k; rewrite Wk; auto.
  1-6: destruct (sched_obj s); auto.
  - intros k0 Q. apply update_inv in Q. destruct Q as [(-> & Q & _)|[_ Q]]; auto.
    destruct (waiting s); [|discriminate]. destruct (Nat.eqb_spec (active s) 0); [auto|discriminate].
  - intros k0 Q. destruct (Nat.eq_dec k k0) as [->|N]; [congruence|]. rewrite update_other; auto.
  - intros k0 Q. apply update_inv in Q. destruct Q as [(-> & Q & _)|[_ Q]]; auto.
    destruct (waiting s); [|discriminate]. auto.
  - intros k0 Q. destruct (Nat.eq_dec k k0) as [->|N]; [congruence|]. rewrite update_other; auto.
  - intros k0 Q. apply update_inv in Q. destruct Q as [(-> & Q & _)|[_ Q]]; auto. discriminate.
  - intros k0 Q. destruct (Nat.eq_dec k k0) as [->|N]; [congruence|]. rewrite update_other; auto.
  - intros k0 Q. apply update_inv in Q. destruct Q as [(-> & Q & _)|[_ Q]]; auto. discriminate.
  - intros k0 Q. destruct (Nat.eq_dec k k0) as [->|N]; [congruence|]. rewrite update_other; auto.
Qed.

(** more tasks have been given than are in progress, wait or are scheduled *)
Lemma step_load s e s' : invA s -> step s e s' ->
  active s + length (waiting s) + length (scheduled s) <= next s -> active s' + length (waiting s') + length (scheduled s') <= next s'.
Proof.
  intros I H L. pose proof (a_active _ I) as Ac.
  assert (IS : forall x l, length (insert_scheduled x l) = S (length l)).
  { intros x l. induction l as [|y l IH]; cbn; [reflexivity|]. destruct (fst x <? fst y)%Z; cbn; auto. }
  assert (Fi : forall x l, existsb (entry_is x) l = true -> length (filter (fun e' => negb (entry_is x e')) l) < length l).
  { intros x l X. apply filter_shorter. apply existsb_exists in X. destruct X as (a & X1 & X2). apply existsb_exists. exists a.
    rewrite negb_involutive. auto. }
  cases H; unfold goto, sgoto, submit; cbn; rewrite ?insert_waiting_length; try lia.
  - destruct (sched_obj s); [dif|]; cbn; rewrite ?IS; lia.
  - destruct (stopping s); [lia|]. dif; cbn; lia.
  - destruct w; cbn; lia.
  - rewrite Wt in L. cbn in L. destruct w; cbn; lia.
  - destruct w; cbn; lia.
  - destruct (sched_obj s); cbn; lia.
  - specialize (Fi _ _ Ex). lia.
Qed.
Lemma exec_load n clock tr s : exec (initial n clock) tr s -> active s + length (waiting s) + length (scheduled s) <= next s.
Proof. intros H. induction H as [|tr s e s' H IH S]; [cbn; lia|]. eapply step_load; eauto. eapply exec_invA; eauto. Qed.

Lemma busy_length (l : list wpc) : sum_of is_busy l <= length l.
Proof. induction l as [|w l IH]; cbn; [lia|]. unfold is_busy at 1. destruct (busy w); lia. Qed.
Lemma runs_zero l x : sum_of is_busy l = 0 -> sum_of (runs x) l = 0.
Proof.
  induction l as [|w l IH]; cbn; [reflexivity|]. destruct w; unfold is_busy at 1, runs at 1; cbn; intros H; try discriminate; auto.
Qed.

(** * The counters of the tests *)
Lemma all_count l k m : (forall x, cnt l x = if x <? k then 1 else 0) -> m <= k -> length (filter (fun t => t <? m) l) = m.
Proof.
  intros H L. assert (P : Permutation l (seq 0 k)).
  { apply (Permutation_count_occ Nat.eq_dec). intros x. fold (cnt l x) (cnt (seq 0 k) x). rewrite H.
    destruct (Nat.ltb_spec x k) as [X|X].
    - symmetry. apply (NoDup_count_occ' Nat.eq_dec); [apply seq_NoDup|]. apply in_seq. lia.
    - symmetry. apply (count_occ_not_In Nat.eq_dec). rewrite in_seq. lia. }
  assert (F : forall a b, Permutation a b -> length (filter (fun t => t <? m) a) = length (filter (fun t => t <? m) b)).
  { intros a b X. induction X; cbn; auto; repeat match goal with |- context [if ?c then _ else _] => destruct c end; cbn; lia. }
  rewrite (F _ _ P). replace k with (m + (k - m)) by lia. rewrite seq_app, filter_app, app_length.
  assert (F1 : forall b a, a + b <= m -> filter (fun t => t <? m) (seq a b) = seq a b).
  { induction b as [|b IH]; intros a X; cbn; [reflexivity|]. destruct (Nat.ltb_spec a m); [|lia]. f_equal. apply IH. lia. }
  assert (F2 : forall b a, m <= a -> filter (fun t => t <? m) (seq a b) = []).
  { induction b as [|b IH]; intros a X; cbn; [reflexivity|]. destruct (Nat.ltb_spec a m); [lia|]. apply IH. lia. }
  rewrite F1, F2, seq_length by lia. cbn. lia.
Qed.

Lemma counter_le s N : invA s -> (0 <= value (Counter N) s <= Z.of_nat N)%Z.
Proof.
  intros [_ P _ _]. cbn.
  assert (ND : NoDup (filter (fun t => t <? N) (completed s))).
  { apply NoDup_filter, nodup_of_cnt. intros x. specialize (P x). unfold total in P. destruct (x <? next s); lia. }
  assert (Le : length (filter (fun t => t <? N) (completed s)) <= length (seq 0 N)).
  { apply NoDup_incl_length; [exact ND|]. intros x Hx. apply filter_In in Hx. destruct Hx as (_ & Hx). apply Nat.ltb_lt in Hx. apply in_seq. lia. }
  rewrite seq_length in Le. lia.
Qed.

(** * Reasoning about the rest of a program *)
Definition stable (I : pool -> Prop) : Prop := forall s e s', other s e s' -> I s -> I s'.
(** every complete run of [prog] from a state in [I] reads values in [Q] *)
Definition ok (I : pool -> Prop) (prog : list statement) (Q : list Z -> Prop) : Prop :=
  forall s tr s' seen, I s -> run s prog tr s' [] seen -> Q seen.

Lemma ok_nil I (Q : list Z -> Prop) : stable I -> Q [] -> ok I [] Q.
Proof.
  intros St X s tr s' seen Is H. remember [] as prog eqn:E in H at 1. remember [] as rest eqn:E' in H.
  induction H; subst; auto; try discriminate. eauto.
Qed.
Lemma ok_read I g prog Q : stable I ->
  (forall s, I s -> status s = Alive -> returned s -> exists J, J s /\ ok J prog (fun seen => Q (value g s :: seen))) ->
  ok I (Read g :: prog) Q.
Proof.
  intros St N s tr s' seen Is H. remember (Read g :: prog) as pr eqn:E. remember [] as rest eqn:E'.
  revert Is. induction H; intros Is; subst; auto; try discriminate; eauto.
  - injection E as -> ->. contradiction.
  - injection E as -> ->. destruct (N s Is H H0) as (J & Js & K). eapply K; eauto.
Qed.
Lemma ok_sleep I prog Q : stable I ->
  (forall s, I s -> status s = Alive -> returned s -> sleeps s -> exists J, J s /\ ok J prog Q) ->
  ok I (Sleep :: prog) Q.
Proof.
  intros St N s tr s' seen Is H. remember (Sleep :: prog) as pr eqn:E. remember [] as rest eqn:E'.
  revert Is. induction H; intros Is; subst; auto; try discriminate; eauto.
  - injection E as -> ->. contradiction.
  - injection E as ->. destruct (N s Is H H0 H1) as (J & Js & K). eapply K; eauto.
Qed.
Lemma ok_call I c prog Q : stable I -> (match c with Sleep | Read _ => False | _ => True end) ->
  (forall s e s1, I s -> status s = Alive -> returned s -> dtor s = DNone -> effect c s e s1 -> step s e s1 -> exists J, J s1 /\ ok J prog Q) ->
  ok I (c :: prog) Q.
Proof.
  intros St Nc N s tr s' seen Is H. remember (c :: prog) as pr eqn:E. remember [] as rest eqn:E'.
  revert Is. induction H; intros Is; subst; auto; try discriminate; eauto.
  - injection E as -> ->. destruct (N s e s1 Is H H0 H1 H2 (effect_step _ _ _ _ H H1 H2)) as (J & Js & K). eapply K; eauto.
  - injection E as <- _. contradiction.
  - injection E as <- _. contradiction.
Qed.

(** * Pools that are not given scheduled tasks *)
Definition no_run_at (tr : list event) : Prop := forall t a p, ~ In (ERunAt t a p) tr.
Definition reach (n : nat) (s : pool) : Prop := exists clock tr, exec (initial n clock) tr s /\ no_run_at tr.
Lemma reach_step n s e s' : reach n s -> step s e s' -> (forall t a p, e <> ERunAt t a p) -> reach n s'.
Proof.
  intros (clock & tr & H & N) S X. exists clock, (tr ++ [e]). split; [econstructor; eauto|].
  intros t a p I. apply in_app_or in I. destruct I as [I|[I|[]]]; [eapply N; eauto|eapply X; eauto].
Qed.
Lemma reach_other n s e s' : reach n s -> other s e s' -> reach n s'.
Proof. intros R O. eapply reach_step; [exact R|exact (other_step _ _ _ O)|]. destruct (other_frame _ _ _ O). tauto. Qed.
Lemma reach_scheduled n s : reach n s -> scheduled s = [].
Proof. intros (clock & tr & H & N). destruct (unscheduled _ _ _ _ _ _ H N). tauto. Qed.
Lemma reach_invA n s : reach n s -> invA s.
Proof. intros (clock & tr & H & N). eapply exec_invA; eauto. Qed.
Lemma reach_load n s : reach n s -> active s + length (waiting s) <= next s.
Proof. intros (clock & tr & H & N). pose proof (exec_load _ _ _ _ H). lia. Qed.

(** a pool that has been given [k] tasks by run_async alone *)
Record base (n : nat) (a : action) (k : nat) (s : pool) : Prop := {
  b_reach : reach n s;
  b_next : next s = k;
  b_stop : stopping s = false;
  b_action : onStop s = a;
  b_target : target s = n;
  b_workers : length (workers s) = n;
  b_all : all_waiters s = [];
  b_none : none_waiters s = [];
  b_syncs : syncs s = []
}.
Lemma base_stable n a k : stable (base n a k).
Proof.
  intros s e s' O [B1 B2 B3 B4 B5 B6 B7 B8 B9]. destruct (other_frame _ _ _ O) as (F1 & F2 & F3 & F4 & F5 & _ & _ & _ & F6).
  destruct (other_callers _ _ _ O) as (G1 & G2 & _). constructor; try congruence.
  - eapply reach_other; eauto.
  - rewrite B7 in G1. destruct (all_waiters s'); [reflexivity|discriminate].
  - rewrite B8 in G2. destruct (none_waiters s'); [reflexivity|discriminate].
  - rewrite B9 in F6. destruct (syncs s') as [|x l]; [reflexivity|]. exfalso. apply (F6 (fst x)). left. reflexivity.
Qed.
Lemma base_initial n clock : base n JoinAll 0 (initial n clock).
Proof.
  constructor; cbn; auto using repeat_length. exists clock, []. split; [constructor|]. intros t a p [].
Qed.
Lemma ok_start n prog Q : 1 <= n -> ok (base n JoinAll 0) prog Q -> ok (base n JoinAll 0) (start ++ prog) (after_start Q).
Proof.
  intros L K. unfold start. cbn [app]. apply ok_read; [apply base_stable|]. intros s B _ _. exists (base n JoinAll 0). split; [exact B|].
  assert (Ws : value Workers s <> 0%Z).
  { destruct B as [(clock & tr & H & _) B2 B3 B4 B5 _ _ _ _]. pose proof (size_at_least_proof _ _ _ _ _ _ H B3). cbn. lia. }
  apply ok_read; [apply base_stable|]. intros s1 B1 _ _. exists (base n JoinAll 0). split; [exact B1|].
  apply ok_read; [apply base_stable|]. intros s2 B2 _ _. exists (base n JoinAll 0). split; [exact B2|].
  assert (V1 : value Active s1 = 0%Z).
  { pose proof (reach_load _ _ (b_reach _ _ _ _ B1)). rewrite (b_next _ _ _ _ B1) in H. cbn. unfold active_workers_size. lia. }
  assert (V2 : value Waiting s2 = 0%Z).
  { pose proof (reach_load _ _ (b_reach _ _ _ _ B2)). rewrite (b_next _ _ _ _ B2) in H. cbn. unfold waiting_tasks_size. lia. }
  rewrite V1, V2. intros s3 tr s' seen B3 R. exists (value Workers s), seen. split; [reflexivity|]. split; [exact Ws|]. eapply K; eauto.
Qed.
Lemma ok_submits n a m prog Q p : forall k, ok (base n a (k + m)) prog Q -> ok (base n a k) (repeat (RunAsync p) m ++ prog) Q.
Proof.
  induction m as [|m IH]; intros k K; cbn [repeat app]; [rewrite Nat.add_0_r in K; exact K|].
  apply ok_call; [apply base_stable|exact I|]. intros s e s1 B _ _ _ E St. exists (base n a (S k)). split.
  - destruct B as [B1 B2 B3 B4 B5 B6 B7 B8 B9]. destruct E as (-> & ->). constructor; cbn; auto.
    eapply reach_step; [exact B1|exact St|discriminate].
  - apply IH. replace (S k + m) with (k + S m) by lia. exact K.
Qed.

(** * Pools at rest *)
Record calm (k : nat) (s : pool) : Prop := {
  q_inv : invA s;
  q_next : next s = k;
  q_waiting : waiting s = [];
  q_scheduled : scheduled s = [];
  q_active : active s = 0
}.
Lemma calm_stable k : stable (calm k).
Proof.
  intros s e s' O [B1 B2 B3 B4 B5]. destruct (other_frame _ _ _ O) as (F1 & _). destruct (other_waiting _ _ _ O B3 B4) as (W & C).
  constructor; try congruence; auto. - eapply step_invA; [exact B1|exact (other_step _ _ _ O)]. - eapply other_active; eauto.
Qed.
Lemma calm_completed k s : calm k s -> forall x, cnt (completed s) x = if x <? k then 1 else 0.
Proof.
  intros [[A P _ _] B2 B3 B4 B5] x. specialize (P x). unfold total in P. rewrite B2, B3, B4 in P. cbn in P.
  rewrite (runs_zero (workers s) x) in P by lia. rewrite <- P. reflexivity.
Qed.
Lemma calm_value k s g : calm k s -> match g with
  | Active | ActiveTasks | Tasks | Waiting | Scheduled => value g s = 0%Z
  | Counter m => m <= k -> value g s = Z.of_nat m
  | Flag t => t < k -> value g s = 1%Z
  | _ => True
  end.
Proof.
  intros H. pose proof (calm_completed _ _ H) as C. destruct H as [_ B2 B3 B4 B5].
  destruct g; cbn; auto; unfold active_workers_size, active_tasks_size, tasks_size, waiting_tasks_size, scheduled_tasks_size;
    rewrite ?B3, ?B4, ?B5; auto.
  - intros L. rewrite (all_count _ k m C L). reflexivity.
  - intros L. specialize (C t). apply Nat.ltb_lt in L. rewrite L in C. assert (X : In t (completed s)) by (apply cnt_in; lia).
    replace (existsb (Nat.eqb t) (completed s)) with true; [reflexivity|]. symmetry. apply existsb_exists. exists t. auto using Nat.eqb_refl.
Qed.

(** [ok] for what is read of a pool at rest *)
Lemma ok_calm_read k g v prog Q : (forall s, calm k s -> value g s = v) -> ok (calm k) prog (fun seen => Q (v :: seen)) ->
  ok (calm k) (Read g :: prog) Q.
Proof.
  intros V K. apply ok_read; [apply calm_stable|]. intros s C _ _. exists (calm k). split; [exact C|]. rewrite (V s C). exact K.
Qed.
Ltac calm_reads := repeat (eapply ok_calm_read; [let C := fresh in intros ? C; match goal with |- value ?g _ = _ =>
  let X := fresh in pose proof (calm_value _ _ g C) as X; cbv beta iota in X; first [exact X|apply X; lia] end|]);
  apply ok_nil; [apply calm_stable|].

(** test_wait_until_all_tasks_complete *)
Definition waiting_all (n N : nat) (s : pool) : Prop :=
  reach n s /\ next s = N /\ exists c, all_waiters s = [c] /\ (c = CReturned -> waiting s = [] /\ active s = 0).
Lemma waiting_all_stable n N : stable (waiting_all n N).
Proof.
  intros s e s' O (R & Nx & c & W & Ci). destruct (other_frame _ _ _ O) as (F1 & _). destruct (other_callers _ _ _ O) as (G1 & _ & G3 & _).
  split; [eapply reach_other; eauto|]. split; [congruence|]. rewrite W in *. destruct (all_waiters s') as [|c' [|]] eqn:E; try discriminate.
  exists c'. split; [reflexivity|]. intros ->. specialize (G3 0 eq_refl). destruct G3 as [G3|G3]; [|exact G3].
  cbn in G3. injection G3 as ->. destruct (Ci eq_refl) as (I1 & I2). destruct (other_waiting _ _ _ O I1 (reach_scheduled _ _ R)) as (W' & _).
  split; [exact W'|]. eapply other_active; eauto.
Qed.
Lemma wait_all_proof n N clock tr s seen : 1 <= n -> run (initial n clock) (wait_all_test N) tr s [] seen -> wait_all_passes N seen.
Proof.
  intros L. apply (ok_start n _ _ L) with (s := initial n clock); [|apply base_initial]. apply ok_submits.
  apply ok_call; [apply base_stable|exact I|]. intros s0 e s1 B _ _ _ E S. exists (waiting_all n (0 + N)). split.
  { destruct B as [B1 B2 B3 B4 B5 B6 B7 B8 B9]. destruct E as (-> & ->). split; [eapply reach_step; [exact B1|exact S|discriminate]|].
    split; [exact B2|]. exists CCheck. cbn. rewrite B7. split; [reflexivity|discriminate]. }
  cbn [Nat.add]. apply ok_read; [apply waiting_all_stable|]. intros s2 (R & Nx & c & W & Ci) _ Re.
  assert (C : calm N s2).
  { destruct Ci as (I1 & I2); [apply (ret_waiters _ Re); rewrite W; left; reflexivity|].
    constructor; auto. - eapply reach_invA; eauto. - eapply reach_scheduled; eauto. }
  exists (calm N). split; [exact C|]. rewrite (calm_value _ _ Active C). calm_reads. reflexivity.
Qed.

(** test_wait_until_no_tasks_waiting *)
Definition waiting_none (n N : nat) (s : pool) : Prop :=
  reach n s /\ next s = N /\ exists c, none_waiters s = [c] /\ (c = CReturned -> waiting s = []).
Lemma waiting_none_stable n N : stable (waiting_none n N).
Proof.
  intros s e s' O (R & Nx & c & W & Ci). destruct (other_frame _ _ _ O) as (F1 & _). destruct (other_callers _ _ _ O) as (_ & G1 & _ & G3 & _).
  split; [eapply reach_other; eauto|]. split; [congruence|]. rewrite W in *. destruct (none_waiters s') as [|c' [|]] eqn:E; try discriminate.
  exists c'. split; [reflexivity|]. intros ->. specialize (G3 0 eq_refl). destruct G3 as [G3|G3]; [|exact G3].
  cbn in G3. injection G3 as ->. destruct (other_waiting _ _ _ O (Ci eq_refl) (reach_scheduled _ _ R)) as (W' & _). exact W'.
Qed.
(** no task waits, and at least [d] have returned *)
Definition taken (n N d : nat) (s : pool) : Prop := reach n s /\ next s = N /\ waiting s = [] /\ d <= length (filter (fun t => t <? N) (completed s)).
Lemma taken_stable n N d : stable (taken n N d).
Proof.
  intros s e s' O (R & Nx & W & D). destruct (other_frame _ _ _ O) as (F1 & _ & _ & _ & _ & F2 & _).
  split; [eapply reach_other; eauto|]. split; [congruence|]. split; [exact (proj1 (other_waiting _ _ _ O W (reach_scheduled _ _ R)))|].
  destruct F2 as [->|(t & ->)]; [exact D|]. cbn. destruct (t <? N); cbn; lia.
Qed.
(** the tasks that do not wait have returned or are being run *)
Lemma taken_active n N s : reach n s -> next s = N -> waiting s = [] -> N <= length (filter (fun t => t <? N) (completed s)) + active s.
Proof.
  intros R Nx W. destruct (reach_invA _ _ R) as [A P _ _]. pose proof (reach_scheduled _ _ R) as Sc.
  assert (X : forall x, cnt (running s ++ completed s) x = if x <? N then 1 else 0).
  { intros x. rewrite cnt_app, running_ok. specialize (P x). unfold total in P. rewrite Sc, W, Nx in P. cbn [map] in P. rewrite !cnt_nil in P. lia. }
  pose proof (all_count _ N N X (le_n N)) as L. rewrite filter_app, app_length in L.
  assert (Ru : length (running s) <= active s).
  { rewrite A. unfold running. clear. induction (workers s) as [|w l IH]; cbn; [lia|]. rewrite app_length. destruct w; unfold is_busy at 1; cbn; lia. }
  pose proof (filter_length_le (fun t => t <? N) (running s)). lia.
Qed.
Lemma taken_waiting n N d s : taken n N d s -> value Waiting s = 0%Z.
Proof. intros (_ & _ & W & _). cbn. unfold waiting_tasks_size. rewrite W. reflexivity. Qed.
Lemma wait_none_reads n N clock cf tr s seen : 1 <= n -> run (initial n clock) (wait_none_test cf N) tr s [] seen ->
  after_start (fun l => exists a c, l = (if cf then [c; a; 0] else [a; c; 0])%Z /\ (cf = false -> Z.of_nat N - c <= a)%Z) seen.
Proof.
  intros L. apply (ok_start n _ _ L) with (s := initial n clock); [|apply base_initial]. apply ok_submits.
  apply ok_call; [apply base_stable|exact I|]. intros s0 e s1 B _ _ _ E S. exists (waiting_none n (0 + N)). split.
  { destruct B as [B1 B2 B3 B4 B5 B6 B7 B8 B9]. destruct E as (-> & ->). split; [eapply reach_step; [exact B1|exact S|discriminate]|].
    split; [exact B2|]. exists CCheck. cbn. rewrite B8. split; [reflexivity|discriminate]. }
  cbn [Nat.add].
  assert (T : forall s2, waiting_none n N s2 -> returned s2 -> taken n N (N - active s2) s2).
  { intros s2 (R & Nx & c & W & Ci) Re. assert (W0 : waiting s2 = []) by (apply Ci, (ret_waiters _ Re); rewrite W; apply in_or_app; right; left; reflexivity).
    split; [exact R|]. split; [exact Nx|]. split; [exact W0|]. pose proof (taken_active n N s2 R Nx W0). lia. }
  destruct cf; cbn [app].
  - apply ok_read; [apply waiting_none_stable|]. intros s2 X _ Re. eexists. split; [exact (T s2 X Re)|].
    apply ok_read; [apply taken_stable|]. intros s3 Y _ _. eexists. split; [exact Y|].
    apply ok_read; [apply taken_stable|]. intros s4 Z4 _ _. eexists. split; [exact Z4|].
    rewrite (taken_waiting _ _ _ _ Z4). apply ok_nil; [apply taken_stable|]. do 2 eexists. split; [reflexivity|discriminate].
  - apply ok_read; [apply waiting_none_stable|]. intros s2 X _ Re. eexists. split; [exact (T s2 X Re)|].
    apply ok_read; [apply taken_stable|]. intros s3 Y _ _. eexists. split; [exact Y|].
    apply ok_read; [apply taken_stable|]. intros s4 Z4 _ _. eexists. split; [exact Z4|].
    rewrite (taken_waiting _ _ _ _ Z4). apply ok_nil; [apply taken_stable|]. do 2 eexists. split; [reflexivity|]. intros _.
    destruct Y as (_ & _ & _ & D). cbn. unfold active_workers_size. lia.
Qed.

(** run_sync *)
Record synced (n k : nat) (s : pool) : Prop := {
  y_reach : reach n s;
  y_next : next s = k;
  y_workers : length (workers s) = n;
  y_syncs : forall t, t < k -> In t (map fst (syncs s))
}.
Lemma synced_stable n k : stable (synced n k).
Proof.
  intros s e s' O [B1 B2 B3 B4]. destruct (other_frame _ _ _ O) as (F1 & _ & _ & _ & F5 & _ & _ & _ & F6).
  constructor; try congruence. - eapply reach_other; eauto. - intros t L. apply F6, B4, L.
Qed.
Lemma reach_synced n s t : reach n s -> In (t, true) (syncs s) -> In t (completed s).
Proof.
  intros (clock & tr & H & _) X. apply cnt_in. rewrite <- (t_finishes _ _ _ (exec_invT _ _ _ _ _ _ H) t). apply cnt_in, in_flat_map.
  exists (EFinish t). split; [exact (syncs_finished_proof _ _ _ _ _ _ _ H X)|left; reflexivity].
Qed.
Lemma synced_completed n k s : synced n k s -> returned s ->
  (forall x, cnt (completed s) x = if x <? k then 1 else 0) /\ waiting s = [] /\ active s <= n /\ active s <= k.
Proof.
  intros [B1 B2 B3 B4] Re. destruct (reach_invA _ _ B1) as [A P _ _].
  assert (C : forall t, t < k -> 0 < cnt (completed s) t).
  { intros t L. apply cnt_in. eapply reach_synced; [exact B1|]. specialize (B4 t L). apply in_map_iff in B4. destruct B4 as ((t' & b) & E & X).
    cbn in E. subst t'. rewrite <- (ret_syncs _ Re _ _ X) at 1. exact X. }
  split.
  - intros x. specialize (P x). unfold total in P. rewrite B2 in P. destruct (Nat.ltb_spec x k) as [Lx|Lx]; [|lia]. specialize (C x Lx). lia.
  - split.
    + destruct (waiting s) as [|(p & t) l] eqn:W; [reflexivity|exfalso]. specialize (P t). unfold total in P. rewrite B2, W in P. cbn [map snd] in P.
      rewrite cnt_cons, one_self in P. destruct (Nat.ltb_spec t k) as [Lx|Lx]; [|lia]. specialize (C t Lx). lia.
    + pose proof (busy_length (workers s)). pose proof (reach_load _ _ B1). lia.
Qed.
Lemma run_sync_proof n N clock tr s seen : 1 <= n -> run (initial n clock) (run_sync_test N) tr s [] seen ->
  exists a, run_sync_reads N a seen /\ (0 <= a <= Z.of_nat (Nat.min n N))%Z.
Proof.
  intros L H.
  assert (K : after_start (fun l => exists a, l = map Z.of_nat (seq 0 N) ++ [a; 0%Z; Z.of_nat N] /\ (0 <= a <= Z.of_nat (Nat.min n N))%Z) seen).
  { revert H. apply (ok_start n _ _ L) with (s := initial n clock); [|apply base_initial].
    assert (G : forall m k, k + m = N -> forall Q : list Z -> Prop, ok (synced n N) [Read Active; Read Waiting; Read (Counter N)] (fun l => Q (map Z.of_nat (seq k m) ++ l)) ->
      ok (synced n k) (concat (repeat [Read (Counter N); RunSync high] m) ++ [Read Active; Read Waiting; Read (Counter N)]) Q).
    { induction m as [|m IH]; intros k E Q K.
      - cbn [repeat concat app seq map] in *. rewrite Nat.add_0_r in E. subst k. exact K.
      - cbn [repeat concat app]. apply ok_read; [apply synced_stable|]. intros s2 X _ Re. exists (synced n k). split; [exact X|].
        apply ok_call; [apply synced_stable|exact I|]. intros s3 e s4 Y _ _ _ Ef St. exists (synced n (S k)). split.
        + destruct Y as [B1 B2 B3 B4]. destruct Ef as (-> & ->). constructor; cbn; auto.
          * eapply reach_step; [exact B1|exact St|discriminate].
          * intros t Lt. destruct (Nat.eq_dec t k) as [->|Ne]; [left; exact B2|right; apply B4; lia].
        + apply IH; [lia|]. replace (value (Counter N) s2) with (Z.of_nat k); [exact K|].
          destruct (synced_completed _ _ _ X Re) as (C & _). cbn. f_equal. symmetry.
          rewrite <- (all_count _ k k C (le_n k)) at 1. f_equal. apply filter_ext_in. intros t It. apply cnt_in in It. rewrite C in It.
          destruct (Nat.ltb_spec t k); [|lia]. apply Nat.ltb_lt. lia. }
    intros s0 tr0 s' seen0 B R. refine (G N 0 eq_refl (fun l => exists a, l = map Z.of_nat (seq 0 N) ++ [a; 0%Z; Z.of_nat N] /\ (0 <= a <= Z.of_nat (Nat.min n N))%Z) _ s0 tr0 s' seen0 _ R); [|destruct B as [B1 B2 B3 B4 B5 B6 B7 B8 B9]; constructor; auto; intros t X; lia].
    apply ok_read; [apply synced_stable|]. intros s2 X _ Re. exists (synced n N). split; [exact X|].
    apply ok_read; [apply synced_stable|]. intros s3 X3 _ Re3. exists (synced n N). split; [exact X3|].
    apply ok_read; [apply synced_stable|]. intros s4 X4 _ Re4. exists (synced n N). split; [exact X4|].
    destruct (synced_completed _ _ _ X Re) as (_ & _ & Ac). destruct (synced_completed _ _ _ X3 Re3) as (_ & W & _).
    destruct (synced_completed _ _ _ X4 Re4) as (C & _).
    apply ok_nil; [apply synced_stable|]. cbn. unfold waiting_tasks_size. rewrite W, (all_count _ N N C (le_n N)).
    exists (Z.of_nat (active_workers_size s2)). split; [reflexivity|]. unfold active_workers_size. lia. }
  destruct K as (w & l & E & Nz & a & El & B). exists a. split; [|exact B]. exists w, l. auto.
Qed.
Lemma run_sync_passes_proof n N clock tr s seen : 1 <= n -> n = 1 \/ N <= 1 -> run (initial n clock) (run_sync_test N) tr s [] seen -> run_sync_passes N seen.
Proof. intros L D H. destruct (run_sync_proof _ _ _ _ _ _ L H) as (a & R & B). exists a. split; [exact R|]. lia. Qed.

(** test_run_sync_has_high_priority *)
Lemma high_priority_proof n N clock tr s seen : 1 <= n -> run (initial n clock) (high_priority_test N) tr s [] seen ->
  after_start (fun l => exists c, l = [c; 1%Z] /\ (0 <= c <= Z.of_nat N)%Z) seen.
Proof.
  intros L. apply (ok_start n _ _ L) with (s := initial n clock); [|apply base_initial]. apply ok_submits. cbn [Nat.add].
  set (J := fun s => reach n s /\ next s = S N /\ In N (map fst (syncs s))).
  assert (SJ : stable J).
  { intros s0 e s' O (R & Nx & X). destruct (other_frame _ _ _ O) as (F1 & _ & _ & _ & _ & _ & _ & _ & F6).
    split; [eapply reach_other; eauto|]. split; [congruence|]. apply F6, X. }
  apply ok_call; [apply base_stable|exact I|]. intros s0 e s1 B _ _ _ E St. exists J. split.
  { destruct B as [B1 B2 B3 B4 B5 B6 B7 B8 B9]. destruct E as (-> & ->). split; [eapply reach_step; [exact B1|exact St|discriminate]|].
    cbn. rewrite B2. auto. }
  apply ok_read; [exact SJ|]. intros s2 X2 _ _. exists J. split; [exact X2|].
  apply ok_read; [exact SJ|]. intros s3 X3 _ Re3. exists J. split; [exact X3|]. apply ok_nil; [exact SJ|].
  exists (value (Counter N) s2). split; [f_equal; f_equal|].
  - destruct X3 as (R & _ & X). apply in_map_iff in X. destruct X as ((t & b) & Eq & X). cbn in Eq. subst t.
    assert (In N (completed s3)) by (eapply reach_synced; [exact R|]; rewrite <- (ret_syncs _ Re3 _ _ X) at 1; exact X).
    cbn. replace (existsb (Nat.eqb N) (completed s3)) with true; [reflexivity|]. symmetry. apply existsb_exists. exists N. auto using Nat.eqb_refl.
  - apply counter_le. destruct X2 as (R & _ & _). exact (reach_invA _ _ R).
Qed.

(** test_on_stop_complete_tasks and test_on_stop_join_all *)
Lemma other_on_stop s e s' b : other s e s' -> e <> EOnStop b.
Proof.
  intros H. ocases H; try discriminate.
  - destruct (is_empty (waiting s) && (active s =? 0)); discriminate.
  - destruct (is_empty (waiting s)); discriminate.
Qed.
Definition stopped (n : nat) (a : action) (N : nat) (s : pool) : Prop :=
  exists clock tr1 s1 s2 tr2, exec (initial n clock) tr1 s1 /\ base n a N s1 /\ step s1 EStop s2 /\ exec s2 tr2 s /\
    no_run_at (tr1 ++ EStop :: tr2) /\ (forall b, ~ In (EOnStop b) tr2) /\ next s = N /\ stopping s = true.
Lemma stopped_exec n a N s : stopped n a N s -> exists clock tr, exec (initial n clock) tr s.
Proof.
  intros (clock & tr1 & s1 & s2 & tr2 & H1 & _ & S & H2 & _). exists clock, (tr1 ++ EStop :: tr2).
  change (EStop :: tr2) with ([EStop] ++ tr2). rewrite app_assoc. eapply exec_app; [|exact H2]. econstructor; eauto.
Qed.
Lemma stopped_stable n a N : stable (stopped n a N).
Proof.
  intros s e s' O (clock & tr1 & s1 & s2 & tr2 & H1 & B & S & H2 & R & M & Nx & St).
  destruct (other_frame _ _ _ O) as (F1 & _ & F3 & _ & _ & _ & F7 & _). exists clock, tr1, s1, s2, (tr2 ++ [e]).
  split; [exact H1|]. split; [exact B|]. split; [exact S|]. split; [econstructor; [exact H2|exact (other_step _ _ _ O)]|]. split; [|split; [|split; congruence]].
  - intros t b p X. rewrite app_comm_cons, app_assoc in X. apply in_app_or in X. destruct X as [X|[X|[]]]; [eapply R; eauto|eapply F7; eauto].
  - intros b X. apply in_app_or in X. destruct X as [X|[X|[]]]; [eapply M; eauto|eapply other_on_stop; eauto].
Qed.
Lemma ok_on_stop n a N (Q : list Z -> Prop) : 1 <= n ->
  (forall s, stopped n a N s -> returned s -> Q [value (Counter N) s]) ->
  ok (base n JoinAll 0) (on_stop_test a N) (after_start Q).
Proof.
  intros L K. apply (ok_start n _ _ L). apply ok_call; [apply base_stable|exact I|]. intros s0 e s1 B _ _ _ E S. exists (base n a 0). split.
  { destruct B as [B1 B2 B3 B4 B5 B6 B7 B8 B9]. destruct E as (-> & ->). constructor; cbn; auto.
    eapply reach_step; [exact B1|exact S|discriminate]. }
  apply ok_submits. cbn [Nat.add]. apply ok_call; [apply base_stable|exact I|]. intros s2 e2 s3 B2 _ _ _ E2 S2. exists (stopped n a N). split.
  { destruct E2 as (-> & ->). pose proof B2 as [(clock & tr & H & R) Bn Bs _ _ _ _ _ _].
    exists clock, tr, s2, (set_dtor DStopped (set_stopping true s2)), []. split; [exact H|]. split; [exact B2|]. split; [exact S2|]. split; [constructor|].
    split; [|split; [|split; [exact Bn|reflexivity]]].
    - intros t b p X. apply in_app_or in X. destruct X as [X|[X|[]]]; [eapply R; eauto|discriminate].
    - intros b []. }
  apply ok_read; [apply stopped_stable|]. intros s4 X _ Re. exists (stopped n a N). split; [exact X|]. apply ok_nil; [apply stopped_stable|]. auto.
Qed.
Lemma join_all_proof' n N clock tr s seen : 1 <= n -> run (initial n clock) (on_stop_test JoinAll N) tr s [] seen ->
  after_start (fun l => exists c, l = [c] /\ (0 <= c <= Z.of_nat N)%Z) seen.
Proof.
  intros L. apply (ok_on_stop n JoinAll N _ L) with (s := initial n clock); [|apply base_initial].
  intros s1 X _. exists (value (Counter N) s1). split; [reflexivity|]. apply counter_le. destruct (stopped_exec _ _ _ _ X) as (c & tr' & H).
  eapply exec_invA; eauto.
Qed.
Lemma complete_tasks_test_proof n N clock tr s seen : 1 <= n -> run (initial n clock) (on_stop_test CompleteTasks N) tr s [] seen ->
  complete_tasks_passes N seen.
Proof.
  intros L. apply (ok_on_stop n CompleteTasks N _ L) with (s := initial n clock); [|apply base_initial].
  intros s0 X Re. f_equal. pose proof (stopped_exec _ _ _ _ X) as (c0 & tr0 & H0). pose proof (exec_invA _ _ _ _ _ _ H0) as IA.
  destruct X as (cl & tr1 & s1 & s2 & tr2 & H1 & B & S & H2 & R & M & Nx & St).
  assert (D : dtor s0 = DDone). { destruct (ret_dtor _ Re) as [D|D]; [|exact D]. apply (a_dtor _ IA) in D. congruence. }
  assert (H : exec (initial n cl) (tr1 ++ EStop :: tr2) s0).
  { change (EStop :: tr2) with ([EStop] ++ tr2). rewrite app_assoc. eapply exec_app; [|exact H2]. econstructor; eauto. }
  pose proof (exec_invT _ _ _ _ _ _ H) as IT. destruct B as [_ _ Bs Bo Bt Bw _ _ _].
  assert (Sz : workers_size s1 = target s1).
  { apply Nat.le_antisymm; [|exact (size_at_least_proof _ _ _ _ _ _ H1 Bs)]. rewrite Bt, <- Bw. apply filter_length_le. }
  assert (F : forall t, t < N -> 0 < cnt (completed s0) t).
  { intros t Lt. assert (G : In t (givens (tr1 ++ EStop :: tr2))).
    { apply cnt_in. rewrite (t_givens _ _ _ IT). rewrite Nx. apply Nat.ltb_lt in Lt. rewrite Lt. lia. }
    apply in_flat_map in G. destruct G as (e & Ie & Ge). rewrite <- (t_finishes _ _ _ IT). apply cnt_in, in_flat_map. exists (EFinish t).
    split; [|left; reflexivity]. destruct e; try contradiction; destruct Ge as [<-|[]].
    - eapply complete_tasks_proof; [exact H1|exact S|exact H2|exact Bo| |exact Sz|lia|exact D|exact Ie]. intros b Y. exfalso. eapply M; eauto.
    - exfalso. eapply R; eauto. }
  cbn. rewrite (all_count _ N N); [reflexivity| |lia]. intros x. pose proof (a_places _ IA x) as P. unfold total in P. rewrite Nx in P.
  destruct (Nat.ltb_spec x N) as [Lx|Lx]; [specialize (F x Lx); lia|lia].
Qed.

(** test_run_at, test_run_after and test_scheduler_exits_and_is_restarted, with long sleeps *)
Record going (m n k : nat) (s : pool) : Prop := {
  g_reach : exists clock tr, exec (initial m clock) tr s;
  g_next : next s = k;
  g_stop : stopping s = false;
  g_target : target s = n
}.
Lemma going_stable m n k : stable (going m n k).
Proof.
  intros s e s' O [(c & tr & H) B2 B3 B4]. destruct (other_frame _ _ _ O) as (F1 & F2 & F3 & _). constructor; try congruence.
  exists c, (tr ++ [e]). econstructor; [exact H|exact (other_step _ _ _ O)].
Qed.
Lemma settled_calm m n k s : plain throws deps -> going m n k s -> 1 <= n -> status s = Alive -> settled throws deps s ->
  calm k s /\ workers_size s = n.
Proof.
  intros P [(c & tr & H) B2 B3 B4] L A (Q & Du). destruct (tasks_done_proof _ _ _ _ _ _ H P Q B3) as (W & R); [lia|].
  pose proof (exec_invA _ _ _ _ _ _ H) as IA. pose proof (due_proof _ _ _ _ _ _ H A Q B3) as Late. split.
  - constructor; auto.
    + apply map_eq_nil in W. exact W.
    + destruct (scheduled s) as [|x l]; [reflexivity|exfalso]. specialize (Late x (or_introl eq_refl)). specialize (Du x (or_introl eq_refl)). lia.
    + rewrite (a_active _ IA). apply sum_zero. intros i w Hi. pose proof (quiet_live _ _ _ P Q) as Lv. pose proof (sum_ge is_live _ _ _ Hi). destruct w; cbn in *; auto; lia.
  - rewrite (size_converges_proof _ _ _ _ _ _ H P Q B3). exact B4.
Qed.
(** [going] and at rest *)
Definition rested (m n k : nat) (s : pool) : Prop := going m n k s /\ calm k s.
Lemma rested_stable m n k : stable (rested m n k).
Proof. intros s e s' O (A & B). split; [eapply going_stable; eauto|eapply calm_stable; eauto]. Qed.
Lemma ok_rested_read m n k g v prog Q : (forall s, calm k s -> value g s = v) -> ok (rested m n k) prog (fun seen => Q (v :: seen)) ->
  ok (rested m n k) (Read g :: prog) Q.
Proof.
  intros V K. apply ok_read; [apply rested_stable|]. intros s C _ _. exists (rested m n k). split; [exact C|]. rewrite (V s (proj2 C)). exact K.
Qed.
Ltac rested_reads := repeat (eapply ok_rested_read; [let C := fresh in intros ? C; match goal with |- value ?g _ = _ =>
  let X := fresh in pose proof (calm_value _ _ g C) as X; cbv beta iota in X; first [exact X|apply X; lia] end|]).
Lemma run_after_going m n k s e s' d p : going m n k s -> step s e s' -> effect (RunAfter d p) s e s' -> going m n (S k) s'.
Proof.
  intros [(c & tr & H) B2 B3 B4] S (-> & E). constructor.
  - exists c, (tr ++ [ERunAt (next s) (now s + d) p]). econstructor; eauto.
  - subst s'. destruct (sched_obj s); [dif|]; cbn; congruence.
  - subst s'. destruct (sched_obj s); [dif|]; cbn; congruence.
  - subst s'. destruct (sched_obj s); [dif|]; cbn; congruence.
Qed.
Lemma counter_one k s : calm k s -> k <= 2 -> value (Counter 2) s = Z.of_nat k.
Proof.
  intros C L. pose proof (calm_completed _ _ C) as X. cbn [value]. f_equal.
  transitivity (length (filter (fun t => t <? k) (completed s))); [f_equal|exact (all_count _ k k X (le_n k))].
  apply filter_ext_in. intros t It. apply cnt_in in It. rewrite X in It. destruct (Nat.ltb_spec t k); [apply Nat.ltb_lt|]; lia.
Qed.
Lemma run_after_proof n clock tr s seen : plain throws deps -> (forall s, sleeps s -> settled throws deps s) -> 1 <= n ->
  run (initial n clock) run_after_test tr s [] seen -> run_after_passes seen.
Proof.
  intros P Sl L. apply (ok_start n _ _ L) with (s := initial n clock); [|apply base_initial].
  apply ok_call; [apply base_stable|exact I|]. intros s0 e s1 B _ _ _ E S. exists (going n n 1). split.
  { eapply run_after_going; [|exact S|exact E]. destruct B as [(c & t & H & _) B2 B3 B4 B5 B6 B7 B8 B9]. constructor; eauto. }
  apply ok_sleep; [apply going_stable|]. intros s2 G A _ X. exists (rested n n 1). split; [split; [exact G|]; eapply settled_calm; eauto|].
  rested_reads. apply ok_nil; [apply rested_stable|reflexivity].
Qed.
Lemma restart_proof n clock tr s seen : plain throws deps -> (forall s, sleeps s -> settled throws deps s) -> 1 <= n ->
  run (initial n clock) restart_test tr s [] seen -> restart_passes seen.
Proof.
  intros P Sl L. apply (ok_start n _ _ L) with (s := initial n clock); [|apply base_initial].
  apply ok_call; [apply base_stable|exact I|]. intros s0 e s1 B _ _ _ E S. exists (going n n 1). split.
  { eapply run_after_going; [|exact S|exact E]. destruct B as [(c & t & H & _) B2 B3 B4 B5 B6 B7 B8 B9]. constructor; eauto. }
  apply ok_sleep; [apply going_stable|]. intros s2 G A _ X. exists (rested n n 1). split; [split; [exact G|]; eapply settled_calm; eauto|].
  rested_reads. eapply ok_rested_read; [intros ? C; apply (counter_one _ _ C); lia|].
  apply ok_call; [apply rested_stable|exact I|]. intros s3 e3 s4 (G3 & _) _ _ _ E3 S3. exists (going n n 2). split; [eapply run_after_going; eauto|].
  apply ok_sleep; [apply going_stable|]. intros s5 G5 A5 _ X5. exists (rested n n 2). split; [split; [exact G5|]; eapply settled_calm; eauto|].
  rested_reads. apply ok_nil; [apply rested_stable|reflexivity].
Qed.

(** test_sanity *)
Lemma other_size s e s' : other s e s' -> stopping s = false -> workers_size s <= target s -> workers_size s' = workers_size s.
Proof.
  intros H St L. assert (Co' : waiting s = [] -> continues s = true).
  { intros _. unfold continues. rewrite St. apply Nat.leb_le in L. rewrite L. reflexivity. }
  rewrite !size_ok. unfold size in *. ocases H; auto; rewrite ?wake_size; auto;
    try (match goal with Hi : nth_error (workers ?s) ?i = Some ?y |- context [update ?i ?x (workers ?s)] =>
      pose proof (sum_update is_in_map i x y (workers s) Hi) as U; cbn in U; try (destruct w; try contradiction; cbn in U); lia end).
  - exfalso. unfold continues in Co. rewrite St in Co. apply Nat.leb_le in L. rewrite L in Co. discriminate.
  - destruct (sched_obj s); reflexivity.
Qed.
Record unserved (k : nat) (s : pool) : Prop := {
  u_reach : reach 0 s;
  u_next : next s = k;
  u_workers : workers s = [];
  u_waiting : length (waiting s) = k;
  u_stop : stopping s = false;
  u_target : target s = 0
}.
Lemma unserved_stable k : stable (unserved k).
Proof.
  intros s e s' O [B1 B2 B3 B4 B5 B6]. destruct (other_frame _ _ _ O) as (F1 & F2 & F3 & _ & F5 & _). rewrite B3 in F5.
  pose proof (reach_other _ _ _ _ B1 O) as R. constructor; try congruence; auto.
  - destruct (workers s'); [reflexivity|discriminate].
  - rewrite <- B4. destruct B1 as (c & tr & H & N). destruct (unscheduled _ _ _ _ _ _ H N) as (U1 & _). clear - O B3 U1.
    ocases O; auto; try (rewrite B3 in Hi; destruct i; discriminate); try (destruct (sched_obj s); reflexivity).
    rewrite U1 in Hj. destruct j; discriminate.
Qed.
Lemma unserved_value k s g : unserved k s -> match g with
  | Workers | Target | Active | WaitingWorkers | ActiveTasks | Scheduled => value g s = 0%Z
  | Waiting | Tasks => value g s = Z.of_nat k
  | _ => True
  end.
Proof.
  intros [B1 B2 B3 B4 B5 B6]. pose proof (a_active _ (reach_invA _ _ B1)) as A. rewrite B3 in A. cbn in A. pose proof (reach_scheduled _ _ B1) as Sc.
  destruct g; cbn; auto; unfold workers_size, target_workers_size, active_workers_size, waiting_workers_size, tasks_size, active_tasks_size,
    waiting_tasks_size, scheduled_tasks_size, workers_size; rewrite ?B3, ?A, ?Sc, ?B4, ?B6; cbn; rewrite ?Nat.add_0_r; auto.
Qed.
Lemma ok_unserved_read k g v prog Q : (forall s, unserved k s -> value g s = v) -> ok (unserved k) prog (fun seen => Q (v :: seen)) ->
  ok (unserved k) (Read g :: prog) Q.
Proof.
  intros V K. apply ok_read; [apply unserved_stable|]. intros s C _ _. exists (unserved k). split; [exact C|]. rewrite (V s C). exact K.
Qed.
Ltac unserved_reads := repeat (eapply ok_unserved_read; [let C := fresh in intros ? C; match goal with |- value ?g _ = _ =>
  exact (unserved_value _ _ g C) end|]).
Definition sized (k : nat) (s : pool) : Prop := rested 0 k k s /\ workers_size s = k.
Lemma sized_stable k : stable (sized k).
Proof.
  intros s e s' O (R & Z). split; [eapply rested_stable; eauto|]. rewrite <- Z. destruct R as ([_ _ B3 B4] & _). eapply other_size; eauto. lia.
Qed.
Lemma sized_value k s g : sized k s -> match g with
  | Workers | Target | WaitingWorkers => value g s = Z.of_nat k
  | Active | ActiveTasks | Tasks | Waiting | Scheduled => value g s = 0%Z
  | Flag t => t < k -> value g s = 1%Z
  | _ => True
  end.
Proof.
  intros ((G & C) & Z). pose proof (calm_value k s g C) as V. destruct C as [_ _ _ _ A]. destruct G as [_ _ _ T].
  destruct g; auto; cbn; unfold target_workers_size, waiting_workers_size; rewrite ?Z, ?A, ?T; cbn; auto. lia.
Qed.
Lemma ok_sized_read k g v prog Q : (forall s, sized k s -> value g s = v) -> ok (sized k) prog (fun seen => Q (v :: seen)) ->
  ok (sized k) (Read g :: prog) Q.
Proof.
  intros V K. apply ok_read; [apply sized_stable|]. intros s C _ _. exists (sized k). split; [exact C|]. rewrite (V s C). exact K.
Qed.
Ltac sized_reads := repeat (eapply ok_sized_read; [let C := fresh in intros ? C; match goal with |- value ?g _ = _ =>
  let X := fresh in pose proof (sized_value _ _ g C) as X; cbv beta iota in X; first [exact X|apply X; lia] end|]).
Lemma unserved_initial clock : unserved 0 (initial 0 clock).
Proof. constructor; cbn; auto. exists clock, []. split; [constructor|]. intros t a p []. Qed.
(** the part that needs no sleep *)
Lemma ok_sanity prog Q :
  (forall s e s', unserved 1 s -> effect (SetTarget 1) s e s' -> step s e s' -> exists J, J s' /\ ok J prog (fun seen => Q ([0; 0; 0; 0; 0; 0; 0; 0; 1; 0; 1]%Z ++ seen))) ->
  ok (unserved 0) ([Read Workers; Read Target; Read Active; Read WaitingWorkers; Read Tasks; Read ActiveTasks; Read Waiting; Read Scheduled;
    RunAsync normal; Read Waiting; Read ActiveTasks; Read Tasks; SetTarget 1] ++ prog) Q.
Proof.
  intros K. cbn [app]. unserved_reads. apply ok_call; [apply unserved_stable|exact I|]. intros s0 e s1 B _ _ _ E St. exists (unserved 1). split.
  { destruct B as [B1 B2 B3 B4 B5 B6]. destruct E as (-> & ->). constructor; cbn; auto; try congruence.
    - eapply reach_step; [exact B1|exact St|discriminate].
    - rewrite insert_waiting_length, B4. reflexivity. }
  unserved_reads. apply ok_call; [apply unserved_stable|exact I|]. intros s2 e2 s3 B2 _ _ _ E2 S2. exact (K s2 e2 s3 B2 E2 S2).
Qed.
Lemma sanity_proof clock tr s seen : plain throws deps -> (forall s, sleeps s -> settled throws deps s) ->
  run (initial 0 clock) sanity tr s [] seen -> sanity_passes seen.
Proof.
  intros P Sl. refine (ok_sanity _ sanity_passes _ (initial 0 clock) tr s seen (unserved_initial clock)).
  intros s0 e s1 [(c & t & H & _) B2 B3 B4 B5 B6] (-> & E) S. exists (going 0 1 1). split.
  { rewrite B5 in E. unfold workers_size in E. rewrite B3 in E. cbn in E. constructor; [|subst s1; reflexivity || exact B2|subst s1; exact B5|subst s1; reflexivity].
    exists c, (t ++ [ETarget 1]). econstructor; eauto. }
  apply ok_sleep; [apply going_stable|]. intros s2 G A _ X. exists (sized 1). split.
  { destruct (settled_calm _ _ _ _ P G (le_n 1) A (Sl _ X)) as (C & Z). split; [split; assumption|exact Z]. }
  sized_reads. apply ok_nil; [apply sized_stable|reflexivity].
Qed.

(** * The thread of a test does not get stuck *)
Lemma run_inv (I : pool -> Prop) s prog tr s' rest seen : stable I ->
  (forall c s e s', In c prog -> status s = Alive -> returned s -> dtor s = DNone -> effect c s e s' -> I s -> I s') ->
  run s prog tr s' rest seen -> I s -> I s'.
Proof.
  intros St E H. revert E. induction H as [s prog|s prog e s1 tr s' rest seen O H IH|s c prog e s1 tr s' rest seen A R D Ef H IH
    |s g prog tr s' rest seen A R H IH|s prog tr s' rest seen A R Sl H IH]; intros E Is.
  - exact Is.
  - apply IH; [exact E|]. eapply St; eauto.
  - apply IH; [intros; eapply E; eauto; right; assumption|]. eapply E; eauto. left. reflexivity.
  - apply IH; [intros; eapply E; eauto; right; assumption|exact Is].
  - apply IH; [intros; eapply E; eauto; right; assumption|exact Is].
Qed.
Lemma other_syncs s e s' : other s e s' -> (forall t b, In (t, b) (syncs s) -> b = true) -> forall t b, In (t, b) (syncs s') -> b = true.
Proof.
  intros H X. ocases H; auto.
  - destruct (sched_obj s); exact X.
  - intros t0 b Y. apply in_app_or in Y. destruct Y as [Y|[Y|Y]]; [| congruence |];
      apply (X t0 b); rewrite Hs; apply in_or_app; auto. right. right. exact Y.
Qed.
Definition free (s : pool) : Prop :=
  1 <= target s /\ (dtor s = DNone -> stopping s = false) /\
  (stopping s = true -> (forall c, In c (all_waiters s ++ none_waiters s) -> c = CReturned) /\ forall t b, In (t, b) (syncs s) -> b = true).
Lemma not_blocked_proof n clock prog tr s rest seen : plain throws deps -> 1 <= n -> (forall m, In (SetTarget m) prog -> 1 <= m) ->
  run (initial n clock) prog tr s rest seen -> quiescent s -> returned s.
Proof.
  intros P L T H Q. pose proof (run_exec _ _ _ _ _ _ _ _ H (exec_nil _ _ _)) as E. cbn in E.
  assert (F : invA s /\ free s).
  { refine (run_inv (fun s => invA s /\ free s) _ _ _ _ _ _ _ _ H _).
    - intros s0 e s1 O (IA & F1 & F2 & F3). split; [eapply step_invA; [exact IA|exact (other_step _ _ _ O)]|].
      destruct (other_frame _ _ _ O) as (G1 & G2 & G3 & _). destruct (other_callers _ _ _ O) as (C1 & C2 & _ & _ & C5 & C6).
      pose proof (step_invA _ _ _ _ _ IA (other_step _ _ _ O)) as IA'. split; [lia|]. split; [apply (a_dtor _ IA')|].
      rewrite G3. intros St. destruct (F3 St) as (K1 & K2). split; [|eapply other_syncs; eauto].
      assert (N : forall l l' : list cpc, length l' = length l -> (forall c, In c l -> c = CReturned) ->
        (forall k, nth_error l k = Some CReturned -> nth_error l' k = Some CReturned) -> forall c, In c l' -> c = CReturned).
      { intros l l' Len Al Ke c Ic. apply In_nth_error in Ic. destruct Ic as (k & Hk).
        destruct (nth_error l k) as [c0|] eqn:Y; [|apply nth_error_None in Y; rewrite <- Len in Y; apply nth_error_None in Y; congruence].
        assert (c0 = CReturned) by (apply Al; eapply nth_error_In; eauto). subst c0. apply Ke in Y. congruence. }
      intros c Ic. apply in_app_or in Ic. destruct Ic as [Ic|Ic].
      + eapply (N (all_waiters s0)); eauto. intros; apply K1, in_or_app; auto.
      + eapply (N (none_waiters s0)); eauto. intros; apply K1, in_or_app; auto.
    - intros c s0 e s1 Ic A R D Ef (IA & F1 & F2 & F3). pose proof (step_invA _ _ _ _ _ IA (effect_step _ _ _ _ A D Ef)) as IA'. split; [exact IA'|].
      split; [|split; [apply (a_dtor _ IA')|]].
      + destruct c; cbn in Ef; try contradiction; destruct Ef as (_ & ->); auto.
        * destruct (sched_obj s0); [dif|]; exact F1.
        * specialize (T m Ic). destruct (stopping s0); [exact F1|]. dif; exact T.
      + specialize (F2 D). destruct c; cbn in Ef; try contradiction; destruct Ef as (_ & ->); cbn; try congruence.
        * destruct (sched_obj s0); [dif|]; cbn; congruence.
        * destruct (stopping s0) eqn:St; [discriminate|]. dif; cbn; congruence.
        * intros _. split; [apply (ret_waiters _ R)|apply (ret_syncs _ R)].
    - split; [apply (initial_inv throws deps)|]. unfold free. cbn. split; [exact L|]. split; [auto|discriminate]. }
  destruct F as (IA & F1 & F2 & F3). pose proof (quiet_handoff _ _ _ Q) as Hh. unfold handoff in Hh.
  assert (Hd : pend_assign s = []) by (destruct (pend_assign s); [reflexivity|cbn in Hh; lia]).
  destruct (stopping s) eqn:St.
  - destruct (F3 eq_refl) as (K1 & K2). constructor; auto; try (eapply quiet_one; eauto); try (eapply quiet_all; eauto); try (eapply quiet_sched; eauto); try lia.
    right. apply (destroyed_proof _ _ _ _ _ _ E P Q). intros D. apply (a_dtor _ IA) in D. congruence.
  - constructor; auto; try (eapply quiet_one; eauto); try (eapply quiet_all; eauto); try (eapply quiet_sched; eauto); try lia.
    + intros c Ic. apply in_app_or in Ic. destruct Ic as [Ic|Ic]; apply In_nth_error in Ic; destruct Ic as (k & Hk).
      * eapply all_not_stuck_proof; eauto.
      * eapply none_not_stuck_proof; eauto.
    + intros t b X. eapply sync_not_stuck_proof; eauto.
    + left. apply (a_dtor _ IA). exact St.
Qed.
Lemma alive_proof n clock prog tr s rest seen : plain throws deps -> (forall d p, ~ In (RunAfter d p) prog) ->
  run (initial n clock) prog tr s rest seen -> status s = Alive.
Proof.
  intros P N H. assert (R : reach n s).
  { refine (run_inv (reach n) _ _ _ _ _ _ _ _ H _).
    - intros s0 e s1 O R. eapply reach_other; eauto.
    - intros c s0 e s1 Ic A R D Ef X. eapply reach_step; [exact X|eapply effect_step; eauto|]. intros t a p ->.
      destruct c; cbn in Ef; try contradiction; destruct Ef as (Ef & _); try discriminate. eapply N; eauto.
    - exists clock, []. split; [constructor|]. intros t a p []. }
  destruct R as (c & tr' & E & R). eapply survives_proof; [exact E|exact R|]. intros t _. apply P.
Qed.
End Tests.
