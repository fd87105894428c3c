(** Executions in which the tests of the thread pool fail. *)
From Coq Require Import List Bool Arith ZArith Lia.
From Verif Require Import ListUpdate PoolModel PoolSpec PoolProofs PoolTestModel PoolTestSpec.
Import ListNotations.

Local Arguments Nat.ltb : simpl never.

Section Runs.
Variable throws : nat -> bool.
Variable deps : nat -> list nat.
Variable sleeps : pool -> Prop.
Hypothesis P : plain throws deps.
Notation other := (other throws deps).
Notation run := (run throws deps sleeps).

(** some complete run of [prog] from [s] reads values in [Q] *)
Definition can (s : pool) (prog : list statement) (Q : list Z -> Prop) : Prop := exists tr s' seen, run s prog tr s' [] seen /\ Q seen.
Lemma can_end s (Q : list Z -> Prop) : Q [] -> can s [] Q.
Proof. intros H. exists [], s, []. split; [constructor|exact H]. Qed.
Lemma can_other s e s1 prog Q : other s e s1 -> can s1 prog Q -> can s prog Q.
Proof. intros O (tr & s' & seen & R & H). exists (e :: tr), s', seen. split; [econstructor; eauto|exact H]. Qed.
Lemma can_call s c e s1 prog Q : status s = Alive -> returned s -> dtor s = DNone -> effect c s e s1 -> can s1 prog Q -> can s (c :: prog) Q.
Proof. intros A B C E (tr & s' & seen & R & H). exists (e :: tr), s', seen. split; [eapply run_call; eauto|exact H]. Qed.
Lemma can_read s g prog Q : status s = Alive -> returned s -> can s prog (fun l => Q (value g s :: l)) -> can s (Read g :: prog) Q.
Proof. intros A B (tr & s' & seen & R & H). exists tr, s', (value g s :: seen). split; [apply run_read; auto|exact H]. Qed.
Lemma can_sleep s prog Q : status s = Alive -> returned s -> sleeps s -> can s prog Q -> can s (Sleep :: prog) Q.
Proof. intros A B C (tr & s' & seen & R & H). exists tr, s', seen. split; [apply run_sleep; auto|exact H]. Qed.

(** the steps of a worker *)
Lemma take i w s p t rest s1 : status s = Alive -> nth_error (workers s) i = Some w -> (match w with WReady | WAfter _ => True | _ => False end) ->
  continues s = true -> waiting s = (p, t) :: rest ->
  s1 = goto i (WRun t) (set_active (S (active_from w s)) (set_none_waiters
      (if is_empty rest then map wake_caller (none_waiters s) else none_waiters s) (set_waiting rest s))) -> other s (EStart i t) s1.
Proof.
  intros A Hi Hw Co W ->. split; [exact A|]. left. pose proof (i_work throws deps s i w Hi Hw) as H.
  destruct (work_cases i w s) as [(_ & X & _)|[(p' & t' & r' & _ & X & V)|(X & _)]]; try congruence. rewrite W in X. injection X as <- <- <-.
  rewrite V in H. exact H.
Qed.
Lemma rest_ i w s s1 : status s = Alive -> nth_error (workers s) i = Some w -> (match w with WReady | WAfter _ => True | _ => False end) ->
  continues s = true -> waiting s = [] ->
  s1 = goto i WWait (set_all_waiters (if active_from w s =? 0 then map wake_caller (all_waiters s) else all_waiters s) (set_active (active_from w s) s)) ->
  other s ETau s1.
Proof.
  intros A Hi Hw Co W ->. split; [exact A|]. left. pose proof (i_work throws deps s i w Hi Hw) as H.
  destruct (work_cases i w s) as [(_ & X & V)|[(p' & t' & r' & _ & X & V)|(X & _)]]; try congruence. rewrite V in H. exact H.
Qed.
Lemma leave i w s s1 : status s = Alive -> nth_error (workers s) i = Some w -> (match w with WReady | WAfter _ => True | _ => False end) ->
  continues s = false -> s1 = goto i (if stopping s then WExited else WGone) (set_active (active_from w s) s) -> other s ETau s1.
Proof.
  intros A Hi Hw Co ->. split; [exact A|]. left. pose proof (i_work throws deps s i w Hi Hw) as H.
  destruct (work_cases i w s) as [(X & _)|[(p' & t' & r' & X & _)|(_ & V)]]; try congruence. rewrite V in H. exact H.
Qed.
Lemma finish i t s s1 : status s = Alive -> nth_error (workers s) i = Some (WRun t) -> s1 = set_completed (t :: completed s) (goto i (WAfter t) s) ->
  other s (EFinish t) s1.
Proof.
  intros A Hi ->. split; [exact A|]. left. destruct (P t) as (Pt & Pd). apply i_finish; [exact Hi|exact Pt|]. rewrite Pd. intros x [].
Qed.
Lemma not_woken s s1 n : status s = Alive -> pend_one s = S n -> Forall (fun w => w <> WWait) (workers s) -> s1 = set_pend_one n s -> other s ETau s1.
Proof.
  intros A B C ->. split; [exact A|]. left. apply i_notify_none; [exact B|]. intros i H. rewrite Forall_forall in C. eapply C; [eapply nth_error_In; exact H|reflexivity].
Qed.
Lemma passes s s1 z : status s = Alive -> s1 = set_now z s -> other s (ETick z) s1.
Proof. intros A ->. split; [exact A|]. right. right. constructor. Qed.

(** the states of a pool without scheduled tasks and whose target is the number of its threads *)
Definition St (ws : list wpc) (q : list (Z * nat)) (os : action) (sp : bool) (a p1 : nat) (al no : list cpc) (sy : list (nat * bool))
    (c : list nat) (dt : dpc) (nw : Z) (nx : nat) : pool :=
  Pool Alive ws q [] [] None os sp (length ws) a p1 0 0 0 [] al no sy c dt nw nx.
Lemma St_initial n clock : initial n clock = St (repeat WReady n) [] JoinAll false 0 0 [] [] [] [] DNone clock 0.
Proof. unfold initial, St. rewrite repeat_length. reflexivity. Qed.
Lemma St_returned ws q os sp a al no sy c dt nw nx : (forall c, In c (al ++ no) -> c = CReturned) -> (forall t b, In (t, b) sy -> b = true) ->
  dt = DNone \/ dt = DDone -> returned (St ws q os sp a 0 al no sy c dt nw nx).
Proof. intros A B D. constructor; auto. Qed.
Lemma St_continues ws q os a p1 al no sy c dt nw nx : continues (St ws q os false a p1 al no sy c dt nw nx) = true.
Proof.
  unfold continues, workers_size. cbn. rewrite andb_true_r. apply Nat.leb_le. induction ws as [|w ws IH]; cbn; [lia|]. destruct (in_map w); cbn; lia.
Qed.
Lemma St_workers n q os sp a p1 al no sy c dt nw nx : value Workers (St (repeat WReady n) q os sp a p1 al no sy c dt nw nx) = Z.of_nat n.
Proof. cbn. f_equal. unfold workers_size. cbn. induction n as [|n IH]; cbn; auto. Qed.

Local Ltac ret0 := constructor; [reflexivity|reflexivity|reflexivity|reflexivity|reflexivity|intros ? []|intros ? ? []|left; reflexivity].
Local Ltac ret := apply St_returned; [cbn; tauto|cbn; tauto|auto].
Lemma can_start n clock prog (Q : list Z -> Prop) : 1 <= n -> can (initial n clock) prog Q ->
  can (initial n clock) (start ++ prog) (after_start Q).
Proof.
  intros L H. rewrite St_initial in *. unfold start. cbn [app]. apply can_read; [reflexivity|ret|]. apply can_read; [reflexivity|ret|].
  apply can_read; [reflexivity|ret|]. rewrite St_workers. destruct H as (tr & s' & seen & R & H). exists tr, s', seen. split; [exact R|].
  exists (Z.of_nat n), seen. split; [reflexivity|]. split; [lia|exact H].
Qed.
Lemma fails (Q R : list Z -> Prop) seen : after_start Q seen -> (forall l, Q l -> ~ R l) -> ~ after_start R seen.
Proof. intros (w & l & -> & _ & H) N (w' & l' & E & _ & H'). injection E as -> ->. exact (N _ H H'). Qed.

(** tasks 0 .. k-1 wait *)
Definition queue (a k : nat) : list (Z * nat) := map (fun t => (0%Z, t)) (seq a k).
Lemma queue_insert a k : insert_waiting 0 (a + k) (queue a k) = queue a (S k).
Proof.
  unfold queue. rewrite seq_S, map_app. cbn [map]. generalize (a + k). intros x. induction (seq a k) as [|y l IH]; cbn; [reflexivity|]. rewrite IH. reflexivity.
Qed.
Lemma no_wait n : Forall (fun w => w <> WWait) (repeat WReady n).
Proof. apply Forall_forall. intros w H. apply repeat_spec in H. subst w. discriminate. Qed.
Lemma can_submits n os nw prog Q m : forall k,
  can (St (repeat WReady n) (queue 0 (k + m)) os false 0 0 [] [] [] [] DNone nw (k + m)) prog Q ->
  can (St (repeat WReady n) (queue 0 k) os false 0 0 [] [] [] [] DNone nw k) (repeat (RunAsync normal) m ++ prog) Q.
Proof.
  induction m as [|m IH]; intros k H; cbn [repeat app]; [rewrite Nat.add_0_r in H; exact H|].
  eapply can_call; [reflexivity|ret|reflexivity|split; reflexivity|].
  eapply can_other; [eapply not_woken; [reflexivity|reflexivity|apply no_wait|reflexivity]|].
  change (can (St (repeat WReady n) (insert_waiting 0 (0 + k) (queue 0 k)) os false 0 0 [] [] [] [] DNone nw (S k)) (repeat (RunAsync normal) m ++ prog) Q).
  rewrite queue_insert. apply IH. replace (S k + m) with (k + S m) by lia. exact H.
Qed.
(** the first worker runs them all, and stops before finishing the last *)
Lemma can_drain n os nw N prog Q m : forall k,
  can (St (WRun (k + m) :: repeat WReady n) [] os false 1 0 [] [] [] (rev (seq 0 (k + m))) DNone nw N) prog Q ->
  can (St (WRun k :: repeat WReady n) (queue (S k) m) os false 1 0 [] [] [] (rev (seq 0 k)) DNone nw N) prog Q.
Proof.
  induction m as [|m IH]; intros k H; [rewrite Nat.add_0_r in H; exact H|].
  eapply can_other; [eapply (finish 0); reflexivity|].
  eapply can_other; [eapply (take 0); [reflexivity|reflexivity|exact I|apply (St_continues (WAfter k :: repeat WReady n))|reflexivity|reflexivity]|].
  match goal with |- can ?s _ _ => replace s with (St (WRun (S k) :: repeat WReady n) (queue (S (S k)) m) os false 1 0 [] [] [] (k :: rev (seq 0 k)) DNone nw N)
    by (destruct m; reflexivity) end.
  assert (X : k :: rev (seq 0 k) = rev (seq 0 (S k))) by (rewrite seq_S, rev_app_distr; reflexivity). rewrite X.
  apply (IH (S k)). replace (S k + m) with (k + S m) by lia. exact H.
Qed.
(** from the start to there *)
Lemma can_all_but_last n os nw N prog Q :
  can (St (WRun N :: repeat WReady n) [] os false 1 0 [] [] [] (rev (seq 0 N)) DNone nw (S N)) prog Q ->
  can (St (repeat WReady (S n)) [] os false 0 0 [] [] [] [] DNone nw 0) (repeat (RunAsync normal) (S N) ++ prog) Q.
Proof.
  intros H. apply (can_submits (S n) os nw prog Q (S N) 0). cbn [Nat.add].
  eapply can_other; [eapply (take 0); [reflexivity|reflexivity|exact I|apply St_continues|reflexivity|reflexivity]|].
  match goal with |- can ?s _ _ => replace s with (St (WRun 0 :: repeat WReady n) (queue 1 N) os false 1 0 [] [] [] (rev (seq 0 0)) DNone nw (S N))
    by (destruct N; reflexivity) end.
  exact (can_drain n os nw (S N) prog Q N 0 H).
Qed.

Lemma counter_rev k m : k <= m -> length (filter (fun t => t <? m) (rev (seq 0 k))) = k.
Proof.
  intros L. rewrite <- (seq_length k 0) at 2. rewrite <- (rev_length (seq 0 k)). f_equal.
  assert (F : forall l, (forall t, In t l -> t < m) -> filter (fun t => t <? m) l = l).
  { induction l as [|x l IH]; intros H; cbn; [reflexivity|]. rewrite (proj2 (Nat.ltb_lt x m) (H x (or_introl eq_refl))), IH; [reflexivity|]. intros; apply H; right; assumption. }
  apply F. intros t I. apply in_rev, in_seq in I. lia.
Qed.
Lemma rev_seq_S k : k :: rev (seq 0 k) = rev (seq 0 (S k)).
Proof. rewrite seq_S, rev_app_distr. reflexivity. Qed.
Lemma counter_value N k ws q os sp a p1 al no sy dt nw nx : k <= N ->
  value (Counter N) (St ws q os sp a p1 al no sy (rev (seq 0 k)) dt nw nx) = Z.of_nat k.
Proof. intros L. cbn [value completed St]. rewrite counter_rev; auto. Qed.

(** test_run_async: all tasks are done before the test looks *)
Lemma run_async_fails n N clock time : 1 <= n -> 1 <= N -> (forall s, (time <= now s)%Z -> sleeps s) ->
  exists tr s seen, run (initial n clock) (run_async_test N) tr s [] seen /\ after_start (fun l => l = [0; 0; Z.of_nat N]%Z) seen.
Proof.
  intros Ln LN Sl. destruct n as [|n]; [lia|]. destruct N as [|N]; [lia|]. apply can_start; [lia|]. rewrite St_initial. apply can_all_but_last.
  eapply can_other; [eapply (finish 0); reflexivity|].
  eapply can_other; [eapply (rest_ 0); [reflexivity|reflexivity|exact I|apply (St_continues (WAfter N :: repeat WReady n))|reflexivity|reflexivity]|].
  eapply can_other; [eapply (passes _ _ (Z.max clock time)); reflexivity|].
  change (can (St (WWait :: repeat WReady n) [] JoinAll false 0 0 [] [] [] (N :: rev (seq 0 N)) DNone (Z.max clock time) (S N))
    [Sleep; Read Active; Read Waiting; Read (Counter (S N))] (fun l => l = [0; 0; Z.of_nat (S N)]%Z)). rewrite rev_seq_S.
  apply can_sleep; [reflexivity|ret|apply Sl; cbn; lia|]. apply can_read; [reflexivity|ret|]. apply can_read; [reflexivity|ret|].
  apply can_read; [reflexivity|ret|]. rewrite counter_value by lia. apply can_end. reflexivity.
Qed.
(** test_on_stop_join_all: all tasks are done before the destructor is called *)
Lemma St_goto i w ws q os sp a p1 al no sy c dt nw nx :
  goto i w (St ws q os sp a p1 al no sy c dt nw nx) = St (update i w ws) q os sp a p1 al no sy c dt nw nx.
Proof. unfold goto, St, set_workers. cbn. rewrite update_length. reflexivity. Qed.
Lemma update_mid (l1 : list wpc) x y l2 : update (length l1) y (l1 ++ x :: l2) = l1 ++ y :: l2.
Proof. induction l1 as [|z l1 IH]; cbn; [reflexivity|]. rewrite IH. reflexivity. Qed.
Lemma can_exit q c nw nx prog Q b : forall a, can (St (repeat WExited (a + b)) q JoinAll true 0 0 [] [] [] c DJoining nw nx) prog Q ->
  can (St (repeat WExited a ++ repeat WReady b) q JoinAll true 0 0 [] [] [] c DJoining nw nx) prog Q.
Proof.
  induction b as [|b IH]; intros a H; cbn [repeat]; [rewrite app_nil_r; rewrite Nat.add_0_r in H; exact H|].
  eapply can_other.
  { eapply (leave a WReady); [reflexivity| |exact I| |reflexivity].
    - cbn. rewrite nth_error_app2; rewrite repeat_length; [|lia]. rewrite Nat.sub_diag. reflexivity.
    - unfold continues. cbn [stopping onStop St negb orb andb]. apply andb_false_r. }
  cbn [stopping St].
  change (can (goto a WExited (St (repeat WExited a ++ WReady :: repeat WReady b) q JoinAll true 0 0 [] [] [] c DJoining nw nx)) prog Q).
  rewrite St_goto. rewrite <- (repeat_length WExited a) at 1. rewrite update_mid.
  replace (repeat WExited a ++ WExited :: repeat WReady b) with (repeat WExited (S a) ++ repeat WReady b).
  - apply IH. replace (S a + b) with (a + S b) by lia. exact H.
  - change (repeat WExited (S a)) with (WExited :: repeat WExited a). rewrite repeat_cons, <- app_assoc. reflexivity.
Qed.
Lemma join_all_fails n N clock : 1 <= n ->
  exists tr s seen, run (initial n clock) (on_stop_test JoinAll N) tr s [] seen /\ after_start (fun l => l = [Z.of_nat N]) seen.
Proof.
  intros Ln. destruct n as [|n]; [lia|]. apply can_start; [lia|]. rewrite St_initial.
  eapply can_call; [reflexivity|ret|reflexivity|split; reflexivity|].
  change (can (St (repeat WReady (S n)) [] JoinAll false 0 0 [] [] [] [] DNone clock 0) (repeat (RunAsync normal) N ++ [Destroy; Read (Counter N)]) (fun l => l = [Z.of_nat N])).
  assert (End : forall ws a, (ws = repeat WReady (S n) /\ a = 0) \/ (exists t, ws = WAfter t :: repeat WReady n /\ a = 1) ->
    can (St ws [] JoinAll false a 0 [] [] [] (rev (seq 0 N)) DNone clock N) [Destroy; Read (Counter N)] (fun l => l = [Z.of_nat N])).
  { intros ws a Hw. assert (Wk : map wake_worker ws = ws).
    { assert (X : forall m, map wake_worker (repeat WReady m) = repeat WReady m) by (intros m; induction m as [|m IH]; cbn; congruence).
      destruct Hw as [(-> & _)|(t & -> & _)]; [apply X|]. cbn. rewrite X. reflexivity. }
    eapply can_call; [reflexivity|ret|reflexivity|split; reflexivity|].
    eapply can_other; [split; [reflexivity|left; apply d_notify_workers; reflexivity]|].
    eapply can_other; [split; [reflexivity|left; apply d_notify_scheds; reflexivity]|].
    change (can (Pool Alive (map wake_worker ws) [] [] [] None JoinAll true (length ws) a 0 0 0 0 [] [] [] [] (rev (seq 0 N)) DJoining clock N) [Read (Counter N)] (fun l => l = [Z.of_nat N])).
    rewrite Wk. change (can (St ws [] JoinAll true a 0 [] [] [] (rev (seq 0 N)) DJoining clock N) [Read (Counter N)] (fun l => l = [Z.of_nat N])).
    assert (Fin : can (St (repeat WExited (S n)) [] JoinAll true 0 0 [] [] [] (rev (seq 0 N)) DJoining clock N) [Read (Counter N)] (fun l => l = [Z.of_nat N])).
    { eapply can_other; [split; [reflexivity|left; apply d_join_workers; [reflexivity|]]|].
      { apply Forall_forall. intros w Iw. apply repeat_spec in Iw. auto. }
      eapply can_other; [split; [reflexivity|left; apply d_join_none; reflexivity]|].
      change (can (St (repeat WExited (S n)) [] JoinAll true 0 0 [] [] [] (rev (seq 0 N)) DDone clock N) [Read (Counter N)] (fun l => l = [Z.of_nat N])).
      apply can_read; [reflexivity|ret|]. rewrite counter_value by lia. apply can_end. reflexivity. }
    destruct Hw as [(-> & ->)|(t & -> & ->)].
    - apply (can_exit [] (rev (seq 0 N)) clock N _ _ (S n) 0). exact Fin.
    - eapply can_other.
      { eapply (leave 0 (WAfter t)); [reflexivity|reflexivity|exact I| |reflexivity]. unfold continues. cbn [stopping onStop St negb orb andb]. apply andb_false_r. }
      change (can (St (repeat WExited 1 ++ repeat WReady n) [] JoinAll true 0 0 [] [] [] (rev (seq 0 N)) DJoining clock N) [Read (Counter N)] (fun l => l = [Z.of_nat N])).
      apply can_exit. exact Fin. }
  destruct N as [|N]; [apply End; left; auto|]. apply can_all_but_last.
  eapply can_other; [eapply (finish 0); reflexivity|].
  change (can (St (WAfter N :: repeat WReady n) [] JoinAll false 1 0 [] [] [] (N :: rev (seq 0 N)) DNone clock (S N)) [Destroy; Read (Counter (S N))] (fun l => l = [Z.of_nat (S N)])).
  rewrite rev_seq_S. apply End. right. exists N. auto.
Qed.
(** test_run_sync_has_high_priority: the other tasks are done before the call of run_sync *)
Lemma high_priority_fails n N clock : 1 <= n -> 1 <= N ->
  exists tr s seen, run (initial n clock) (high_priority_test N) tr s [] seen /\ after_start (fun l => l = [Z.of_nat N; 1%Z]) seen.
Proof.
  intros Ln LN. destruct n as [|n]; [lia|]. destruct N as [|N]; [lia|]. apply can_start; [lia|]. rewrite St_initial. apply can_all_but_last.
  eapply can_other; [eapply (finish 0); reflexivity|].
  change (can (St (WAfter N :: repeat WReady n) [] JoinAll false 1 0 [] [] [] (N :: rev (seq 0 N)) DNone clock (S N)) (RunSync high :: [Read (Counter (S N)); Read (Flag (S N))]) (fun l => l = [Z.of_nat (S N); 1%Z])).
  eapply can_call; [reflexivity|ret|reflexivity|split; reflexivity|].
  change (can (St (WAfter N :: repeat WReady n) [(high, S N)] JoinAll false 1 1 [] [] [(S N, false)] (N :: rev (seq 0 N)) DNone clock (S (S N)))
    [Read (Counter (S N)); Read (Flag (S N))] (fun l => l = [Z.of_nat (S N); 1%Z])).
  eapply can_other; [eapply not_woken; [reflexivity|reflexivity|cbn; constructor; [discriminate|apply no_wait]|reflexivity]|].
  change (can (St (WAfter N :: repeat WReady n) [(high, S N)] JoinAll false 1 0 [] [] [(S N, false)] (N :: rev (seq 0 N)) DNone clock (S (S N)))
    [Read (Counter (S N)); Read (Flag (S N))] (fun l => l = [Z.of_nat (S N); 1%Z])).
  eapply can_other; [eapply (take 0); [reflexivity|reflexivity|exact I|apply (St_continues (WAfter N :: repeat WReady n))|reflexivity|reflexivity]|].
  change (can (St (WRun (S N) :: repeat WReady n) [] JoinAll false 1 0 [] [] [(S N, false)] (N :: rev (seq 0 N)) DNone clock (S (S N)))
    [Read (Counter (S N)); Read (Flag (S N))] (fun l => l = [Z.of_nat (S N); 1%Z])).
  eapply can_other; [eapply (finish 0); reflexivity|].
  change (can (St (WAfter (S N) :: repeat WReady n) [] JoinAll false 1 0 [] [] [(S N, false)] (S N :: N :: rev (seq 0 N)) DNone clock (S (S N)))
    [Read (Counter (S N)); Read (Flag (S N))] (fun l => l = [Z.of_nat (S N); 1%Z])).
  eapply can_other; [split; [reflexivity|left; apply (i_sync_return _ _ _ [] [] (S N)); [reflexivity|left; reflexivity]]|].
  change (can (St (WAfter (S N) :: repeat WReady n) [] JoinAll false 1 0 [] [] [(S N, true)] (S N :: N :: rev (seq 0 N)) DNone clock (S (S N)))
    [Read (Counter (S N)); Read (Flag (S N))] (fun l => l = [Z.of_nat (S N); 1%Z])).
  assert (R : returned (St (WAfter (S N) :: repeat WReady n) [] JoinAll false 1 0 [] [] [(S N, true)] (S N :: N :: rev (seq 0 N)) DNone clock (S (S N)))).
  { apply St_returned; [cbn; tauto| |auto]. intros t b [E|[]]. congruence. }
  apply can_read; [reflexivity|exact R|]. apply can_read; [reflexivity|exact R|]. apply can_end.
  f_equal; [|f_equal].
  - cbn [value completed St]. rewrite rev_seq_S. cbn [filter]. rewrite (Nat.ltb_irrefl (S N)), counter_rev by lia. reflexivity.
  - cbn [value completed St existsb]. rewrite Nat.eqb_refl. reflexivity.
Qed.
(** test_wait_until_no_tasks_waiting: the last task returns between the two reads *)
Lemma wait_none_fails n N clock : 1 <= n -> 1 <= N ->
  exists tr s seen, run (initial n clock) (wait_none_test true N) tr s [] seen /\ after_start (fun l => l = [Z.of_nat N - 1; 0; 0]%Z) seen.
Proof.
  intros Ln LN. destruct n as [|n]; [lia|]. destruct N as [|N]; [lia|]. apply can_start; [lia|]. rewrite St_initial. apply can_all_but_last.
  eapply can_call; [reflexivity|ret|reflexivity|split; reflexivity|].
  eapply can_other; [split; [reflexivity|left; apply (i_check_none _ _ _ 0); reflexivity]|].
  assert (R : forall ws a c, returned (St ws [] JoinAll false a 0 [] [CReturned] [] c DNone clock (S N))).
  { intros ws a c. apply St_returned; [|cbn; tauto|auto]. intros x [E|[]]. congruence. }
  change (can (St (WRun N :: repeat WReady n) [] JoinAll false 1 0 [] [CReturned] [] (rev (seq 0 N)) DNone clock (S N))
    [Read (Counter (S N)); Read Active; Read Waiting] (fun l => l = [Z.of_nat (S N) - 1; 0; 0]%Z)).
  apply can_read; [reflexivity|apply R|]. rewrite counter_value by lia.
  eapply can_other; [eapply (finish 0); reflexivity|].
  eapply can_other; [eapply (rest_ 0); [reflexivity|reflexivity|exact I|apply (St_continues (WAfter N :: repeat WReady n))|reflexivity|reflexivity]|].
  change (can (St (WWait :: repeat WReady n) [] JoinAll false 0 0 [] [CReturned] [] (N :: rev (seq 0 N)) DNone clock (S N))
    [Read Active; Read Waiting] (fun l => Z.of_nat N :: l = [Z.of_nat (S N) - 1; 0; 0]%Z)).
  apply can_read; [reflexivity|apply R|]. apply can_read; [reflexivity|apply R|]. apply can_end. cbn [value St active waiting active_workers_size waiting_tasks_size length].
  f_equal. lia.
Qed.
(** test_run_sync: the first worker has run all tasks but the last, which the second has run, and neither has gone on since *)
Definition Sy (w0 w1 : wpc) (n a : nat) (nw : Z) (k : nat) : pool :=
  St (w0 :: w1 :: repeat WReady n) [] JoinAll false a 0 [] [] (map (fun t => (t, true)) (rev (seq 0 k))) (rev (seq 0 k)) DNone nw k.
Lemma Sy_returned w0 w1 n a nw k : returned (Sy w0 w1 n a nw k).
Proof. apply St_returned; [cbn; tauto| |auto]. intros t b H. apply in_map_iff in H. destruct H as (x & E & _). congruence. Qed.
Lemma Sy_next k : (k, true) :: map (fun t : nat => (t, true)) (rev (seq 0 k)) = map (fun t => (t, true)) (rev (seq 0 (S k))).
Proof. rewrite <- rev_seq_S. reflexivity. Qed.
(** one round of the loop, served by worker 0 or by worker 1 *)
Lemma can_round (i : bool) w0 w1 n a nw k N prog (Q : list Z -> Prop) : k < N -> w0 <> WWait -> w1 <> WWait ->
  (match (if i then w1 else w0) with WReady => True | WAfter _ => 0 < a | _ => False end) ->
  can (Sy (if i then w0 else WAfter k) (if i then WAfter k else w1) n
         (match (if i then w1 else w0) with WAfter _ => a | _ => S a end) nw (S k)) prog (fun l => Q (Z.of_nat k :: l)) ->
  can (Sy w0 w1 n a nw k) ([Read (Counter N); RunSync high] ++ prog) Q.
Proof.
  intros L N0 N1 Hw H. cbn [app]. apply can_read; [reflexivity|apply Sy_returned|]. unfold Sy at 2. rewrite counter_value by lia.
  eapply can_call; [reflexivity|apply Sy_returned|reflexivity|split; reflexivity|].
  eapply can_other; [eapply not_woken; [reflexivity|reflexivity|cbn; constructor; [exact N0|constructor; [exact N1|apply no_wait]]|reflexivity]|].
  eapply can_other.
  { eapply (take (if i then 1 else 0) (if i then w1 else w0)); [reflexivity|destruct i; reflexivity| |apply (St_continues (w0 :: w1 :: repeat WReady n))|reflexivity|reflexivity].
    destruct (if i then w1 else w0); auto. }
  eapply can_other; [eapply (finish (if i then 1 else 0)); [reflexivity|destruct i; reflexivity|reflexivity]|].
  eapply can_other; [split; [reflexivity|left; apply (i_sync_return _ _ _ [] (map (fun t => (t, true)) (rev (seq 0 k))) k); [reflexivity|left; reflexivity]]|].
  match goal with |- can ?s _ _ => replace s with (Sy (if i then w0 else WAfter k) (if i then WAfter k else w1) n
         (match (if i then w1 else w0) with WAfter _ => a | _ => S a end) nw (S k)); [exact H|] end.
  unfold Sy. rewrite <- Sy_next, <- rev_seq_S. destruct i; [destruct w1 as [| | |x| |]|destruct w0 as [| | |x| |]]; try contradiction;
    first [reflexivity|destruct a as [|a]; [lia|]; unfold St; cbn; rewrite ?Nat.sub_0_r; reflexivity].
Qed.
Lemma can_rounds n nw N prog m : forall w0 a k (Q : list Z -> Prop),
  (w0 = WReady /\ a = 0) \/ (exists t, w0 = WAfter t /\ a = 1) -> k + m <= N -> 1 <= m ->
  (forall t, can (Sy (WAfter t) WReady n 1 nw (k + m)) prog (fun l => Q (map Z.of_nat (seq k m) ++ l))) ->
  can (Sy w0 WReady n a nw k) (concat (repeat [Read (Counter N); RunSync high] m) ++ prog) Q.
Proof.
  induction m as [|m IH]; intros w0 a k Q Hw L Lm H; [lia|]. cbn [repeat concat]. rewrite <- app_assoc.
  apply (can_round false); [lia|destruct Hw as [(-> & _)|(? & -> & _)]; discriminate|discriminate|destruct Hw as [(-> & _)|(? & -> & ->)]; [exact I|lia]|].
  replace (match w0 with WAfter _ => a | _ => S a end) with 1 by (destruct Hw as [(-> & ->)|(? & -> & ->)]; reflexivity).
  destruct m as [|m].
  - cbn [repeat concat app]. rewrite Nat.add_1_r in H. exact (H k).
  - apply IH; [right; exists k; auto|lia|lia|]. intros t. replace (S k + S m) with (k + S (S m)) by lia. exact (H t).
Qed.
Lemma run_sync_fails n N clock : 2 <= n -> 2 <= N ->
  exists tr s seen, run (initial n clock) (run_sync_test N) tr s [] seen /\ run_sync_reads N 2 seen.
Proof.
  intros Ln LN. destruct n as [|[|n]]; [lia|lia|]. destruct N as [|[|N]]; [lia|lia|]. apply can_start; [lia|]. rewrite St_initial.
  replace (repeat [Read (Counter (S (S N))); RunSync high] (S (S N))) with (repeat [Read (Counter (S (S N))); RunSync high] (S N) ++ [[Read (Counter (S (S N))); RunSync high]])
    by (rewrite <- repeat_cons; reflexivity).
  rewrite concat_app, <- app_assoc. cbn [concat]. rewrite app_nil_r.
  apply (can_rounds n clock (S (S N)) _ (S N) WReady 0 0); [left; auto|lia|lia|]. intros t. cbn [Nat.add].
  apply (can_round true); [lia|discriminate|discriminate|exact I|].
  apply can_read; [reflexivity|apply Sy_returned|]. apply can_read; [reflexivity|apply Sy_returned|]. apply can_read; [reflexivity|apply Sy_returned|].
  unfold Sy. rewrite counter_value by lia. apply can_end. cbn [value St active waiting active_workers_size waiting_tasks_size length Z.of_nat].
  rewrite (seq_S (S N) 0), map_app, <- app_assoc. reflexivity.
Qed.

(** test_sanity, test_run_at, test_run_after: the threads of the pool do nothing during the sleep *)
Lemma sanity_fails clock time : (forall s, (time <= now s)%Z -> sleeps s) ->
  exists tr s seen, run (initial 0 clock) sanity tr s [] seen /\ seen = [0; 0; 0; 0; 0; 0; 0; 0; 1; 0; 1; 1; 1; 0; 1; 1; 0; 1; 0; 0]%Z.
Proof.
  intros Sl. unfold sanity. do 8 (apply can_read; [reflexivity|ret0|]).
  eapply can_call; [reflexivity|ret0|reflexivity|split; reflexivity|].
  eapply can_other; [eapply not_woken; [reflexivity|reflexivity|constructor|reflexivity]|].
  do 3 (apply can_read; [reflexivity|ret0|]).
  eapply can_call; [reflexivity|ret0|reflexivity|split; reflexivity|].
  eapply can_other; [eapply (passes _ _ (Z.max clock time)); reflexivity|].
  apply can_sleep; [reflexivity|ret0|apply Sl; cbn; lia|].
  do 9 (apply can_read; [reflexivity|ret0|]). apply can_end. reflexivity.
Qed.
Lemma run_after_fails n clock time : 1 <= n -> (forall s, (time <= now s)%Z -> sleeps s) ->
  exists tr s seen, run (initial n clock) run_after_test tr s [] seen /\ after_start (fun l => l = [0; 0; 1; 0]%Z) seen.
Proof.
  intros Ln Sl. apply can_start; [lia|].
  eapply can_call; [reflexivity|ret0|reflexivity|split; reflexivity|].
  eapply can_other; [split; [reflexivity|left; eapply i_spawn; reflexivity]|].
  eapply can_other; [split; [reflexivity|left; apply (i_assign _ _ _ 0 [] []); reflexivity]|].
  eapply can_other; [eapply (passes _ _ (Z.max clock time)); reflexivity|].
  apply can_sleep; [reflexivity|ret0|apply Sl; cbn; lia|].
  do 4 (apply can_read; [reflexivity|ret0|]). apply can_end. reflexivity.
Qed.
(** and the scheduler may end before run_after has stored it, which ends the process *)
Lemma run_after_dies n clock : 1 <= n ->
  exists tr s rest seen, run (initial n clock) run_after_test tr s rest seen /\ status s = Terminated.
Proof.
  intros Ln. do 4 eexists. split.
  { unfold run_after_test, start. cbn [app]. do 3 (apply run_read; [reflexivity|ret0|]).
    eapply run_call; [reflexivity|ret0|reflexivity|split; reflexivity|].
    eapply run_other; [split; [reflexivity|left; eapply i_spawn; reflexivity]|].
    eapply run_other; [split; [reflexivity|left; apply (i_sched_loop _ _ _ 0); reflexivity]|].
    eapply run_other; [eapply (passes _ _ (clock + 1)%Z); reflexivity|].
    eapply run_other; [split; [reflexivity|left; eapply (i_sched_timeout _ _ _ 0); [reflexivity|cbn; lia]]|].
    eapply run_other; [split; [reflexivity|left; eapply (i_sched_move _ _ _ 0); reflexivity]|].
    apply run_here. }
  unfold sched_move, entry_is. cbn. reflexivity.
Qed.
End Runs.
