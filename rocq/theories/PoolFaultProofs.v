(** Proofs about executions in which calls of the thread pool fail. *)
From Coq Require Import List Bool Arith ZArith Lia Permutation.
From Verif Require Import ListUpdate PoolModel PoolSpec PoolProofs PoolLive PoolStop PoolWait PoolDue PoolFaultModel PoolFaultSpec.
Import ListNotations.

Local Arguments Nat.ltb : simpl never.
Local Arguments workers_size : simpl never.

Lemma happened_snoc tr e : happened (tr ++ [inl e]) = happened tr ++ [e].
Proof. unfold happened. rewrite flat_map_app. cbn. reflexivity. Qed.
Lemma happened_fail tr f : happened (tr ++ [inr f]) = happened tr.
Proof. unfold happened. rewrite flat_map_app. cbn. apply app_nil_r. Qed.

(** * The loop that adds workers *)
Lemma add_le ok c m : fst (add_workers ok c m) <= m.
Proof.
  revert c. induction m as [|m IH]; intros c; cbn; [lia|]. destruct (ok c); [|cbn; lia]. destruct (ok (S c)); [|cbn; lia].
  specialize (IH (S (S c))). destruct (add_workers ok (S (S c)) m). cbn in *. lia.
Qed.
Lemma add_normal ok c m k : add_workers ok c m = (k, Normal) <-> k = m /\ forall i, i < 2 * m -> ok (c + i) = true.
Proof.
  revert c k. induction m as [|m IH]; intros c k; cbn.
  - split; [intros H; injection H as <-; split; [reflexivity|intros; lia]|intros [-> _]; reflexivity].
  - destruct (ok c) eqn:O1; [|split; [discriminate|intros [_ H]; specialize (H 0 ltac:(lia)); rewrite Nat.add_0_r in H; congruence]].
    destruct (ok (S c)) eqn:O2; [|split; [discriminate|intros [_ H]; specialize (H 1 ltac:(lia)); replace (c + 1) with (S c) in H by lia; congruence]].
    destruct (add_workers ok (S (S c)) m) as [k' e] eqn:A. split.
    + intros H. injection H as <- ->. destruct (proj1 (IH _ _) A) as [-> X]. split; [reflexivity|]. intros [|[|i]] L.
      * rewrite Nat.add_0_r. exact O1.
      * replace (c + 1) with (S c) by lia. exact O2.
      * replace (c + S (S i)) with (S (S c) + i) by lia. apply X. lia.
    + intros [-> X]. assert (Y : add_workers ok (S (S c)) m = (m, Normal)).
      { apply IH. split; [reflexivity|]. intros i L. replace (S (S c) + i) with (c + S (S i)) by lia. apply X. lia. }
      rewrite A in Y. injection Y as -> ->. reflexivity.
Qed.
Lemma add_exception ok c m k : add_workers ok c m = (k, Exception) <->
  k < m /\ (forall i, i < 2 * k -> ok (c + i) = true) /\ ok (c + 2 * k) = false.
Proof.
  revert c k. induction m as [|m IH]; intros c k; cbn [add_workers].
  - split; [discriminate|lia].
  - destruct (ok c) eqn:O1.
    2: { split; [intros H; injection H as <-; split; [lia|split; [intros; lia|rewrite Nat.add_0_r; exact O1]]|].
         intros (_ & X & _). destruct k as [|k]; [reflexivity|]. specialize (X 0 ltac:(lia)). rewrite Nat.add_0_r in X. congruence. }
    destruct (ok (S c)) eqn:O2.
    2: { split; [discriminate|]. intros (_ & X & Y). destruct k as [|k]; [cbn in Y; rewrite Nat.add_0_r in Y; congruence|].
         specialize (X 1 ltac:(lia)). replace (c + 1) with (S c) in X by lia. congruence. }
    destruct (add_workers ok (S (S c)) m) as [k' e] eqn:A. split.
    + intros H. injection H as <- ->. destruct (proj1 (IH _ _) A) as (L & X & Y). split; [lia|]. split.
      * intros [|[|i]] Li; [rewrite Nat.add_0_r; exact O1|replace (c + 1) with (S c) by lia; exact O2|].
        replace (c + S (S i)) with (S (S c) + i) by lia. apply X. lia.
      * replace (c + 2 * S k') with (S (S c) + 2 * k') by lia. exact Y.
    + intros (L & X & Y). destruct k as [|k]; [cbn in Y; rewrite Nat.add_0_r in Y; congruence|].
      assert (Z : add_workers ok (S (S c)) m = (k, Exception)).
      { apply IH. split; [lia|]. split; [intros i Li; replace (S (S c) + i) with (c + S (S i)) by lia; apply X; lia|].
        replace (S (S c) + 2 * k) with (c + 2 * S k) by lia. exact Y. }
      rewrite A in Z. injection Z as -> ->. reflexivity.
Qed.

Lemma add_terminate ok c m k : add_workers ok c m = (k, Terminate) <->
  k < m /\ (forall i, i <= 2 * k -> ok (c + i) = true) /\ ok (c + (2 * k + 1)) = false.
Proof.
  revert c k. induction m as [|m IH]; intros c k; cbn [add_workers].
  - split; [discriminate|lia].
  - destruct (ok c) eqn:O1.
    2: { split; [discriminate|]. intros (_ & X & _). specialize (X 0 ltac:(lia)). rewrite Nat.add_0_r in X. congruence. }
    destruct (ok (S c)) eqn:O2.
    2: { split.
         - intros H. injection H as <-. split; [lia|]. split; [|replace (c + (2 * 0 + 1)) with (S c) by lia; exact O2].
           intros i L. replace (c + i) with c by lia. exact O1.
         - intros (_ & X & _). destruct k as [|k]; [reflexivity|]. specialize (X 1 ltac:(lia)). replace (c + 1) with (S c) in X by lia. congruence. }
    destruct (add_workers ok (S (S c)) m) as [k' e] eqn:A. split.
    + intros H. injection H as <- ->. destruct (proj1 (IH _ _) A) as (L & X & Y). split; [lia|]. split.
      * intros [|[|i]] Li; [rewrite Nat.add_0_r; exact O1|replace (c + 1) with (S c) by lia; exact O2|].
        replace (c + S (S i)) with (S (S c) + i) by lia. apply X. lia.
      * replace (c + (2 * S k' + 1)) with (S (S c) + (2 * k' + 1)) by lia. exact Y.
    + intros (L & X & Y). destruct k as [|k]; [replace (c + (2 * 0 + 1)) with (S c) in Y by lia; congruence|].
      assert (Z : add_workers ok (S (S c)) m = (k, Terminate)).
      { apply IH. split; [lia|]. split; [intros i Li; replace (S (S c) + i) with (c + S (S i)) by lia; apply X; lia|].
        replace (S (S c) + (2 * k + 1)) with (c + (2 * S k + 1)) by lia. exact Y. }
      rewrite A in Z. injection Z as -> ->. reflexivity.
Qed.

(** * The constructor *)
Lemma construct_proof ok n clock :
  (construct ok n clock = (Normal, Some (initial n clock)) <-> forall i, i < 2 * n -> ok i = true) /\
  (fst (construct ok n clock) = Exception <-> 0 < n /\ ok 0 = false) /\
  (fst (construct ok n clock) = Terminate <-> exists i, 0 < i < 2 * n /\ ok i = false /\ forall j, j < i -> ok j = true).
Proof.
  unfold construct.
  assert (T : forall c m k, add_workers ok c m = (k, Terminate) -> exists i, 0 < i < 2 * m /\ ok (c + i) = false /\ forall j, j < i -> ok (c + j) = true).
  { intros c m. revert c. induction m as [|m IH]; intros c k; cbn [add_workers]; [discriminate|].
    destruct (ok c) eqn:O1; [|discriminate]. destruct (ok (S c)) eqn:O2.
    - destruct (add_workers ok (S (S c)) m) as [k' e] eqn:A. intros H. injection H as _ ->. destruct (IH _ _ A) as (i & L & F & B).
      exists (S (S i)). split; [lia|]. split; [replace (c + S (S i)) with (S (S c) + i) by lia; exact F|].
      intros [|[|j]] Lj; [rewrite Nat.add_0_r; exact O1|replace (c + 1) with (S c) by lia; exact O2|].
      replace (c + S (S j)) with (S (S c) + j) by lia. apply B. lia.
    - intros _. exists 1. split; [lia|]. split; [replace (c + 1) with (S c) by lia; exact O2|].
      intros j Lj. destruct j; [rewrite Nat.add_0_r; exact O1|lia]. }
  destruct (add_workers ok 0 n) as [k e] eqn:A. destruct e.
  - apply add_normal in A. destruct A as [-> A]. cbn in A. split; [|split].
    + destruct n; (split; [intros _; exact A|reflexivity]).
    + assert (E : forall n', fst (match n' with 0 => (Normal, Some (initial n clock)) | S _ => (Normal, Some (initial n clock)) end) = Normal) by (intros []; reflexivity).
      cbn. split; [destruct n; discriminate|intros [L F]; specialize (A 0 ltac:(lia)); congruence].
    + split; [destruct n; discriminate|intros (i & L & F & _); rewrite A in F by lia; discriminate].
  - apply add_exception in A. destruct A as (L & X & Y). cbn in X, Y. destruct k as [|k]; cbn; (split; [|split]).
    + split; [discriminate|]. intros H. specialize (H 0 ltac:(lia)). cbn in Y. congruence.
    + split; [intros _; cbn in Y; split; [lia|exact Y]|reflexivity].
    + split; [discriminate|]. intros (i & Li & F & B). specialize (B 0 ltac:(lia)). cbn in Y. congruence.
    + split; [discriminate|]. intros H. rewrite H in Y by lia. discriminate.
    + split; [discriminate|]. intros [_ F]. rewrite X in F by lia. discriminate.
    + split; [intros _|reflexivity]. exists (2 * S k). split; [lia|]. split; [exact Y|]. exact X.
  - pose proof (T 0 n k A) as (i & Li & F & B). cbn in F, B. split; [|split].
    + destruct k; (split; [discriminate|intros H; rewrite H in F by lia; discriminate]).
    + destruct k; (split; [discriminate|intros [_ H]; rewrite B in H by lia; discriminate]).
    + destruct k; (split; [intros _; exists i; auto|reflexivity]).
Qed.

(** without failures the functions do what PoolModel.v says *)
Lemma set_target_normal ok n s : (forall i, ok i = true) ->
  set_target_size ok n s = (Normal, if stopping s then s
       else let s1 := set_workers (workers s ++ repeat WReady (n - workers_size s)) (set_target n s) in
            if n <? workers_size s1 then set_pend_all (S (pend_all s1)) s1 else s1).
Proof.
  intros O. unfold set_target_size. destruct (stopping s); [reflexivity|].
  rewrite (proj2 (add_normal ok 0 (n - workers_size s) (n - workers_size s))) by auto. reflexivity.
Qed.

(** how target_workers_size ends *)
Lemma set_target_endings ok n s : stopping s = false ->
  (fst (set_target_size ok n s) = Normal <-> forall i, i < 2 * (n - workers_size s) -> ok i = true) /\
  (forall s', set_target_size ok n s = (Exception, s') <-> exists k, k < n - workers_size s /\ (forall i, i < 2 * k -> ok i = true) /\ ok (2 * k) = false /\
     s' = set_workers (workers s ++ repeat WReady k) (set_target n s)) /\
  (forall s', set_target_size ok n s = (Terminate, s') <-> exists k, k < n - workers_size s /\ (forall i, i <= 2 * k -> ok i = true) /\ ok (2 * k + 1) = false /\
     s' = set_status Terminated (set_workers (workers s ++ repeat WReady k) (set_target n s))).
Proof.
  intros St. unfold set_target_size. rewrite St. destruct (add_workers ok 0 (n - workers_size s)) as [k e] eqn:A.
  split; [|split].
  - pose proof (add_normal ok 0 (n - workers_size s) (n - workers_size s)) as N. rewrite A in N. destruct e; cbn [fst].
    + split; [|reflexivity]. intros _. destruct (proj1 (add_normal _ _ _ _) A) as [-> X]. exact X.
    + split; [discriminate|]. intros X. destruct N as [_ N]. discriminate N. split; [reflexivity|exact X].
    + split; [discriminate|]. intros X. destruct N as [_ N]. discriminate N. split; [reflexivity|exact X].
  - intros s'. split.
    + destruct e; intros H; try discriminate. injection H as <-. destruct (proj1 (add_exception _ _ _ _) A) as (L & X & Y).
      exists k. repeat split; [exact L|exact X|exact Y].
    + intros (k' & L & X & Y & ->). pose proof (proj2 (add_exception ok 0 (n - workers_size s) k') (conj L (conj X Y))) as B.
      rewrite A in B. injection B as -> ->. reflexivity.
  - intros s'. split.
    + destruct e; intros H; try discriminate. injection H as <-. destruct (proj1 (add_terminate _ _ _ _) A) as (L & X & Y).
      exists k. repeat split; [exact L|exact X|exact Y].
    + intros (k' & L & X & Y & ->). pose proof (proj2 (add_terminate ok 0 (n - workers_size s) k') (conj L (conj X Y))) as B.
      rewrite A in B. injection B as -> ->. reflexivity.
Qed.

(** * What a failing call changes *)
Lemma add_cases ok c m k e : add_workers ok c m = (k, e) -> e <> Normal -> k < m.
Proof.
  revert c k. induction m as [|m IH]; intros c k A N; cbn in A; [congruence|].
  destruct (ok c); [|injection A as <- <-; lia]. destruct (ok (S c)); [|injection A as <- <-; lia].
  destruct (add_workers ok (S (S c)) m) as [k' e'] eqn:A'. injection A as <- ->. specialize (IH _ _ A' N). lia.
Qed.
Lemma fails_cases s f s' : fails s f s' ->
  ((f = FRun \/ f = FRunAt) /\ s' = s) \/ (exists n, f = FSpawn /\ pend_spawn s = S n /\ s' = set_pend_spawn n s) \/
  (exists st k n, f = FTarget n /\ may_call s /\ stopping s = false /\ k < n - workers_size s /\ (st = status s \/ st = Terminated) /\
     s' = set_status st (set_workers (workers s ++ repeat WReady k) (set_target n s))) \/
  (f = FMove /\ s' = set_status Terminated s).
Proof.
  intros [M|M|n P|ok n e s1 M E N|j x Hj]; [auto|auto|right; left; eauto| |auto].
  right. right. left. unfold set_target_size in E. destruct (stopping s) eqn:St; [congruence|].
  destruct (add_workers ok 0 (n - workers_size s)) as [k e0] eqn:A.
  assert (L : e0 <> Normal -> k < n - workers_size s) by (intros Q; exact (add_cases _ _ _ _ _ A Q)).
  destruct e0; injection E as <- <-; [congruence| |].
  - exists (status s), k, n. repeat split; auto; apply L; discriminate.
  - exists Terminated, k, n. repeat split; auto; apply L; discriminate.
Qed.
Lemma flat_repeat k : flat_map running_task (repeat WReady k) = [].
Proof. induction k; cbn; auto. Qed.
Lemma filter_repeat k : length (filter in_map (repeat WReady k)) = k.
Proof. induction k; cbn; auto. Qed.
Lemma more_size s k st n : workers_size (set_status st (set_workers (workers s ++ repeat WReady k) (set_target n s))) = workers_size s + k.
Proof. unfold workers_size. cbn [workers set_status set_workers set_target]. rewrite filter_app, app_length, filter_repeat. reflexivity. Qed.

Lemma fails_frame s f s' : fails s f s' -> same_tasks s s' /\ same_settings s s'.
Proof.
  intros F. unfold same_tasks, same_settings, running.
  destruct (fails_cases _ _ _ F) as [(_ & ->)|[(n & -> & P & ->)|[(st & k & n & -> & M & St & L & Q & ->)|(-> & ->)]]]; cbn;
    rewrite ?flat_map_app, ?flat_repeat, ?app_nil_r; repeat split; auto.
Qed.
Lemma fails_alive s f s' : fails s f s' -> status s' = Alive ->
  match f with
  | FMove => False
  | FTarget n => target s' = n /\ exists k, workers s' = workers s ++ repeat WReady k /\ workers_size s' = workers_size s + k /\ workers_size s' < n
  | FSpawn => target s' = target s /\ workers s' = workers s
  | _ => s' = s
  end.
Proof.
  intros F Al. destruct (fails_cases _ _ _ F) as [([->| ->] & ->)|[(n & -> & P & ->)|[(st & k & n & -> & M & St & L & Q & ->)|(-> & ->)]]];
    [reflexivity|reflexivity|split; reflexivity| |discriminate].
  cbn in *. split; [reflexivity|]. exists k. split; [reflexivity|]. rewrite more_size. lia.
Qed.

(** * The invariants *)
Section Fails.
Variable throws : nat -> bool.
Variable deps : nat -> list nat.
Local Notation exec_f := (exec_f throws deps).

Local Notation step := (step throws deps).
Local Notation quiescent := (quiescent throws deps).

Lemma sum_more f l k : f WReady = 0 -> sum_of f (l ++ repeat WReady k) = sum_of f l.
Proof. intros Z. rewrite sum_app, sum_repeat, Z. lia. Qed.
Lemma nth_more l k i w : nth_error (l ++ repeat WReady k) i = Some w -> nth_error l i = Some w \/ w = WReady.
Proof.
  intros H. destruct (Nat.lt_ge_cases i (length l)) as [L|L].
  - left. rewrite nth_error_app1 in H; assumption.
  - right. rewrite nth_error_app2 in H by exact L. apply nth_error_In, repeat_spec in H. exact H.
Qed.

Lemma fails_invA s f s' : invA s -> fails s f s' -> invA s'.
Proof.
  intros I F. destruct (fails_cases _ _ _ F) as [(_ & ->)|[(n & -> & P & ->)|[(st & k & n & -> & M & St & L & Q & ->)|(-> & ->)]]]; [exact I| | |];
    destruct I as [A1 A2 A3 A4]; (constructor; [| | |]); cbn; auto.
  - rewrite sum_more by reflexivity. exact A1.
  - intros x. unfold total. cbn. rewrite sum_more by reflexivity. apply A2.
  - intros _ i E. apply nth_more in E. destruct E as [E|E]; [|discriminate]. exact (A4 St i E).
Qed.
Lemma fails_invT clock tr s f s' : invT clock tr s -> fails s f s' -> invT clock tr s'.
Proof.
  intros I F. destruct (fails_cases _ _ _ F) as [(_ & ->)|[(n & -> & P & ->)|[(st & k & n & -> & M & St & L & Q & ->)|(-> & ->)]]]; [exact I| | |];
    destruct I; constructor; cbn; auto.
  intros x. rewrite sum_more by reflexivity. auto.
Qed.
Lemma fails_invW s f s' : invA s -> invW s -> fails s f s' -> invW s'.
Proof.
  intros A I F. destruct (fails_cases _ _ _ F) as [(_ & ->)|[(n & -> & P & ->)|[(st & k & n & -> & M & St & L & Q & ->)|(-> & ->)]]]; [exact I| | |];
    destruct I as [W1 W2 W3 W4]; (constructor; [| | |]); cbn; auto; unfold size in *.
  - rewrite size_ok in L. unfold size in L. rewrite sum_app, sum_repeat. cbn. lia.
  - intros H1 H2. specialize (W2 H1 H2). rewrite !sum_app, !sum_repeat. cbn. lia.
  - intros H1 H2 H3. specialize (W3 H1 H2 H3). rewrite !sum_app, !sum_repeat. cbn. lia.
Qed.
Lemma fails_invD s f s' : invA s -> invD s -> fails s f s' -> invD s'.
Proof.
  intros A I F. destruct (fails_cases _ _ _ F) as [(_ & ->)|[(n & -> & P & ->)|[(st & k & n & -> & M & St & L & Q & ->)|(-> & ->)]]]; [exact I| | |];
    destruct I as [D1 D2 D3 D4 D5]; (constructor; [| | | |]); cbn; auto.
  - rewrite sum_more by reflexivity. exact D1.
  - apply (a_dtor _ A) in St. rewrite St. intros [H|H]; discriminate.
Qed.
Lemma fails_invS s f s' : invS s -> fails s f s' -> invS s'.
Proof.
  intros I F. destruct (fails_cases _ _ _ F) as [(_ & ->)|[(n & -> & P & ->)|[(st & k & n & -> & M & St & L & Q & ->)|(-> & ->)]]]; exact I.
Qed.

Record inv_f (clock : Z) (tr : list event) (s : pool) : Prop := {
  fA : invA s; fT : invT clock tr s; fW : invW s; fD : invD s; fS : invS s }.
Lemma exec_f_inv n clock tr s : exec_f (initial n clock) tr s -> inv_f clock (happened tr) s.
Proof.
  intros H. induction H as [|tr s e s' H IH S|tr s f s' H IH Al F].
  - constructor; [apply initial_inv|apply initial_invT|apply initial_invW|apply initial_invD|intros t b []]; assumption.
  - destruct IH as [A T W D Y]. rewrite happened_snoc. constructor.
    + exact (step_invA _ _ _ _ _ A S).
    + exact (step_invT _ _ _ _ _ _ _ A T S).
    + exact (step_invW _ _ _ _ _ A W S).
    + exact (step_invD _ _ _ _ _ A D S).
    + exact (step_invS _ _ _ _ _ A Y S).
  - destruct IH as [A T W D Y]. rewrite happened_fail. constructor.
    + exact (fails_invA _ _ _ A F).
    + exact (fails_invT _ _ _ _ _ T F).
    + exact (fails_invW _ _ _ A W F).
    + exact (fails_invD _ _ _ A D F).
    + exact (fails_invS _ _ _ Y F).
Qed.

(** * What still holds *)
Lemma f_places n clock tr s : exec_f (initial n clock) tr s ->
  Permutation (scheduled_tasks s ++ waiting_tasks s ++ running s ++ completed s) (givens (happened tr)) /\ NoDup (givens (happened tr)) /\
  Permutation (starts (happened tr)) (running s ++ completed s) /\ Permutation (finishes (happened tr)) (completed s) /\
  NoDup (starts (happened tr)) /\ NoDup (finishes (happened tr)).
Proof. intros H. destruct (exec_f_inv _ _ _ _ H) as [A T _ _ _]. exact (places_of _ _ _ A T). Qed.
Lemma f_order n clock tr s w t s' p t' p' : exec_f (initial n clock) tr s -> step s (EStart w t) s' ->
  given_priority (happened tr) t p -> In t' (entries (happened tr)) -> ~ In t' (starts (happened tr)) ->
  given_priority (happened tr) t' p' -> t' <> t ->
  (p' < p)%Z \/ (p' = p /\ before (entries (happened tr)) t t' /\ ~ before (entries (happened tr)) t' t).
Proof. intros H. destruct (exec_f_inv _ _ _ _ H) as [A T _ _ _]. exact (start_order_of _ _ _ _ _ _ _ _ _ _ _ A T). Qed.
Lemma f_getters n clock tr s : exec_f (initial n clock) tr s ->
  active_workers_size s = length (filter busy (workers s)) /\ active_tasks_size s = length (filter busy (workers s)) /\
  active_workers_size s <= workers_size s /\
  waiting_workers_size s = Z.of_nat (length (filter (fun w => in_map w && negb (busy w)) (workers s))) /\
  tasks_size s = length (waiting_tasks s) + length (filter busy (workers s)) /\
  waiting_tasks_size s = length (waiting_tasks s) /\ scheduled_tasks_size s = length (scheduled_tasks s).
Proof. intros H. destruct (exec_f_inv _ _ _ _ H) as [A T _ _ _]. exact (getters_of _ A). Qed.
Lemma f_not_early n clock tr s t at_ p : exec_f (initial n clock) tr s ->
  In (ERunAt t at_ p) (happened tr) -> In t (entries (happened tr)) -> clock_reached clock (happened tr) at_.
Proof. intros H. destruct (exec_f_inv _ _ _ _ H) as [A T _ _ _]. exact (not_early_of _ _ _ _ _ _ T). Qed.
Lemma f_sync n clock tr s t s' : exec_f (initial n clock) tr s -> step s (ESyncReturned t) s' ->
  In (EFinish t) (happened tr) /\ exists w, In (EStart w t) (happened tr).
Proof. intros H. destruct (exec_f_inv _ _ _ _ H) as [A T _ _ _]. exact (sync_of _ _ _ _ _ _ _ T). Qed.
Lemma f_wait_all n clock tr s k s' : exec_f (initial n clock) tr s -> step s (EAllReturned k) s' ->
  waiting_tasks s = [] /\ running s = [] /\ filter busy (workers s) = [].
Proof. intros H. destruct (exec_f_inv _ _ _ _ H) as [A T _ _ _]. exact (all_returns_idle_of _ _ _ _ _ A). Qed.
Lemma f_done n clock tr s : exec_f (initial n clock) tr s -> plain throws deps -> quiescent s -> stopping s = false ->
  1 <= workers_size s ->
  waiting_tasks s = [] /\ running s = [] /\ Forall (eq CReturned) (all_waiters s) /\ Forall (eq CReturned) (none_waiters s) /\
  Forall (fun x => snd x = true) (syncs s).
Proof.
  intros H P Q St L. destruct (exec_f_inv _ _ _ _ H) as [A T W D Y]. rewrite size_ok in L.
  destruct (tasks_done_of _ _ _ W P Q St L) as [X1 X2]. split; [exact X1|]. split; [exact X2|]. split; [|split].
  - apply Forall_forall. intros c Hc. apply In_nth_error in Hc. destruct Hc as [k Hk]. symmetry. exact (all_not_stuck_of _ _ _ _ _ W P Q St L Hk).
  - apply Forall_forall. intros c Hc. apply In_nth_error in Hc. destruct Hc as [k Hk]. destruct c; [| |reflexivity].
    + exfalso. eapply Q, i_check_none; eauto.
    + exfalso. pose proof (sum_ge is_blocked _ _ _ Hk) as G. cbn in G. unfold waiting_tasks in X1. apply map_eq_nil in X1. apply (w_none _ W); [lia|exact X1].
  - apply Forall_forall. intros [t b] Hb. exact (sync_not_stuck_of _ _ _ _ _ A W Y P Q St L Hb).
Qed.
Lemma f_destroyed n clock tr s : exec_f (initial n clock) tr s -> plain throws deps -> quiescent s -> dtor s <> DNone -> dtor s = DDone.
Proof. intros H. destruct (exec_f_inv _ _ _ _ H) as [A T W D Y]. exact (destroyed_of _ _ _ D). Qed.
(** the size: never above a target that took effect later; below the target only after a failure *)
Lemma f_no_target n clock tr s : exec_f (initial n clock) tr s -> (forall m, ~ In (FTarget m) (failures tr)) ->
  stopping s = false -> target s <= workers_size s.
Proof.
  intros H N. rewrite size_ok. change (big_enough s). induction H as [|tr s e s' H IH S|tr s f s' H IH Al F].
  - unfold big_enough, size. cbn. rewrite sum_repeat. unfold is_in_map. cbn. lia.
  - apply (step_target _ _ _ _ _ (IH ltac:(intros m Hm; apply (N m); unfold failures; rewrite flat_map_app; apply in_or_app; auto)) S).
  - assert (B : big_enough s) by (apply IH; intros m Hm; apply (N m); unfold failures; rewrite flat_map_app; apply in_or_app; auto).
    destruct (fails_cases _ _ _ F) as [(_ & ->)|[(k & -> & P & ->)|[(st & k & m & -> & M & St & L & Q & ->)|(-> & ->)]]]; [exact B|exact B| |exact B].
    exfalso. apply (N m). unfold failures. rewrite flat_map_app. apply in_or_app. right. left. reflexivity.
Qed.
Lemma failures_snoc tr e : failures (tr ++ [inl e]) = failures tr.
Proof. unfold failures. rewrite flat_map_app. cbn. apply app_nil_r. Qed.
Lemma failures_fail tr f : failures (tr ++ [inr f]) = failures tr ++ [f].
Proof. unfold failures. rewrite flat_map_app. cbn. reflexivity. Qed.

Lemma exec_f_sorted n0 clock tr s : exec_f (initial n0 clock) tr s ->
  ForallOrdPairs (fun a b : sched_entry => (fst a <= fst b)%Z) (scheduled s).
Proof.
  intros H. induction H as [|tr s e s' H IH S|tr s f s' H IH Al F]; [constructor| |].
  - cases S; unfold goto, sgoto, submit; cbn; auto.
    + assert (X := insert_scheduled_sorted (time, (p, next s)) _ IH). destruct (sched_obj s); [dif|]; exact X.
    + destruct (stopping s); cbn; [exact IH|]. dif; exact IH.
    + destruct (sched_obj s); exact IH.
    + apply filter_sorted, IH.
  - destruct (proj1 (fails_frame _ _ _ F)) as (E & _). rewrite E. exact IH.
Qed.
Lemma exec_f_invE n clock tr s : exec_f (initial n clock) tr s -> ~ In FSpawn (failures tr) -> status s = Alive -> stopping s = false -> invE s.
Proof.
  intros H. induction H as [|tr s e s' H IH S|tr s f s' H IH Al F]; intros N Al' St.
  - constructor; cbn; auto; congruence.
  - rewrite failures_snoc in N. pose proof (step_stopping _ _ _ _ _ S St) as St0. assert (Al0 : status s = Alive) by apply S.
    exact (step_invE _ _ _ _ _ (fA _ _ _ (exec_f_inv _ _ _ _ H)) (IH N Al0 St0) S St0 Al' St).
  - rewrite failures_fail in N.
    assert (I : stopping s = false -> invE s) by (intros X; apply IH; auto; intros Y; apply N, in_or_app; auto).
    destruct (fails_cases _ _ _ F) as [(_ & ->)|[(k & -> & P & ->)|[(st & k & m & -> & M & St' & L & Q & ->)|(-> & ->)]]]; [apply I, St| | |discriminate].
    + exfalso. apply N, in_or_app. right. left. reflexivity.
    + apply (invE_same s); auto.
Qed.
Lemma f_due n clock tr s : exec_f (initial n clock) tr s -> ~ In FSpawn (failures tr) -> status s = Alive -> quiescent s -> stopping s = false ->
  forall e, In e (scheduled s) -> (now s < fst e)%Z.
Proof.
  intros H N Al Q St. exact (due_of _ _ _ (exec_f_invE _ _ _ _ H N Al St) (exec_f_sorted _ _ _ _ H) Q).
Qed.
End Fails.

Lemma target_normal_step throws deps ok n s : (forall i, ok i = true) -> may_call s -> status s = Alive ->
  fst (set_target_size ok n s) = Normal /\ step throws deps s (ETarget n) (snd (set_target_size ok n s)).
Proof.
  intros O M Al. rewrite (set_target_normal ok n s O). split; [reflexivity|]. cbn [snd]. split; [exact Al|]. left. exact (c_target s n M).
Qed.
