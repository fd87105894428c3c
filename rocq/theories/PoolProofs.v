From Coq Require Import List Bool Arith ZArith Lia Permutation.
From Verif Require Import ListUpdate PoolModel PoolSpec.
Import ListNotations.

Local Arguments Nat.ltb : simpl never.
Local Arguments workers_size : simpl never.

Definition is_in_map (w : wpc) : nat := if in_map w then 1 else 0.
Definition is_busy (w : wpc) : nat := if busy w then 1 else 0.
Definition runs (x : nat) (w : wpc) : nat := cnt (running_task w) x.
Definition size (l : list wpc) : nat := sum_of is_in_map l.
Arguments size : simpl never.

Lemma runs_run x t : runs x (WRun t) = one t x.
Proof. unfold runs. cbn [running_task]. rewrite cnt_cons, cnt_nil. lia. Qed.

Lemma size_ok s : workers_size s = size (workers s).
Proof.
  unfold workers_size, size. induction (workers s) as [|w l IH]; simpl; [reflexivity|].
  unfold is_in_map at 1. destruct (in_map w); simpl; lia.
Qed.
Lemma running_ok s x : cnt (running s) x = sum_of (runs x) (workers s).
Proof.
  unfold running. induction (workers s) as [|w l IH]; simpl; [reflexivity|]. rewrite cnt_app, IH. reflexivity.
Qed.

Lemma insert_waiting_cnt p t l x : cnt (map snd (insert_waiting p t l)) x = one t x + cnt (map snd l) x.
Proof.
  induction l as [|[p' t'] l IH]; cbn [insert_waiting map snd]; [rewrite cnt_cons; reflexivity|].
  destruct (p' <? p)%Z; cbn [map snd]; rewrite !cnt_cons; [lia|]. rewrite IH. lia.
Qed.
Definition id_of (e : sched_entry) : nat := snd (snd e).
Lemma insert_scheduled_cnt e l x : cnt (map id_of (insert_scheduled e l)) x = one (id_of e) x + cnt (map id_of l) x.
Proof.
  induction l as [|e' l IH]; cbn [insert_scheduled map]; [rewrite cnt_cons; reflexivity|].
  destruct (fst e <? fst e')%Z; cbn [map]; rewrite !cnt_cons; [lia|]. rewrite IH. lia.
Qed.
Lemma insert_scheduled_in e l e' : In e' (insert_scheduled e l) <-> e' = e \/ In e' l.
Proof.
  induction l as [|a l IH]; simpl; [intuition|]. destruct (fst e <? fst a)%Z; simpl; [intuition|]. rewrite IH. intuition.
Qed.
Lemma insert_waiting_in p t l y : In y (insert_waiting p t l) <-> y = (p, t) \/ In y l.
Proof.
  induction l as [|[p' t'] l IH]; simpl; [intuition|]. destruct (p' <? p)%Z; simpl; [intuition|]. rewrite IH. intuition.
Qed.
Lemma remove_scheduled_cnt e l x : cnt (map id_of (filter (fun e' => negb (entry_is e e')) l)) x =
  if Nat.eq_dec x (id_of e) then 0 else cnt (map id_of l) x.
Proof.
  induction l as [|a l IH]; simpl.
  - destruct (Nat.eq_dec x (id_of e)); reflexivity.
  - unfold entry_is at 1. fold (id_of e) (id_of a). destruct (Nat.eqb_spec (id_of e) (id_of a)) as [E|E]; simpl.
    + rewrite IH. destruct (Nat.eq_dec x (id_of e)); [reflexivity|]. rewrite cnt_cons, one_other by congruence. reflexivity.
    + rewrite !cnt_cons, IH. destruct (Nat.eq_dec x (id_of e)); [rewrite one_other by congruence; reflexivity|reflexivity].
Qed.
Lemma existsb_entry e l : existsb (entry_is e) l = true <-> 0 < cnt (map id_of l) (id_of e).
Proof.
  rewrite <- cnt_in, existsb_exists, in_map_iff. unfold entry_is.
  split; intros (a & H1 & H2); exists a; [apply Nat.eqb_eq in H2|]; unfold id_of in *.
  - auto.
  - rewrite H1. auto using Nat.eqb_refl.
Qed.

(** * Views of the critical sections *)
Definition active_from (w : wpc) (s : pool) : nat := match w with WAfter _ => active s - 1 | _ => active s end.

Lemma work_cases i w s :
  (continues s = true /\ waiting s = [] /\
   work_from i w s = (ETau, goto i WWait (set_all_waiters
      (if active_from w s =? 0 then map wake_caller (all_waiters s) else all_waiters s) (set_active (active_from w s) s)))) \/
  (exists p t rest, continues s = true /\ waiting s = (p, t) :: rest /\
   work_from i w s = (EStart i t, goto i (WRun t) (set_active (S (active_from w s)) (set_none_waiters
      (if is_empty rest then map wake_caller (none_waiters s) else none_waiters s) (set_waiting rest s))))) \/
  (continues s = false /\
   work_from i w s = (ETau, goto i (if stopping s then WExited else WGone) (set_active (active_from w s) s))).
Proof.
  assert (G : forall a, work i (set_active a s) =
    (if continues s then
       match waiting s with
       | [] => (ETau, goto i WWait (set_all_waiters (if a =? 0 then map wake_caller (all_waiters s) else all_waiters s) (set_active a s)))
       | (p, t) :: rest => (EStart i t, goto i (WRun t) (set_active (S a) (set_none_waiters
            (if is_empty rest then map wake_caller (none_waiters s) else none_waiters s) (set_waiting rest s))))
       end
     else (ETau, goto i (if stopping s then WExited else WGone) (set_active a s)))).
  { intros a. destruct s. unfold work. change (continues (set_active a _)) with (continues (Pool status workers waiting scheduled schedulers sched_obj onStop stopping target active pend_one
    pend_all pend_sched pend_spawn pend_assign all_waiters none_waiters syncs completed dtor now next)).
    destruct (continues _); [|reflexivity]. cbn. destruct waiting as [|[p t] rest]; cbn.
    - destruct (a =? 0); reflexivity.
    - destruct (is_empty rest); reflexivity. }
  assert (F : work_from i w s = work i (set_active (active_from w s) s)).
  { destruct s. destruct w; reflexivity. }
  rewrite F, G. destruct (continues s); [|auto]. destruct (waiting s) as [|[p t] rest]; [left; auto|right; left].
  exists p, t, rest. auto.
Qed.

Lemma sched_loop_cases j s :
  (stopping s = true /\ sched_loop j s = sgoto j SDone s) \/
  (stopping s = false /\ exists e l, scheduled s = e :: l /\ sched_loop j s = sgoto j (SWait e) s) \/
  (stopping s = false /\ scheduled s = [] /\ exists k, sched_obj s = Some k /\ sched_loop j s = set_sched_obj None (sgoto j SDone s)) \/
  (stopping s = false /\ scheduled s = [] /\ sched_obj s = None /\ sched_loop j s = set_status Terminated (sgoto j SDone s)).
Proof.
  unfold sched_loop. destruct (stopping s); cbn; [left; destruct (scheduled s); auto|right].
  destruct (scheduled s) as [|e l]; [right|left; split; [auto|exists e, l; auto]].
  destruct (sched_obj s) as [k|]; [left|right]; eauto 6.
Qed.
Lemma sched_loop_frame j s : exists c o st, sched_loop j s = set_schedulers c (set_sched_obj o (set_status st s)).
Proof.
  destruct (sched_loop_cases j s) as [(_ & ->)|[(_ & e & l & _ & ->)|[(_ & _ & k & _ & ->)|(_ & _ & _ & ->)]]]; unfold sgoto;
    destruct s; do 3 eexists; unfold set_sched_obj, set_schedulers, set_status; cbn; reflexivity.
Qed.
Lemma sched_move_frame j e s :
  (existsb (entry_is e) (scheduled s) = false /\ sched_move j e s = (ETau, set_status Undefined s)) \/
  (existsb (entry_is e) (scheduled s) = true /\ exists c o st, sched_move j e s =
     (EEnqueue (id_of e), set_schedulers c (set_sched_obj o (set_status st (set_pend_one (S (pend_one s))
        (set_scheduled (filter (fun e' => negb (entry_is e e')) (scheduled s))
        (set_waiting (insert_waiting (fst (snd e)) (id_of e) (waiting s)) s))))))).
Proof.
  unfold sched_move. destruct (existsb (entry_is e) (scheduled s)); [right|left; auto]. split; [reflexivity|].
  match goal with |- context [sched_loop j ?x] => destruct (sched_loop_frame j x) as (c & o & st & E); rewrite E end.
  exists c, o, st. reflexivity.
Qed.

(** case analysis on a step, with the views *)
Ltac cases H :=
  let Al := fresh "Al" in
  let V := fresh "V" in
  destruct H as [Al [H|[H|[H|H]]]];
  [ destruct H as [p M|p M|time p M|n M|a M|M|M|D]
  | destruct H as [i w Hi Hw|i t Hi Ht Hd|i t Hi Ht|i n Hn Hi|n Hn Hi|n Hn|j e n Hn Hj|j Hn Hj|n Hn|j l1 l2 Hj|j Hj|j e Hj Hnow|j e Hj
                  |k Hk|k Hk|l1 l2 t Hs Hc|D|D|D Hex|D Hso|j D Hso Hj];
    try match goal with
    | |- context [work_from ?i ?w ?s] =>
        destruct (work_cases i w s) as [(Co & Wt & V)|[(p & t & rest & Co & Wt & V)|(Co & V)]]; rewrite V; clear V
    | |- context [sched_loop ?j ?s] => destruct (sched_loop_frame j s) as (c & o & st & V); rewrite V; clear V
    | |- context [sched_move ?j ?e ?s] =>
        destruct (sched_move_frame j e s) as [(Ex & V)|(Ex & c & o & st & V)]; rewrite V; clear V
    end
  | destruct H as [i Hi|j e Hj|k Hk|k Hk]
  | destruct H as [z] ];
  cbn [fst snd].
Ltac dif := match goal with |- context [if ?c then _ else _] => destruct c end.
Ltac dif_in H := match type of H with context [if ?c then _ else _] => destruct c end.
Ltac rs := unfold runs in *; cbn [running_task] in *; rewrite ?cnt_cons, ?cnt_nil in *.
Ltac upd f := match goal with
  | Hi : nth_error (workers ?s) ?i = Some ?y |- context [sum_of f (update ?i ?x (workers ?s))] =>
      let E := fresh "Eu" in pose proof (sum_update f i x y (workers s) Hi) as E;
      let G := fresh "Gu" in pose proof (sum_ge f i y (workers s) Hi) as G
  end.
Ltac upds := repeat match goal with
  | Hi : nth_error (workers ?s) ?i = Some ?y, U : context [sum_of ?f (update ?i ?x (workers ?s))] |- _ =>
      let v := fresh "v" in
      pose proof (sum_update f i x y (workers s) Hi); pose proof (sum_ge f i y (workers s) Hi);
      set (v := sum_of f (update i x (workers s))) in *; clearbody v
  | Hi : nth_error (workers ?s) ?i = Some ?y |- context [sum_of ?f (update ?i ?x (workers ?s))] =>
      let v := fresh "v" in
      pose proof (sum_update f i x y (workers s) Hi); pose proof (sum_ge f i y (workers s) Hi);
      set (v := sum_of f (update i x (workers s))) in *; clearbody v
  end.
Ltac fin := cbn in *; lia.

Definition is_live (w : wpc) : nat := match w with WReady | WRun _ | WAfter _ => 1 | _ => 0 end.
Definition is_wait (w : wpc) : nat := match w with WWait => 1 | _ => 0 end.
Definition is_exited (w : wpc) : nat := match w with WExited => 1 | _ => 0 end.
Definition is_blocked (c : cpc) : nat := match c with CBlocked => 1 | _ => 0 end.
Definition is_swait (c : spc) : nat := match c with SWait _ => 1 | _ => 0 end.
Notation live s := (sum_of is_live (workers s)).
Notation waits s := (sum_of is_wait (workers s)).

Section Proofs.
Variable throws : nat -> bool.
Variable deps : nat -> list nat.
Notation step := (step throws deps).
Notation exec := (exec throws deps).
Notation internal := (internal throws deps).


Definition total (s : pool) (x : nat) : nat :=
  cnt (map id_of (scheduled s)) x + cnt (map snd (waiting s)) x + sum_of (runs x) (workers s) + cnt (completed s) x.

Record invA (s : pool) : Prop := {
  a_active : active s = sum_of is_busy (workers s);
  a_places : forall x, total s x = if x <? next s then 1 else 0;
  a_dtor : stopping s = false <-> dtor s = DNone;
  a_exited : stopping s = false -> forall i, nth_error (workers s) i <> Some WExited
}.

Lemma wake_size l : size (map wake_worker l) = size l.
Proof. unfold size. rewrite sum_map. apply sum_ext. intros []; reflexivity. Qed.
Lemma wake_busy l : sum_of is_busy (map wake_worker l) = sum_of is_busy l.
Proof. rewrite sum_map. apply sum_ext. intros []; reflexivity. Qed.
Lemma wake_runs x l : sum_of (runs x) (map wake_worker l) = sum_of (runs x) l.
Proof. rewrite sum_map. apply sum_ext. intros []; reflexivity. Qed.
Lemma wake_nth l i w : nth_error (map wake_worker l) i = Some w -> exists w0, nth_error l i = Some w0 /\ w = wake_worker w0.
Proof. rewrite nth_error_map. destruct (nth_error l i) as [w0|]; [|discriminate]. simpl. intros E. injection E as <-. eauto. Qed.

Lemma initial_inv n clock : invA (initial n clock).
Proof.
  constructor; simpl.
  - rewrite sum_repeat. unfold is_busy. simpl. lia.
  - intros x. unfold total. simpl. rewrite sum_repeat. unfold runs. simpl. rewrite !cnt_nil. lia.
  - tauto.
  - intros _ i E. apply nth_error_In, repeat_spec in E. discriminate.
Qed.


Lemma continues_size s : continues s = true -> size (workers s) <= target s.
Proof. unfold continues. rewrite size_ok. intros H. apply andb_prop in H. apply Nat.leb_le, H. Qed.
Lemma not_continues s : continues s = false -> stopping s = false -> target s < size (workers s).
Proof.
  unfold continues. rewrite size_ok. intros H St. rewrite St in H. simpl in H. rewrite andb_true_r in H. apply Nat.leb_gt. exact H.
Qed.

Lemma step_invA s e s' : invA s -> step s e s' -> invA s'.
Proof.
  intros [A P D0 X] H. constructor.
  - (* active *)
    cases H; unfold goto, sgoto, submit; cbn; try exact A; try (rewrite wake_busy; exact A);
      try (upd is_busy; destruct w; try contradiction; cbn in *; lia);
      try (upd is_busy; cbn in *; lia).
    + destruct (sched_obj s); [dif|]; exact A.
    + destruct (stopping s); [exact A|]. dif; cbn; rewrite sum_app, sum_repeat; cbn; lia.
    + upd is_busy. destruct (stopping s); destruct w; try contradiction; cbn in *; lia.
    + destruct (sched_obj s); exact A.
  - (* places *)
    intros x. specialize (P x). unfold total in *.
    cases H; unfold goto, sgoto, submit; cbn; try exact P; rewrite ?wake_runs;
      try exact P.
    + rewrite insert_waiting_cnt. rewrite <- one_next. lia.
    + rewrite insert_waiting_cnt. rewrite <- one_next. lia.
    + assert (E : total (set_next (S (next s)) (set_scheduled (insert_scheduled (time, (p, next s)) (scheduled s)) s)) x = if x <? S (next s) then 1 else 0).
      { unfold total. cbn. rewrite insert_scheduled_cnt, <- one_next. change (id_of (time, (p, next s))) with (next s). lia. }
      unfold total in E. cbn in E.
      destruct (sched_obj s); [dif|]; exact E.
    + destruct (stopping s); [exact P|]. dif; cbn; rewrite sum_app, sum_repeat; rs; lia.
    + upd (runs x). rewrite Wt in *. destruct w; try contradiction; rs; cbn in *; lia.
    + upd (runs x). rewrite Wt in *. cbn [map snd] in P. rewrite cnt_cons in P.
      destruct w; try contradiction; rs; cbn in *; lia.
    + upd (runs x). destruct (stopping s); destruct w; try contradiction; rs; cbn in *; lia.
    + upd (runs x). rewrite cnt_cons. rs; lia.
    + upd (runs x). rs; cbn in *; lia.
    + destruct (sched_obj s); exact P.
    + rewrite remove_scheduled_cnt, insert_waiting_cnt. apply existsb_entry in Ex.
      destruct (Nat.eq_dec x (id_of e)) as [->|N]; [|rewrite one_other by exact N; lia].
      rewrite one_self. destruct (id_of e <? next s); lia.
    + upd (runs x). rs; cbn in *; lia.
  - (* dtor *)
    cases H; unfold goto, sgoto, submit; cbn; try exact D0;
      try (rewrite D0, D; split; discriminate); try (split; discriminate).
    + destruct (sched_obj s); [dif|]; exact D0.
    + destruct (stopping s) eqn:St; [rewrite St; exact D0|]. dif; cbn; rewrite St; exact D0.
    + destruct (sched_obj s); exact D0.
  - (* exited *)
    cases H; unfold goto, sgoto, submit; cbn; try exact X; try discriminate;
      try (intros St k Hk0; apply update_inv in Hk0; destruct Hk0 as [(_ & Q & _)|[_ Q]]; [discriminate|exact (X St k Q)]);
      try (intros St k Hk0; apply wake_nth in Hk0; destruct Hk0 as (w0 & Q & E); destruct w0; try discriminate; exact (X St k Q)).
    + destruct (sched_obj s); [dif|]; exact X.
    + destruct (stopping s) eqn:St; [intros; congruence|]. intros _ k Hk.
      assert (Hk' : nth_error (workers s ++ repeat WReady (n - workers_size s)) k = Some WExited) by (dif_in Hk; exact Hk).
      destruct (Nat.lt_ge_cases k (length (workers s))) as [L|L].
      * rewrite nth_error_app1 in Hk' by exact L. exact (X eq_refl k Hk').
      * rewrite nth_error_app2 in Hk' by exact L. apply nth_error_In, repeat_spec in Hk'. discriminate.
    + intros St k Hk. rewrite St in *. apply update_inv in Hk. destruct Hk as [(_ & Q & _)|[_ Q]]; [discriminate|exact (X eq_refl k Q)].
    + destruct (sched_obj s); exact X.
Qed.

Lemma exec_invA n clock tr s : exec (initial n clock) tr s -> invA s.
Proof. intros H. induction H; [apply initial_inv|eapply step_invA; eauto]. Qed.

(** the pool is never smaller than its target *)
Definition big_enough (s : pool) : Prop := stopping s = false -> target s <= size (workers s).
Lemma step_target s e s' : big_enough s -> step s e s' -> big_enough s'.
Proof.
  unfold big_enough.
  intros T H. cases H; unfold goto, sgoto, submit; cbn; try exact T; try (rewrite wake_size; exact T); try discriminate;
    try (intros St; specialize (T St); unfold size in *; upd is_in_map; destruct w; try contradiction; cbn in *; lia);
    try (intros St; specialize (T St); unfold size in *; upd is_in_map; cbn in *; lia).
  - destruct (sched_obj s); [dif|]; exact T.
  - destruct (stopping s) eqn:St; [intros; congruence|]. dif; cbn; rewrite size_ok; unfold size in *; rewrite sum_app, sum_repeat; cbn; lia.
  - intros St. rewrite St in *. specialize (T eq_refl). pose proof (not_continues s Co St). unfold size in *. upd is_in_map. destruct w; try contradiction; cbn in *; lia.
  - destruct (sched_obj s); exact T.
Qed.
Lemma exec_target n clock tr s : exec (initial n clock) tr s -> big_enough s.
Proof.
  intros H. induction H as [|tr s e s' H IH S]; [|exact (step_target _ _ _ IH S)].
  unfold big_enough, size. cbn. rewrite sum_repeat. unfold is_in_map. cbn. lia.
Qed.

(** * The trace *)

Lemma step_counts s e s' x : invA s -> step s e s' ->
  cnt (started e) x + sum_of (runs x) (workers s) + cnt (completed s) x = sum_of (runs x) (workers s') + cnt (completed s') x /\
  cnt (finished e) x + cnt (completed s) x = cnt (completed s') x /\
  cnt (given e) x + (if x <? next s then 1 else 0) = (if x <? next s' then 1 else 0) /\
  cnt (entered e) x + cnt (map id_of (scheduled s')) x + (if x <? next s then 1 else 0) =
    cnt (map id_of (scheduled s)) x + (if x <? next s' then 1 else 0).
Proof.
  intros I H. pose proof (a_places _ I x) as P. unfold total in P.
  cases H; unfold goto, sgoto, submit; cbn [started finished given entered]; rewrite ?cnt_cons, ?cnt_nil; cbn;
    rewrite <- ?one_next, ?wake_runs; try lia;
    try (upd (runs x); destruct w; try contradiction; rs; cbn in *; lia);
    try (upd (runs x); rs; cbn in *; lia).
  - destruct (sched_obj s); [dif|]; cbn; rewrite <- one_next, insert_scheduled_cnt; change (id_of (time, (p, next s))) with (next s); lia.
  - destruct (stopping s); [lia|]. dif; cbn; rewrite sum_app, sum_repeat; rs; lia.
  - upd (runs x). destruct (stopping s); destruct w; try contradiction; rs; cbn in *; lia.
  - destruct (sched_obj s); cbn; lia.
  - rewrite remove_scheduled_cnt. apply existsb_entry in Ex.
    destruct (Nat.eq_dec x (id_of e)) as [->|N]; [rewrite one_self; destruct (id_of e <? next s); lia|rewrite one_other by exact N; lia].
  - destruct (is_empty (waiting s) && (active s =? 0)); cbn; rewrite ?cnt_nil; lia.
  - destruct (is_empty (waiting s)); cbn; rewrite ?cnt_nil; lia.
Qed.

Record invT (clock : Z) (tr : list event) (s : pool) : Prop := {
  t_starts : forall x, cnt (starts tr) x = sum_of (runs x) (workers s) + cnt (completed s) x;
  t_finishes : forall x, cnt (finishes tr) x = cnt (completed s) x;
  t_givens : forall x, cnt (givens tr) x = if x <? next s then 1 else 0;
  t_entries : forall x, cnt (entries tr) x + cnt (map id_of (scheduled s)) x = if x <? next s then 1 else 0;
  t_waiting : forall p t, In (p, t) (waiting s) -> given_priority tr t p;
  t_scheduled : forall e, In e (scheduled s) -> In (ERunAt (id_of e) (fst e) (fst (snd e))) tr;
  t_sorted : ForallOrdPairs (fun x y => (fst y < fst x)%Z \/ (fst y = fst x /\ before (entries tr) (snd x) (snd y))) (waiting s);
  t_now : clock_reached clock tr (now s);
  t_sched : forall j e, nth_error (schedulers s) j = Some (SWait e) \/ nth_error (schedulers s) j = Some (STimedOut e) ->
      In (ERunAt (id_of e) (fst e) (fst (snd e))) tr;
  t_timed : forall j e, nth_error (schedulers s) j = Some (STimedOut e) -> clock_reached clock tr (fst e);
  t_reached : forall t at_ p, In (ERunAt t at_ p) tr -> In (at_, (p, t)) (scheduled s) \/ clock_reached clock tr at_
}.

Lemma initial_invT n clock : invT clock [] (initial n clock).
Proof.
  constructor; simpl; try (intros; contradiction).
  - intros x. rewrite sum_repeat. rs. lia.
  - reflexivity.
  - reflexivity.
  - intros x. rewrite !cnt_nil. reflexivity.
  - constructor.
  - left. lia.
  - intros j e [H|H]; destruct j; discriminate.
  - intros [|j] e H; discriminate.
Qed.

Lemma insert_waiting_sorted (R : Z * nat -> Z * nat -> Prop) p t l :
  ForallOrdPairs (fun x y => (fst y < fst x)%Z \/ (fst y = fst x /\ R x y)) l ->
  (forall y, In y l -> R y (p, t)) ->
  ForallOrdPairs (fun x y => (fst y < fst x)%Z \/ (fst y = fst x /\ R x y)) (insert_waiting p t l).
Proof.
  induction l as [|[p' t'] l IH]; intros So In_; cbn [insert_waiting]; [repeat constructor|].
  inversion So as [|a l0 H1 H2]; subst. destruct (Z.ltb_spec p' p) as [L|L].
  - constructor; [|exact So]. constructor; [left; exact L|]. eapply Forall_impl; [|exact H1]. simpl. intros y [Hy|[Hy _]]; left; lia.
  - constructor.
    + apply Forall_forall. intros y Hy. apply insert_waiting_in in Hy. destruct Hy as [->|Hy]; [|rewrite Forall_forall in H1; auto].
      simpl. destruct (Z.eq_dec p p') as [->|N]; [right; split; [reflexivity|apply In_; left; reflexivity]|left; lia].
    + apply IH; [exact H2|]. intros y Hy. apply In_. right. exact Hy.
Qed.
Lemma FOP_impl {A} (R R' : A -> A -> Prop) l : (forall x y, In x l -> In y l -> R x y -> R' x y) -> ForallOrdPairs R l -> ForallOrdPairs R' l.
Proof.
  intros HR H. induction H as [|a l Ha Hl IH]; constructor.
  - apply Forall_forall. intros y Hy. rewrite Forall_forall in Ha. apply HR; simpl; auto.
  - apply IH. intros x y Hx Hy. apply HR; simpl; auto.
Qed.

Lemma reached_mono clock tr e at_ : clock_reached clock tr at_ -> clock_reached clock (tr ++ [e]) at_.
Proof. intros [H|(z & H & L)]; [left; exact H|right; exists z; split; [apply in_or_app; auto|exact L]]. Qed.
Lemma reached_le clock tr a b : clock_reached clock tr a -> (b <= a)%Z -> clock_reached clock tr b.
Proof. intros [H|(z & H & L)] Q; [left; lia|right; exists z; split; [exact H|lia]]. Qed.
Lemma priority_mono tr e t p : given_priority tr t p -> given_priority (tr ++ [e]) t p.
Proof. intros [H|(z & H)]; [left; apply in_or_app; auto|right; exists z; apply in_or_app; auto]. Qed.

(** given twice: the same event *)
Lemma given_once tr t e e' : (forall x, cnt (givens tr) x <= 1) -> In e tr -> In e' tr -> In t (given e) -> In t (given e') -> e = e'.
Proof.
  intros C. induction tr as [|a tr IH]; [contradiction|].
  assert (C' : forall x, cnt (given a) x + cnt (givens tr) x <= 1) by (intros x; rewrite <- cnt_app; apply C).
  assert (X : forall d, In d tr -> In t (given d) -> In t (given a) -> False).
  { intros d Hd Ht Ha. specialize (C' t). apply cnt_in in Ha. assert (In t (givens tr)) by (apply in_flat_map; eauto).
    apply cnt_in in H. lia. }
  intros [->|H1] [->|H2] G1 G2; [reflexivity|exfalso; eauto|exfalso; eauto|].
  apply IH; auto. intros x. specialize (C' x). lia.
Qed.

Lemma step_waiting s e s' : step s e s' ->
  (waiting s' = waiting s /\ entered e = [] /\ started e = []) \/
  (exists p t, waiting s' = insert_waiting p t (waiting s) /\ entered e = [t] /\ started e = [] /\
     (e = ESubmit t p \/ exists j d, nth_error (schedulers s) j = Some (STimedOut d) /\ d = (fst d, (p, t)))) \/
  (exists x w, waiting s = x :: waiting s' /\ entered e = [] /\ e = EStart w (snd x)).
Proof.
  intros H. cases H; unfold goto, sgoto, submit; cbn; auto 8.
  - right; left. exists p, (next s). auto 8.
  - right; left. exists p, (next s). auto 8.
  - left. destruct (sched_obj s); [dif|]; auto.
  - left. destruct (stopping s); [auto|]. dif; auto.
  - right; right. exists (p, t), i. auto.
  - left. destruct (sched_obj s); auto.
  - right; left. exists (fst (snd e)), (id_of e). repeat split; auto. right. exists j, e. split; [exact Hj|].
    destruct e as [a [b c']]. reflexivity.
  - left. destruct (is_empty (waiting s) && (active s =? 0)); auto.
  - left. destruct (is_empty (waiting s)); auto.
Qed.

Lemma step_scheduled s e s' : step s e s' ->
  (scheduled s' = scheduled s /\ forall t a p, e <> ERunAt t a p) \/
  (exists t a p, e = ERunAt t a p /\ scheduled s' = insert_scheduled (a, (p, t)) (scheduled s)) \/
  (exists j d, nth_error (schedulers s) j = Some (STimedOut d) /\ e = EEnqueue (id_of d) /\ In (id_of d) (map id_of (scheduled s)) /\
     scheduled s' = filter (fun e' => negb (entry_is d e')) (scheduled s)).
Proof.
  intros H. cases H; unfold goto, sgoto, submit; cbn; try (left; split; [reflexivity|discriminate]).
  - right; left. exists (next s), time, p. split; [reflexivity|]. destruct (sched_obj s); [dif|]; reflexivity.
  - left. destruct (stopping s); [split; [reflexivity|discriminate]|]. dif; (split; [reflexivity|discriminate]).
  - left. destruct (sched_obj s); (split; [reflexivity|discriminate]).
  - right; right. exists j, e. repeat split; auto. apply cnt_in, existsb_entry, Ex.
  - left. destruct (is_empty (waiting s) && (active s =? 0)); (split; [reflexivity|discriminate]).
  - left. destruct (is_empty (waiting s)); (split; [reflexivity|discriminate]).
Qed.

Lemma sched_loop_nth j s k c : nth_error (schedulers (sched_loop j s)) k = Some c ->
  nth_error (schedulers s) k = Some c \/ c = SDone \/ exists d l, scheduled s = d :: l /\ c = SWait d.
Proof.
  destruct (sched_loop_cases j s) as [(_ & ->)|[(_ & e & l & E & ->)|[(_ & _ & o & _ & ->)|(_ & _ & _ & ->)]]]; cbn; intros H;
    apply update_inv in H; destruct H as [(-> & -> & _)|[_ Q]]; eauto 8.
Qed.
Lemma step_scheds s e s' k c : step s e s' -> nth_error (schedulers s') k = Some c ->
  nth_error (schedulers s) k = Some c \/ c = SDone \/ c = SReady \/ (exists d l, scheduled s' = d :: l /\ c = SWait d) \/
  (exists d, nth_error (schedulers s) k = Some (SWait d) /\ (fst d <= now s)%Z /\ c = STimedOut d).
Proof.
  intros H. destruct H as [Al [H|[H|[H|H]]]].
  - destruct H; cbn; auto.
    + destruct (sched_obj s); [dif|]; cbn; auto.
    + destruct (stopping s); [auto|]. dif; cbn; auto.
  - destruct H as [i w Hi Hw|i t Hi Ht Hd|i t Hi Ht|i n Hn Hi|n Hn Hi|n Hn|j e n Hn Hj|j Hn Hj|n Hn|j l1 l2 Hj|j Hj|j e Hj Hnow|j e Hj
                  |kk Hk|kk Hk|l1 l2 t Hs Hc|D|D|D Hex|D Hso|j D Hso Hj]; cbn; auto.
    + destruct (work_cases i w s) as [(Co & Wt & V)|[(p & t & rest & Co & Wt & V)|(Co & V)]]; rewrite V; cbn; auto.
    + intros Q. apply update_inv in Q. destruct Q as [(-> & -> & _)|[_ Q]]; auto.
    + intros Q. destruct (Nat.lt_ge_cases k (length (schedulers s))) as [L|L].
      * rewrite nth_error_app1 in Q by exact L. auto.
      * rewrite nth_error_app2 in Q by exact L. apply nth_error_In in Q. destruct Q as [Q|[]]. auto.
    + destruct (sched_obj s); cbn; auto.
    + intros Q. destruct (sched_loop_nth _ _ _ _ Q) as [|[|(d & l & E & ->)]]; auto. do 3 right; left. exists d, l. split; [|reflexivity].
      destruct (sched_loop_frame j s) as (c0 & o & st & V). rewrite V. exact E.
    + intros Q. apply update_inv in Q. destruct Q as [(-> & -> & _)|[_ Q]]; eauto 8.
    + unfold sched_move. destruct (existsb (entry_is e) (scheduled s)); cbn; [|auto].
      intros Q. destruct (sched_loop_nth _ _ _ _ Q) as [|[|(d & l & E & ->)]]; auto. do 3 right; left. exists d, l. split; [|reflexivity].
      match goal with |- context [sched_loop j ?x] => destruct (sched_loop_frame j x) as (c0 & o & st & V); rewrite V end. exact E.
    + rewrite nth_error_map. destruct (nth_error (schedulers s) k) as [c0|]; [|discriminate]. simpl. intros Q. injection Q as <-.
      destruct c0; auto.
  - destruct H; cbn; auto. intros Q. apply update_inv in Q. destruct Q as [(-> & -> & _)|[_ Q]]; auto.
  - destruct H; cbn; auto.
Qed.

Lemma step_now s e s' : step s e s' -> now s' = now s \/ e = ETick (now s').
Proof.
  intros H. cases H; unfold goto, sgoto, submit; cbn; auto.
  - destruct (sched_obj s); [dif|]; auto.
  - destruct (stopping s); [auto|]. dif; auto.
  - destruct (sched_obj s); auto.
Qed.

Lemma nodup_of_cnt l : (forall x, cnt l x <= 1) -> NoDup l.
Proof. intros H. apply (NoDup_count_occ Nat.eq_dec). exact H. Qed.

Lemma step_invT clock tr s e s' : invA s -> invT clock tr s -> step s e s' -> invT clock (tr ++ [e]) s'.
Proof.
  intros I [TS TF TG TE TW TC TO TN TJ TT TR] H.
  assert (Cn := fun x => step_counts s e s' x I H).
  pose proof (step_waiting s e s' H) as Hw. pose proof (step_scheduled s e s' H) as Hs.
  pose proof (fun k c => step_scheds s e s' k c H) as Hj. pose proof (step_now s e s' H) as Hn.
  assert (G1 : forall x, cnt (givens tr) x <= 1) by (intros x; rewrite TG; destruct (x <? next s); lia).
  assert (SC : forall d, In d (scheduled s') -> In (ERunAt (id_of d) (fst d) (fst (snd d))) (tr ++ [e])).
  { intros d Hd. destruct Hs as [(E & _)|[(t & a & p & -> & E)|(j & d' & _ & _ & _ & E)]]; rewrite E in Hd.
    - apply in_or_app. left. apply TC, Hd.
    - apply insert_scheduled_in in Hd. destruct Hd as [->|Hd]; apply in_or_app; [right; left; reflexivity|left; apply TC, Hd].
    - apply filter_In in Hd. apply in_or_app. left. apply TC, Hd. }
  constructor.
  - intros x. unfold starts in *. rewrite flat_map_snoc, cnt_app, TS. destruct (Cn x) as (C1 & _). lia.
  - intros x. unfold finishes in *. rewrite flat_map_snoc, cnt_app, TF. destruct (Cn x) as (_ & C1 & _). lia.
  - intros x. unfold givens in *. rewrite flat_map_snoc, cnt_app, TG. destruct (Cn x) as (_ & _ & C1 & _). lia.
  - intros x. specialize (TE x). unfold entries in *. rewrite flat_map_snoc, cnt_app. destruct (Cn x) as (_ & _ & _ & C1). lia.
  - intros p t Ht. destruct Hw as [(E & _)|[(p' & t' & E & _ & _ & Q)|(x & w & E & _)]].
    + rewrite E in Ht. apply priority_mono, TW, Ht.
    + rewrite E in Ht. apply insert_waiting_in in Ht. destruct Ht as [Ht|Ht]; [|apply priority_mono, TW, Ht]. injection Ht as -> ->.
      destruct Q as [->|(j & d & Q & Ed)]; [left; apply in_or_app; right; left; reflexivity|].
      apply priority_mono. right. exists (fst d). pose proof (TJ j d (or_intror Q)) as R. rewrite Ed in R. exact R.
    + apply priority_mono, TW. rewrite E. right. exact Ht.
  - exact SC.
  - unfold entries in *. rewrite flat_map_snoc.
    assert (M : ForallOrdPairs (fun x y : Z * nat => (fst y < fst x)%Z \/ fst y = fst x /\ before (flat_map entered tr ++ entered e) (snd x) (snd y)) (waiting s)).
    { eapply FOP_impl; [|exact TO]. intros x y _ _ [R|[R1 R2]]; [left; exact R|right; split; [exact R1|apply before_app_l, R2]]. }
    destruct Hw as [(E & _)|[(p' & t' & E & En & _ & Q)|(x & w & E & _)]].
    + rewrite E. exact M.
    + rewrite E. apply (insert_waiting_sorted (fun x y => before (flat_map entered tr ++ entered e) (snd x) (snd y))); [exact M|].
      intros [p t] Hy. simpl. rewrite En. apply before_last.
      specialize (TE t). unfold entries in TE. pose proof (a_places _ I t) as P. unfold total in P.
      assert (0 < cnt (map snd (waiting s)) t) by (apply cnt_in, in_map_iff; exists (p, t); auto).
      apply cnt_in. lia.
    + rewrite E in M. inversion M; assumption.
  - destruct Hn as [->| ->]; [apply reached_mono, TN|]. right. exists (now s'). split; [apply in_or_app; right; left; reflexivity|lia].
  - intros j d [Q|Q]; destruct (Hj _ _ Q) as [R|[R|[R|[(d0 & l & E & R)|(d0 & R1 & _ & R)]]]]; try discriminate.
    + apply in_or_app. left. eapply TJ; eauto.
    + injection R as ->. apply SC. rewrite E. left. reflexivity.
    + apply in_or_app. left. eapply TJ; eauto.
    + injection R as ->. apply in_or_app. left. eapply TJ; eauto.
  - intros j d Q; destruct (Hj _ _ Q) as [R|[R|[R|[(d0 & l & E & R)|(d0 & R1 & L & R)]]]]; try discriminate.
    + apply reached_mono. eapply TT; eauto.
    + injection R as ->. apply reached_mono. eapply reached_le; [apply TN|exact L].
  - intros t at_ p Q. apply in_app_or in Q. destruct Q as [Q|[Q|[]]].
    + destruct (TR t at_ p Q) as [R|R]; [|right; apply reached_mono, R].
      destruct Hs as [(E & _)|[(t' & a & p' & -> & E)|(j & d' & D & _ & _ & E)]]; rewrite E.
      * left. exact R.
      * left. apply insert_scheduled_in. right. exact R.
      * destruct (entry_is d' (at_, (p, t))) eqn:En; [|left; apply filter_In; rewrite En; auto].
        right. apply reached_mono. apply Nat.eqb_eq in En. simpl in En.
        pose proof (TJ j d' (or_intror D)) as R'.
        assert (X : ERunAt t at_ p = ERunAt (id_of d') (fst d') (fst (snd d'))).
        { eapply (given_once tr t); eauto; simpl; [left; reflexivity|left; exact En]. }
        injection X as -> -> ->. eapply TT; eauto.
    + subst e. destruct Hs as [(_ & N)|[(t' & a & p' & X & E)|(j & d' & _ & X & _)]]; [exfalso; eapply N; reflexivity| |discriminate].
      injection X as <- <- <-. left. rewrite E. apply insert_scheduled_in. left. reflexivity.
Qed.

Lemma exec_invT n clock tr s : exec (initial n clock) tr s -> invT clock tr s.
Proof.
  intros H. induction H; [apply initial_invT|]. eapply step_invT; eauto. eapply exec_invA; eauto.
Qed.

(** * Places, order, getters, run_sync, run_at *)

Lemma places_of clock tr s : invA s -> invT clock tr s ->
  Permutation (scheduled_tasks s ++ waiting_tasks s ++ running s ++ completed s) (givens tr) /\ NoDup (givens tr) /\
  Permutation (starts tr) (running s ++ completed s) /\ Permutation (finishes tr) (completed s) /\
  NoDup (starts tr) /\ NoDup (finishes tr).
Proof.
  intros [_ P _ _] [TS TF TG _ _ _ _ _ _ _ _].
  assert (B : forall x, (if x <? next s then 1 else 0) <= 1) by (intros x; destruct (x <? next s); lia).
  unfold total in P. repeat split.
  - apply same_perm. intros x. rewrite !cnt_app, running_ok, TG, <- P. change (scheduled_tasks s) with (map id_of (scheduled s)). unfold waiting_tasks. lia.
  - apply nodup_of_cnt. intros x. rewrite TG. apply B.
  - apply same_perm. intros x. rewrite !cnt_app, running_ok. apply TS.
  - apply same_perm. exact TF.
  - apply nodup_of_cnt. intros x. rewrite TS. specialize (P x). specialize (B x). lia.
  - apply nodup_of_cnt. intros x. rewrite TF. specialize (P x). specialize (B x). lia.
Qed.

Lemma places_proof n clock tr s : exec (initial n clock) tr s ->
  Permutation (scheduled_tasks s ++ waiting_tasks s ++ running s ++ completed s) (givens tr) /\ NoDup (givens tr) /\
  Permutation (starts tr) (running s ++ completed s) /\ Permutation (finishes tr) (completed s) /\
  NoDup (starts tr) /\ NoDup (finishes tr).
Proof. intros H. exact (places_of clock tr s (exec_invA _ _ _ _ H) (exec_invT _ _ _ _ H)). Qed.

Lemma entered_of clock tr s t : invA s -> invT clock tr s ->
  In t (waiting_tasks s) <-> In t (entries tr) /\ ~ In t (starts tr).
Proof.
  intros [_ P _ _] [TS TF TG TE _ _ _ _ _ _ _].
  specialize (P t). specialize (TS t). specialize (TE t). unfold total, waiting_tasks in *.
  rewrite !cnt_in. destruct (t <? next s); lia.
Qed.
Lemma entered_not_started n clock tr s t : exec (initial n clock) tr s ->
  In t (waiting_tasks s) <-> In t (entries tr) /\ ~ In t (starts tr).
Proof. intros H. exact (entered_of clock tr s t (exec_invA _ _ _ _ H) (exec_invT _ _ _ _ H)). Qed.
Lemma before_nodup {A} (l : list A) x y : NoDup l -> before l x y -> ~ before l y x.
Proof.
  intros N (l1 & l2 & l3 & ->) (m1 & m2 & m3 & E).
  revert m1 E N. induction l1 as [|a l1 IH]; intros [|b m1] E N; simpl in E; inversion E; subst.
  - inversion N as [|? ? X _]; subst. apply X. apply in_or_app. right. left. reflexivity.
  - inversion N as [|? ? X _]; subst. apply X. rewrite H1. apply in_or_app. right. right. apply in_or_app. right. left. reflexivity.
  - inversion N as [|? ? X _]; subst. apply X. apply in_or_app. right. right. apply in_or_app. right. left. reflexivity.
  - apply (IH m1); [assumption|]. inversion N; assumption.
Qed.
Lemma priority_once clock tr s t p p' : invT clock tr s -> given_priority tr t p -> given_priority tr t p' -> p = p'.
Proof.
  intros [_ _ TG _ _ _ _ _ _ _ _].
  assert (G1 : forall x, cnt (givens tr) x <= 1) by (intros x; rewrite TG; destruct (x <? next s); lia).
  intros [A|(a & A)] [B|(b & B)];
    (assert (E := given_once tr t _ _ G1 A B (or_introl eq_refl) (or_introl eq_refl)); injection E; congruence) || 
    (assert (E := given_once tr t _ _ G1 A B (or_introl eq_refl) (or_introl eq_refl)); discriminate).
Qed.

Lemma start_order_of clock tr s w t s' p t' p' :
  invA s -> invT clock tr s -> step s (EStart w t) s' ->
  given_priority tr t p -> In t' (entries tr) -> ~ In t' (starts tr) -> given_priority tr t' p' -> t' <> t ->
  (p' < p)%Z \/ (p' = p /\ before (entries tr) t t' /\ ~ before (entries tr) t' t).
Proof.
  intros IA IT St Gp E1 E2 Gp' Ne.
  assert (W : In t' (waiting_tasks s)) by (eapply entered_of; eauto).
  pose proof IT as IT0. destruct IT0 as [_ _ _ TE TW _ TO _ _ _ _].
  destruct (step_waiting _ _ _ St) as [(_ & _ & X)|[(? & ? & _ & _ & X & _)|(x & w' & E & _ & X)]]; try discriminate.
  injection X as <- Et. unfold waiting_tasks in W. rewrite E in W, TO, TW. destruct x as [px tx]. simpl in Et. subst tx.
  destruct W as [W|W]; [simpl in W; congruence|]. apply in_map_iff in W. destruct W as ([py ty] & Ey & Hy). simpl in Ey. subst ty.
  assert (p = px) by (eapply priority_once; eauto; apply TW; left; reflexivity). subst px.
  assert (p' = py) by (eapply priority_once; eauto; apply TW; right; exact Hy). subst py.
  inversion TO as [|a b H1 _]; subst. rewrite Forall_forall in H1. destruct (H1 _ Hy) as [R|[R1 R2]]; simpl in *; [left; exact R|right].
  repeat split; auto. apply before_nodup; [|exact R2]. apply nodup_of_cnt. intros z. specialize (TE z). destruct (z <? next s); lia.
Qed.

Lemma start_order_proof n clock tr s w t s' p t' p' :
  exec (initial n clock) tr s -> step s (EStart w t) s' ->
  given_priority tr t p -> In t' (entries tr) -> ~ In t' (starts tr) -> given_priority tr t' p' -> t' <> t ->
  (p' < p)%Z \/ (p' = p /\ before (entries tr) t t' /\ ~ before (entries tr) t' t).
Proof. intros H. exact (start_order_of clock tr s w t s' p t' p' (exec_invA _ _ _ _ H) (exec_invT _ _ _ _ H)). Qed.

Lemma getters_of s : invA s ->
  active_workers_size s = length (filter busy (workers s)) /\ active_tasks_size s = length (filter busy (workers s)) /\
  active_workers_size s <= workers_size s /\
  waiting_workers_size s = Z.of_nat (length (filter (fun w => in_map w && negb (busy w)) (workers s))) /\
  tasks_size s = length (waiting_tasks s) + length (filter busy (workers s)) /\
  waiting_tasks_size s = length (waiting_tasks s) /\ scheduled_tasks_size s = length (scheduled_tasks s).
Proof.
  intros [A _ _ _].
  assert (B : forall l, sum_of is_busy l = length (filter busy l)).
  { intros l. induction l as [|w l IH]; simpl; [reflexivity|]. unfold is_busy at 1. destruct (busy w); simpl; lia. }
  assert (C : forall l, length (filter in_map l) = length (filter busy l) + length (filter (fun w => in_map w && negb (busy w)) l)).
  { intros l. induction l as [|w l IH]; simpl; [reflexivity|]. destruct w; simpl; lia. }
  rewrite B in A. unfold active_workers_size, active_tasks_size, workers_size, waiting_workers_size, tasks_size, waiting_tasks_size, scheduled_tasks_size, waiting_tasks, scheduled_tasks, workers_size.
  rewrite !map_length, A. specialize (C (workers s)). repeat split; lia.
Qed.

Lemma getters_proof n clock tr s : exec (initial n clock) tr s ->
  active_workers_size s = length (filter busy (workers s)) /\ active_tasks_size s = length (filter busy (workers s)) /\
  active_workers_size s <= workers_size s /\
  waiting_workers_size s = Z.of_nat (length (filter (fun w => in_map w && negb (busy w)) (workers s))) /\
  tasks_size s = length (waiting_tasks s) + length (filter busy (workers s)) /\
  waiting_tasks_size s = length (waiting_tasks s) /\ scheduled_tasks_size s = length (scheduled_tasks s).
Proof. intros H. exact (getters_of s (exec_invA _ _ _ _ H)). Qed.

Lemma sync_of clock tr s t s' : invT clock tr s -> step s (ESyncReturned t) s' ->
  In (EFinish t) tr /\ exists w, In (EStart w t) tr.
Proof.
  intros H St. assert (C : In t (completed s)).
  { destruct St as [_ [St|[St|[St|St]]]]; inversion St; subst; auto.
    - destruct (work_cases i w s) as [(_ & _ & V)|[(p & t0 & rest & _ & _ & V)|(_ & V)]]; rewrite V in *; discriminate.
    - destruct (sched_move_frame j e s) as [(_ & V)|(_ & c & o & st & V)]; rewrite V in *; discriminate.
    - destruct (is_empty (waiting s) && (active s =? 0)); discriminate.
    - destruct (is_empty (waiting s)); discriminate. }
  destruct H as [TS TF _ _ _ _ _ _ _ _ _]. specialize (TS t). specialize (TF t). apply cnt_in in C. split.
  - assert (F : In t (finishes tr)) by (apply cnt_in; lia). apply in_flat_map in F. destruct F as (e & He & Hf).
    destruct e; try contradiction. destruct Hf as [<-|[]]. exact He.
  - assert (F : In t (starts tr)) by (apply cnt_in; lia). apply in_flat_map in F. destruct F as (e & He & Hf).
    destruct e; try contradiction. destruct Hf as [<-|[]]. eauto.
Qed.

Lemma sync_proof n clock tr s t s' : exec (initial n clock) tr s -> step s (ESyncReturned t) s' ->
  In (EFinish t) tr /\ exists w, In (EStart w t) tr.
Proof. intros H. exact (sync_of clock tr s t s' (exec_invT _ _ _ _ H)). Qed.

Lemma not_early_of clock tr s t at_ p : invT clock tr s ->
  In (ERunAt t at_ p) tr -> In t (entries tr) -> clock_reached clock tr at_.
Proof.
  intros H R E. destruct H as [_ _ _ TE _ _ _ _ _ _ TR]. destruct (TR _ _ _ R) as [X|X]; [|exact X].
  exfalso. specialize (TE t). apply cnt_in in E.
  assert (0 < cnt (map id_of (scheduled s)) t) by (apply cnt_in, in_map_iff; exists (at_, (p, t)); auto). destruct (t <? next s); lia.
Qed.

Lemma not_early_proof n clock tr s t at_ p : exec (initial n clock) tr s ->
  In (ERunAt t at_ p) tr -> In t (entries tr) -> clock_reached clock tr at_.
Proof. intros H. exact (not_early_of clock tr s t at_ p (exec_invT _ _ _ _ H)). Qed.

(** * Wakeups *)

Lemma size_split l : size l = sum_of is_live l + sum_of is_wait l + sum_of is_exited l.
Proof. unfold size. induction l as [|w l IH]; simpl; [reflexivity|]. destruct w; cbn; lia. Qed.
Lemma busy_live l : sum_of is_busy l <= sum_of is_live l.
Proof. apply sum_le. intros []; cbn; lia. Qed.
Lemma exited_zero s : invA s -> stopping s = false -> sum_of is_exited (workers s) = 0.
Proof.
  intros I St. apply sum_zero. intros i w Hi. destruct w; try reflexivity. exfalso. eapply (a_exited _ I); eauto.
Qed.
Lemma wake_waits l : sum_of is_wait (map wake_worker l) = 0.
Proof. induction l as [|w l IH]; simpl; [reflexivity|]. rewrite IH. destruct w; reflexivity. Qed.
Lemma wake_live l : sum_of is_live (map wake_worker l) = sum_of is_live l + sum_of is_wait l.
Proof. induction l as [|w l IH]; simpl; [reflexivity|]. rewrite IH. destruct w; cbn; lia. Qed.
Lemma wake_exited l : sum_of is_exited (map wake_worker l) = sum_of is_exited l.
Proof. rewrite sum_map. apply sum_ext. intros []; reflexivity. Qed.
Lemma wake_blocked l : sum_of is_blocked (map wake_caller l) = 0.
Proof. induction l as [|w l IH]; simpl; [reflexivity|]. rewrite IH. destruct w; reflexivity. Qed.
Lemma wake_swait l : sum_of is_swait (map wake_sched l) = 0.
Proof. induction l as [|w l IH]; simpl; [reflexivity|]. rewrite IH. destruct w; reflexivity. Qed.
Lemma no_wait l : (forall i, nth_error l i <> Some WWait) -> sum_of is_wait l = 0.
Proof. intros H. apply sum_zero. intros i w Hi. destruct w; try reflexivity. exfalso. eapply H; eauto. Qed.

Record invW (s : pool) : Prop := {
  w_shrink : stopping s = false -> target s < size (workers s) -> pend_all s = 0 -> waits s = 0;
  w_task : stopping s = false -> waiting s <> [] -> 0 < size (workers s) -> 0 < live s + pend_one s + pend_all s;
  w_all : stopping s = false -> waiting s = [] -> 0 < sum_of is_blocked (all_waiters s) -> 0 < size (workers s) -> 0 < live s + pend_all s;
  w_none : 0 < sum_of is_blocked (none_waiters s) -> waiting s <> []
}.

Lemma initial_invW n clock : invW (initial n clock).
Proof. constructor; cbn; intros; rewrite ?sum_repeat; cbn; try lia; congruence. Qed.


Lemma insert_waiting_nonempty p t l : insert_waiting p t l <> [].
Proof. destruct l as [|[p' t'] l]; cbn; [discriminate|]. destruct (p' <? p)%Z; discriminate. Qed.


Lemma step_invW s e s' : invA s -> invW s -> step s e s' -> invW s'.
Proof.
  intros I [W1 W2 W3 W4] H. pose proof (exited_zero s I) as X0. pose proof (busy_live (workers s)) as BL.
  pose proof (a_active _ I) as Ac. pose proof (size_split (workers s)) as SS.
  assert (W4' : waiting s = [] -> sum_of is_blocked (none_waiters s) = 0).
  { intros E. destruct (sum_of is_blocked (none_waiters s)) eqn:Q; [reflexivity|]. exfalso. apply W4; [lia|exact E]. }
  constructor.
  - (* shrink *)
    cases H; unfold goto, sgoto, submit; cbn; try exact W1; try discriminate;
      try (intros St; specialize (W1 St); unfold size in *; intros L P; upds; cbn in *; lia);
      try (rewrite wake_size, wake_waits; auto).
    + destruct (sched_obj s); [dif|]; exact W1.
    + destruct (stopping s) eqn:St; [intros; congruence|]. intros _.
      match goal with |- context [if ?c then _ else _] => destruct c eqn:C end; cbn; intros L P; [discriminate|].
      apply Nat.ltb_ge in C. rewrite !size_ok in *. cbn in *. lia.
    + intros St L P. pose proof (continues_size s Co). unfold size in *. upds. destruct w; try contradiction; fin.
    + intros St L P. pose proof (continues_size s Co). unfold size in *. upds. destruct w; try contradiction; fin.
    + intros St. rewrite St in *. intros L P. specialize (W1 eq_refl). pose proof (not_continues s Co St). unfold size in *. upds.
      destruct w; try contradiction; fin.
    + destruct (sched_obj s); exact W1.
  - (* task *)
    cases H; unfold goto, sgoto, submit; cbn; try exact W2; try discriminate;
      try (intros; lia);
      try (intros St N; specialize (W2 St N); unfold size in *; intros L; upds; cbn in *; lia).
    + destruct (sched_obj s); [dif|]; exact W2.
    + destruct (stopping s) eqn:St; [intros; congruence|]. intros _ N. specialize (W2 eq_refl).
      assert (W2' : 0 < size (workers s ++ repeat WReady (n - workers_size s)) ->
          0 < sum_of is_live (workers s ++ repeat WReady (n - workers_size s)) + pend_one s + pend_all s).
      { unfold size. rewrite !sum_app, !sum_repeat. cbn. assert (N' : waiting s <> []) by (dif_in N; exact N). specialize (W2 N').
        unfold size in W2. lia. }
      dif; cbn; intros L; specialize (W2' L); lia.
    + intros _ N. congruence.
    + intros St N L. unfold size in *. upds. fin.
    + intros St N. rewrite St in *. specialize (W2 eq_refl N). specialize (W1 eq_refl). specialize (X0 eq_refl). intros L.
      pose proof (not_continues s Co St). unfold size in *. upds. destruct w; try contradiction; fin.
    + intros St N L. specialize (X0 St). rewrite (no_wait _ Hi) in SS. lia.
    + intros St N L. specialize (X0 St). rewrite wake_size in L. rewrite wake_live. lia.
    + destruct (sched_obj s); exact W2.
    + rewrite wake_size, wake_live. intros St N L. specialize (W2 St N L). lia.
  - (* all *)
    cases H; unfold goto, sgoto, submit; cbn; try exact W3; try discriminate;
      try (intros St N; specialize (W3 St N); unfold size in *; intros B L; upds; cbn in *; lia).
    + intros _ N. exfalso. eapply insert_waiting_nonempty; eauto.
    + intros _ N. exfalso. eapply insert_waiting_nonempty; eauto.
    + destruct (sched_obj s); [dif|]; exact W3.
    + destruct (stopping s) eqn:St; [intros; congruence|]. intros _ N. specialize (W3 eq_refl).
      assert (W3' : 0 < sum_of is_blocked (all_waiters s) -> 0 < size (workers s ++ repeat WReady (n - workers_size s)) ->
          0 < sum_of is_live (workers s ++ repeat WReady (n - workers_size s)) + pend_all s).
      { unfold size. rewrite !sum_app, !sum_repeat. cbn. assert (N' : waiting s = []) by (dif_in N; exact N). specialize (W3 N').
        unfold size in W3. lia. }
      dif; cbn; intros B L; specialize (W3' B L); lia.
    + intros St N. specialize (W3 St N). rewrite sum_app. cbn. intros B. apply W3. lia.
    + intros St N. specialize (W3 St N). intros B L.
      destruct (active_from w s =? 0) eqn:Az; [rewrite wake_blocked in B; lia|]. apply Nat.eqb_neq in Az.
      specialize (W3 B). unfold size in *. rewrite SS in W3. specialize (X0 St).
      pose proof (sum_update is_busy i WWait w (workers s) Hi). pose proof (busy_live (update i WWait (workers s))).
      destruct w; try contradiction; cbn in *; lia.
    + intros St N B L. unfold size in *. upds. fin.
    + intros St N. rewrite St in *. specialize (W3 eq_refl N). specialize (W1 eq_refl). specialize (X0 eq_refl). intros B L. specialize (W3 B).
      pose proof (not_continues s Co St). unfold size in *. upds. destruct w; try contradiction; fin.
    + intros St N B L. specialize (X0 St). rewrite wake_size in L. rewrite wake_live. lia.
    + destruct (sched_obj s); exact W3.
    + intros _ N. exfalso. eapply insert_waiting_nonempty; eauto.
    + intros St N B L. specialize (W3 St N). rewrite N in B. cbn in B.
      pose proof (sum_update is_blocked k (if active s =? 0 then CReturned else CBlocked) CCheck (all_waiters s) Hk) as U.
      destruct (active s =? 0) eqn:Az; cbn in *; [|apply Nat.eqb_neq in Az; lia]. apply W3; lia.
    + rewrite wake_size, wake_live. intros St N B L. specialize (W3 St N B L). lia.
    + intros St N B L. specialize (W3 St N).
      pose proof (sum_update is_blocked k CCheck CBlocked (all_waiters s) Hk) as U. cbn in U. apply W3; lia.
  - (* none *)
    cases H; unfold goto, sgoto, submit; cbn; try exact W4;
      try (intros _; apply insert_waiting_nonempty).
    + destruct (sched_obj s); [dif|]; exact W4.
    + destruct (stopping s); [exact W4|]. dif; exact W4.
    + rewrite sum_app. cbn. intros B. apply W4. lia.
    + destruct rest; cbn; [rewrite wake_blocked; lia|discriminate].
    + destruct (sched_obj s); exact W4.
    + pose proof (sum_update is_blocked k (if is_empty (waiting s) then CReturned else CBlocked) CCheck (none_waiters s) Hk) as U.
      destruct (waiting s) eqn:Wt; cbn in *; [|discriminate]. specialize (W4' eq_refl). lia.
    + pose proof (sum_update is_blocked k CCheck CBlocked (none_waiters s) Hk) as U. cbn in U. intros B. apply W4. lia.
Qed.
End Proofs.
