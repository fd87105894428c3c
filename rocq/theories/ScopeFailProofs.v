(** Proofs about scope guards when adding a task fails. *)
From Coq Require Import List Bool Arith Lia.
From Verif Require Import ScopeFailModel ScopeFailSpec.
Import ListNotations.

Lemma held_app h e1 e2 r : held_from h (e1 ++ e2) r = held_from (held_from h e1 r) e2 r.
Proof. revert h. induction e1 as [|[x|x|x] e1 IH]; intros h; cbn; auto. Qed.
Lemma held_ran k r : forall h, held_from h (map Ran k) r = true -> h = true /\ ~ In r k.
Proof.
  induction k as [|x k IH]; intros h H; cbn in *; [auto|]. apply IH in H. destruct H as [H N]. apply andb_prop in H. destruct H as [-> H].
  split; [reflexivity|]. intros [->|I]; [rewrite Nat.eqb_refl in H; discriminate|exact (N I)].
Qed.
Lemma brackets_app k e1 e2 : brackets k (e1 ++ e2) = match brackets k e1 with Some k => brackets k e2 | None => None end.
Proof. revert k. induction e1 as [|[x|x|x] e1 IH]; intros k; cbn; auto. destruct k as [|y k]; [reflexivity|]. destruct (y =? x); auto. Qed.
Lemma brackets_ran k K : brackets (k ++ K) (map Ran k) = Some K.
Proof. induction k as [|x k IH]; cbn; [reflexivity|]. rewrite Nat.eqb_refl. exact IH. Qed.

(** tasks *)
Lemma exec_brackets ok p : forall c k e k' c' threw K, exec ok c k p = (e, k', c', threw) -> brackets (k ++ K) e = Some (k' ++ K).
Proof.
  induction p as [|o p IH|init body IHb p IH]; intros c k e k' c' threw K E; cbn in E.
  - injection E as <- <- <- <-. reflexivity.
  - destruct (ok c o); [|injection E as <- <- <- <-; reflexivity].
    destruct (exec ok (S c) (match o with Add r => r :: k | _ => k end) p) as [[[e1 k1] c1] t1] eqn:X. injection E as <- <- <- <-.
    pose proof (IH _ _ _ _ _ _ K X) as Y. destruct o; exact Y.
  - assert (R : forall c e0 k0, (forall K, brackets K e0 = Some (k0 ++ K)) ->
      (match exec ok c k0 body with
       | (e, k', c, threw) => if threw : bool then (e0 ++ e ++ map Ran k', k, c, true)
            else match exec ok c k p with (e', k, c, threw) => ((e0 ++ e ++ map Ran k') ++ e', k, c, threw) end
       end = (e, k', c', threw)) -> brackets (k ++ K) e = Some (k' ++ K)).
    { clear E. intros c0 e0 k0 H0 E. destruct (exec ok c0 k0 body) as [[[e1 k1] c1] t1] eqn:X.
      assert (B : brackets (k ++ K) (e0 ++ e1 ++ map Ran k1) = Some (k ++ K)).
      { rewrite brackets_app, H0, brackets_app, (IHb _ _ _ _ _ _ (k ++ K) X). apply brackets_ran. }
      destruct t1; [injection E as <- <- <- <-; exact B|].
      destruct (exec ok c1 k p) as [[[e2 k2] c2] t2] eqn:Y. injection E as <- <- <- <-. rewrite brackets_app, B. exact (IH _ _ _ _ _ _ K Y). }
    destruct init as [r|].
    + destruct (ok c (Add r)); [|injection E as <- <- <- <-; reflexivity]. apply (R (S c) [Added r] [r]); [reflexivity|exact E].
    + apply (R c [] []); [reflexivity|exact E].
Qed.
Lemma program_brackets ok init body e threw : run_program ok init body = (e, threw) -> brackets [] e = Some [].
Proof.
  unfold run_program. destruct (exec ok 0 [] (Block init body Done)) as [[[e1 k1] c1] t1] eqn:X. intros H. injection H as <- <-.
  pose proof (exec_brackets _ _ _ _ _ _ _ _ [] X) as B. cbn [app] in B. rewrite B. rewrite app_nil_r. f_equal.
  cbn in X. destruct init as [r|].
  - destruct (ok 0 (Add r)); [|congruence]. destruct (exec ok 1 [r] body) as [[[e2 k2] c2] [|]]; congruence.
  - destruct (exec ok 0 [] body) as [[[e2 k2] c2] [|]]; congruence.
Qed.

(** resources *)
Lemma exec_held ok p : forall avail c k e k' c' threw K h, guarded avail p -> incl avail (k ++ K) -> (forall r, h r = true -> In r (k ++ K)) ->
  exec ok c k p = (e, k', c', threw) -> incl k k' /\ forall r, held_from (h r) e r = true -> In r (k' ++ K).
Proof.
  induction p as [|o p IH|init body IHb p IH]; intros avail c k e k' c' threw K h G I Hh E; cbn in E.
  - injection E as <- <- <- <-. split; [intros x X; exact X|exact Hh].
  - destruct (ok c o); [|injection E as <- <- <- <-; split; [intros x X; exact X|exact Hh]].
    destruct (exec ok (S c) (match o with Add r => r :: k | _ => k end) p) as [[[e1 k1] c1] t1] eqn:X. injection E as <- <- <- <-.
    destruct o as [|r|r]; cbn [guarded app] in *.
    + exact (IH _ _ _ _ _ _ _ K h G I Hh X).
    + destruct G as [Gr G]. assert (P : forall x, h x || (r =? x) = true -> In x (k ++ K)).
      * intros x Hx. apply orb_prop in Hx. destruct Hx as [Hx|Hx]; [exact (Hh _ Hx)|]. apply Nat.eqb_eq in Hx. subst x. exact (I _ Gr).
      * destruct (IH _ _ _ _ _ _ _ K (fun x => h x || (r =? x)) G I P X) as [I1 H1]. split; [exact I1|]. intros x Hx. cbn in Hx. exact (H1 _ Hx).
    + assert (P1 : incl (r :: avail) ((r :: k) ++ K)) by (intros x [-> |Hx]; [left; reflexivity|right; exact (I _ Hx)]).
      assert (P2 : forall x, h x = true -> In x ((r :: k) ++ K)) by (intros x Hx; right; exact (Hh _ Hx)).
      destruct (IH _ _ _ _ _ _ _ K h G P1 P2 X) as [I1 H1]. split; [intros x Hx; apply I1; right; exact Hx|]. intros x Hx. exact (H1 _ Hx).
  - cbn [guarded] in G. destruct G as [Gb G].
    assert (R : forall c e0 k0, (forall h r, held_from h e0 r = h) -> incl (match init with Some r => r :: avail | None => avail end) (k0 ++ k ++ K) ->
      (match exec ok c k0 body with
       | (e, k', c, threw) => if threw : bool then (e0 ++ e ++ map Ran k', k, c, true)
            else match exec ok c k p with (e', k, c, threw) => ((e0 ++ e ++ map Ran k') ++ e', k, c, threw) end
       end = (e, k', c', threw)) -> incl k k' /\ forall r, held_from (h r) e r = true -> In r (k' ++ K)).
    { clear E. intros c0 e0 k0 H0 I0 E. destruct (exec ok c0 k0 body) as [[[e1 k1] c1] t1] eqn:X.
      assert (P : forall r, h r = true -> In r (k0 ++ k ++ K)) by (intros r Hr; apply in_or_app; right; exact (Hh _ Hr)).
      destruct (IHb _ _ _ _ _ _ _ (k ++ K) h Gb I0 P X) as [_ H1].
      assert (B : forall r, held_from (h r) (e0 ++ e1 ++ map Ran k1) r = true -> In r (k ++ K)).
      { intros r Hr. rewrite held_app, H0, held_app in Hr. apply held_ran in Hr. destruct Hr as [Hr N]. apply H1 in Hr. apply in_app_or in Hr. tauto. }
      destruct t1; [injection E as <- <- <- <-; split; [intros x Hx; exact Hx|exact B]|].
      destruct (exec ok c1 k p) as [[[e2 k2] c2] t2] eqn:Y. injection E as <- <- <- <-.
      destruct (IH _ _ _ _ _ _ _ K (fun r => held_from (h r) (e0 ++ e1 ++ map Ran k1) r) G I B Y) as [I2 H2]. split; [exact I2|].
      intros r Hr. rewrite held_app in Hr. exact (H2 _ Hr). }
    destruct init as [r|].
    + destruct (ok c (Add r)); [|injection E as <- <- <- <-; split; [intros x X; exact X|exact Hh]]. apply (R (S c) [Added r] [r]); [reflexivity| |exact E].
      intros x [-> |Hx]; [left; reflexivity|right; exact (I _ Hx)].
    + apply (R c [] []); [reflexivity|exact I|exact E].
Qed.
Lemma program_released ok init body e threw : guarded [] (Block init body Done) -> run_program ok init body = (e, threw) -> forall r, held e r = false.
Proof.
  unfold run_program. destruct (exec ok 0 [] (Block init body Done)) as [[[e1 k1] c1] t1] eqn:X. intros G H. injection H as <- <-. intros r.
  assert (P1 : incl (@nil nat) ([] ++ [])) by (intros x []). assert (P2 : forall r : nat, false = true -> In r ([] ++ [])) by discriminate.
  destruct (exec_held ok _ [] 0 [] _ _ _ _ [] (fun _ => false) G P1 P2 X) as [_ H1].
  unfold held. destruct (held_from false e1 r) eqn:E; [|reflexivity]. apply H1 in E. rewrite app_nil_r in E.
  cbn in X. destruct init as [i|].
  - destruct (ok 0 (Add i)); [|injection X as <- <- <- <-; destruct E]. destruct (exec ok 1 [i] body) as [[[e2 k2] c2] [|]]; injection X as <- <- <- <-; destruct E.
  - destruct (exec ok 0 [] body) as [[[e2 k2] c2] [|]]; injection X as <- <- <- <-; destruct E.
Qed.

(** the usual order: acquire, then add the task, then do something *)
Lemma acquire_add ok r : let t := run_program ok None (Step (Acquire r) (Step (Add r) (Step Work Done))) in
  held (fst t) r = true <-> ok 0 (Acquire r) = true /\ ok 1 (Add r) = false.
Proof.
  unfold run_program. cbn. destruct (ok 0 (Acquire r)), (ok 1 (Add r)), (ok 2 Work); cbn; rewrite ?Nat.eqb_refl; cbn; split; intros H; try discriminate; try (destruct H; discriminate); auto.
Qed.
Lemma acquire_construct ok r : let t := run_program ok None (Step (Acquire r) (Block (Some r) (Step Work Done) Done)) in
  held (fst t) r = true <-> ok 0 (Acquire r) = true /\ ok 1 (Add r) = false.
Proof.
  unfold run_program. cbn. destruct (ok 0 (Acquire r)), (ok 1 (Add r)), (ok 2 Work); cbn; rewrite ?Nat.eqb_refl; cbn; split; intros H; try discriminate; try (destruct H; discriminate); auto.
Qed.
(** without failing additions *)
Lemma exec_after ok p : (forall c r, ok c (Add r) = true) -> forall pend c k e k' c' threw K h, added_after pend p ->
  (forall r, h r = true -> In r (k ++ K) \/ pend = Some r) ->
  exec ok c k p = (e, k', c', threw) -> incl k k' /\ forall r, held_from (h r) e r = true -> In r (k' ++ K).
Proof.
  intros OK. induction p as [|o p IH|init body IHb p IH]; intros pend c k e k' c' threw K h G Hh E; cbn in E.
  - injection E as <- <- <- <-. cbn in G. subst pend. split; [intros x X; exact X|]. intros r Hr. cbn in Hr. destruct (Hh r Hr); [assumption|discriminate].
  - destruct (ok c o) eqn:O.
    + destruct (exec ok (S c) (match o with Add r => r :: k | _ => k end) p) as [[[e1 k1] c1] t1] eqn:X. injection E as <- <- <- <-.
      destruct o as [|r|r]; cbn [added_after app] in *.
      * destruct G as [-> G]. exact (IH None _ _ _ _ _ _ K h G Hh X).
      * destruct G as [-> G]. assert (P : forall x, h x || (r =? x) = true -> In x (k ++ K) \/ Some r = Some x).
        { intros x Hx. apply orb_prop in Hx. destruct Hx as [Hx|Hx]; [destruct (Hh _ Hx); [auto|discriminate]|]. apply Nat.eqb_eq in Hx. subst x. auto. }
        exact (IH _ _ _ _ _ _ _ K (fun x => h x || (r =? x)) G P X).
      * destruct G as [Gp G]. assert (P : forall x, h x = true -> In x ((r :: k) ++ K) \/ None = Some x).
        { intros x Hx. left. destruct (Hh _ Hx) as [J|J]; [right; exact J|]. destruct Gp as [->| ->]; [discriminate|]. injection J as ->. left. reflexivity. }
        destruct (IH _ _ _ _ _ _ _ K h G P X) as [I1 H1]. split; [intros x Hx; apply I1; right; exact Hx|exact H1].
    + injection E as <- <- <- <-. split; [intros x X; exact X|]. intros r Hr. cbn in Hr. destruct (Hh _ Hr) as [J|J]; [exact J|].
      destruct o as [|x|x]; cbn in G; [destruct G; congruence|destruct G; congruence|rewrite OK in O; discriminate].
  - cbn [added_after] in G. destruct G as (Gp & Gb & G).
    assert (R : forall c e0 k0, (forall h r, held_from h e0 r = h) -> (forall r, h r = true -> In r (k0 ++ k ++ K)) -> (forall r, h r = true -> In r k0 \/ In r (k ++ K)) ->
      (match exec ok c k0 body with
       | (e, k', c, threw) => if threw : bool then (e0 ++ e ++ map Ran k', k, c, true)
            else match exec ok c k p with (e', k, c, threw) => ((e0 ++ e ++ map Ran k') ++ e', k, c, threw) end
       end = (e, k', c', threw)) -> incl k k' /\ forall r, held_from (h r) e r = true -> In r (k' ++ K)).
    { clear E. intros c0 e0 k0 H0 P0 _ E. destruct (exec ok c0 k0 body) as [[[e1 k1] c1] t1] eqn:X.
      destruct (IHb None _ _ _ _ _ _ (k ++ K) h Gb (fun r Hr => or_introl (P0 r Hr)) X) as [_ H1].
      assert (B : forall r, held_from (h r) (e0 ++ e1 ++ map Ran k1) r = true -> In r (k ++ K)).
      { intros r Hr. rewrite held_app, H0, held_app in Hr. apply held_ran in Hr. destruct Hr as [Hr N]. apply H1 in Hr. apply in_app_or in Hr. tauto. }
      destruct t1; [injection E as <- <- <- <-; split; [intros x Hx; exact Hx|exact B]|].
      destruct (exec ok c1 k p) as [[[e2 k2] c2] t2] eqn:Y. injection E as <- <- <- <-.
      destruct (IH None _ _ _ _ _ _ K (fun r => held_from (h r) (e0 ++ e1 ++ map Ran k1) r) G (fun r Hr => or_introl (B r Hr)) Y) as [I2 H2]. split; [exact I2|].
      intros r Hr. rewrite held_app in Hr. exact (H2 _ Hr). }
    destruct init as [r|].
    + rewrite OK in E. apply (R (S c) [Added r] [r]); [reflexivity| | |exact E].
      * intros x Hx. destruct (Hh _ Hx) as [J|J]; [right; exact J|]. destruct Gp as [->| ->]; [discriminate|]. injection J as ->. left. reflexivity.
      * intros x Hx. destruct (Hh _ Hx) as [J|J]; [right; exact J|]. destruct Gp as [->| ->]; [discriminate|]. injection J as ->. left. left. reflexivity.
    + apply (R c [] []); [reflexivity| | |exact E]; intros x Hx; destruct (Hh _ Hx) as [J|J]; auto; destruct Gp as [->| ->]; discriminate.
Qed.
Lemma program_after ok init body e threw : (forall c r, ok c (Add r) = true) -> added_after None (Block init body Done) ->
  run_program ok init body = (e, threw) -> forall r, held e r = false.
Proof.
  intros OK. unfold run_program. destruct (exec ok 0 [] (Block init body Done)) as [[[e1 k1] c1] t1] eqn:X. intros G H. injection H as <- <-. intros r.
  assert (P2 : forall r : nat, false = true -> In r ([] ++ []) \/ None = Some r) by discriminate.
  destruct (exec_after ok _ OK None 0 [] _ _ _ _ [] (fun _ => false) G P2 X) as [_ H1].
  unfold held. destruct (held_from false e1 r) eqn:E; [|reflexivity]. apply H1 in E. rewrite app_nil_r in E.
  cbn in X. destruct init as [i|].
  - rewrite OK in X. destruct (exec ok 1 [i] body) as [[[e2 k2] c2] [|]]; injection X as <- <- <- <-; destruct E.
  - destruct (exec ok 0 [] body) as [[[e2 k2] c2] [|]]; injection X as <- <- <- <-; destruct E.
Qed.
