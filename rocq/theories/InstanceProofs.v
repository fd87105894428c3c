(** Proofs about the static objects: an object is built before, and so destroyed after, all that depend on it. *)
From Coq Require Import List Lia.
From Verif Require Import InstanceModel InstanceSpec.
Import ListNotations.

Lemma split_in {A} (a : A) l1 l2 k1 k2 x : l1 ++ x :: l2 = k1 ++ a :: k2 ->
  (x = a /\ l1 = k1 /\ l2 = k2) \/ (exists m, k1 = l1 ++ x :: m /\ l2 = m ++ a :: k2) \/ (exists m, l1 = k1 ++ a :: m /\ k2 = m ++ x :: l2).
Proof.
  revert k1. induction l1 as [|y l1 IH]; intros [|z k1] E; cbn in *.
  - injection E; intros; subst; auto.
  - injection E; intros; subst. right; left. exists k1. auto.
  - injection E; intros; subst. right; right. exists l1. auto.
  - injection E; intros E1 ->. destruct (IH _ E1) as [(-> & -> & ->)|[(m & -> & ->)|(m & -> & ->)]]; auto; [right; left|right; right]; exists m; auto.
Qed.

Section Target.
Variables (P : program) (p : object).
Notation D o := (depends P o p).

Definition reach (b : option object) (q : object) : Prop :=
  match b with None => True | Some o => exists c, acts P o c /\ touches P c q end.
Definition item_ok (b : option object) (it : item) : Prop :=
  match it with
  | Run c => (forall q, touches P c q -> reach b q) /\ (forall o j, hands c o j -> given P o j)
  | Built o => reach b o
  | Died _ => True
  end.
Definition pending (th : list item) : Prop :=
  forall l1 o l2, th = l1 ++ Built o :: l2 -> D o -> o <> p -> exists c, In (Run c) l1 /\ uses c p.
Definition ordered (w : world) (T : list (option object * list item)) : Prop :=
  match status w p with
  | Absent | Building => (forall o, D o -> o <> p -> status w o = Absent \/ status w o = Building) /\ (forall b th, In (b, th) T -> pending th)
  | Alive => forall l1 l2, order w = l1 ++ p :: l2 -> forall o, D o -> o <> p -> ~ In o l2
  | Dying | Dead => forall o, D o -> o <> p -> status w o = Absent \/ status w o = Dead
  end.

Record core (w : world) (T : list (option object * list item)) : Prop := Core {
  c_items : forall b th, In (b, th) T -> Forall (item_ok b) th;
  c_jobs : forall o j, In (o, j) (jobs w) -> given P o j;
  c_owner : forall o th, In (Some o, th) T -> status w o = Alive \/ status w o = Dying;
  c_none : forall th, In (None, th) T -> th = [] \/ forall o, status w o <> Dying /\ status w o <> Dead;
  c_building : forall o, status w o = Building -> exists b th, In (b, th) T /\ In (Built o) th;
  c_nodup : NoDup (order w);
  c_order : forall o, In o (order w) <-> status w o = Alive;
  c_phase : ordered w T;
  c_events : forall b l, In (used b p l) (events w) -> l = Alive \/ l = Dying /\ b = Some p }.

(** objects that [p] can touch do not depend on it *)
Hypothesis acyclic : forall q, q <> p -> depends P p q -> ~ D q.

Lemma reach_depends o q : reach (Some o) q -> depends P o q.
Proof. intros (c & A & T). exact (dep_one P _ _ _ A T). Qed.
Lemma reach_more o q m : reach (Some o) q -> depends P q m -> depends P o m.
Proof. intros (c & A & T) Dm. exact (dep_more P _ _ _ _ A T Dm). Qed.

Lemma status_same o l w : status (set_life o l w) o = l.
Proof. cbn. destruct (object_dec o o); congruence. Qed.
Lemma status_other o l w x : x <> o -> status (set_life o l w) x = status w x.
Proof. intros N. cbn. destruct (object_dec x o); congruence. Qed.

Lemma first_uses c o : first c = Some o -> uses c o.
Proof. destruct c; cbn; intros E; try discriminate; injection E as ->; auto. Qed.

Lemma in_mid {A} (x : A) l1 y y' l2 : In x (l1 ++ y' :: l2) -> x = y' \/ In x (l1 ++ y :: l2).
Proof. rewrite !in_app_iff. cbn. intros [H|[->|H]]; auto. Qed.
Lemma in_mid' {A} (x : A) l1 y y' l2 : In x (l1 ++ y :: l2) -> x = y \/ In x (l1 ++ y' :: l2).
Proof. apply in_mid. Qed.

(** a thread whose behaviour depends on [p] runs only while [p] is alive *)
Lemma alive_for w T b th c r : core w T -> In (b, th) T -> th = Run c :: r -> forall q, touches P c q ->
  D q -> q <> p -> built (status w p) -> status w p = Alive.
Proof.
  intros C I E q Tq Dq Nq B. destruct B as [B|B]; [exact B|]. exfalso.
  pose proof (c_items _ _ C _ _ I) as F. rewrite E in F. destruct (Forall_inv F) as [F1 _]. specialize (F1 _ Tq). subst th.
  destruct b as [o|].
  - pose proof (reach_more _ _ _ F1 Dq) as Do. destruct (object_dec o p) as [->|No].
    + exact (acyclic q Nq (reach_depends _ _ F1) Dq).
    + pose proof (c_phase _ _ C) as Ph. unfold ordered in Ph. destruct (c_owner _ _ C _ _ I) as [A|A]; destruct B as [B|B]; rewrite B in Ph; destruct (Ph o Do No); congruence.
  - destruct (c_none _ _ C _ I) as [X|X]; [discriminate|]. destruct (X p). destruct B; contradiction.
Qed.

(** a call of a member function of an object that is built *)
Lemma core_call w l1 b c l2 o k r js : core w (l1 ++ (b, Run c :: r) :: l2) -> built (status w o) ->
  uses c o -> (forall q, uses k q -> uses c q) -> (forall q, uses c q -> q = o \/ uses k q) ->
  (forall x j, hands k x j -> hands c x j) -> (forall x j, In (x, j) js -> given P x j) ->
  core (World (status w) (order w) (js ++ jobs w) (used b o (status w o) :: events w)) (l1 ++ (b, Run k :: r) :: l2).
Proof.
  intros C B U U1 U2 H1 H2. assert (I0 : In (b, Run c :: r) (l1 ++ (b, Run c :: r) :: l2)) by (apply in_app_iff; right; left; reflexivity).
  pose proof (c_items _ _ C _ _ I0) as F0. destruct (Forall_inv F0) as [F1 F2]. pose proof (Forall_inv_tail F0) as F3.
  constructor; cbn [status order jobs events].
  - intros b' th' I. destruct (in_mid _ _ (b, Run c :: r) _ _ I) as [E|I']; [injection E; intros; subst|exact (c_items _ _ C _ _ I')].
    constructor; [split|exact F3].
    + intros q T. apply F1. destruct T as [c' q V|c' o' q V T]; [apply touch_use; auto|exact (touch_ctor P _ _ _ (U1 _ V) T)].
    + intros x j Hj. apply F2. auto.
  - intros x j I. apply in_app_iff in I as [I|I]; [auto|exact (c_jobs _ _ C _ _ I)].
  - intros o' th' I. destruct (in_mid _ _ (b, Run c :: r) _ _ I) as [E|I']; [injection E; intros; subst; exact (c_owner _ _ C _ _ I0)|exact (c_owner _ _ C _ _ I')].
  - intros th' I. destruct (in_mid _ _ (b, Run c :: r) _ _ I) as [E|I']; [injection E; intros; subst|exact (c_none _ _ C _ I')].
    destruct (c_none _ _ C _ I0) as [X|X]; [discriminate|right; exact X].
  - intros o' A. destruct (c_building _ _ C _ A) as (b' & th' & I & I'). destruct (in_mid' _ _ _ (b, Run k :: r) _ I) as [E|I2].
    + injection E; intros; subst. exists b, (Run k :: r). split; [apply in_app_iff; right; left; reflexivity|]. destruct I' as [X|X]; [discriminate|right; exact X].
    + exists b', th'. auto.
  - exact (c_nodup _ _ C).
  - exact (c_order _ _ C).
  - pose proof (c_phase _ _ C) as Ph. unfold ordered in *. cbn [status order] in *.
    assert (G : ~ built (status w p) -> (forall b' th', In (b', th') (l1 ++ (b, Run c :: r) :: l2) -> pending th') ->
      forall b' th', In (b', th') (l1 ++ (b, Run k :: r) :: l2) -> pending th').
    { intros NB Q b' th' I. destruct (in_mid _ _ (b, Run c :: r) _ _ I) as [E|I']; [injection E; intros; subst|exact (Q _ _ I')].
      intros k1 x k2 E1 Dx Nx. destruct k1 as [|i k1]; [discriminate|]. injection E1 as <- ->.
      destruct (Q _ _ I0 (Run c :: k1) x k2 eq_refl Dx Nx) as (c' & [X|X] & V); [|exists c'; split; [right; exact X|exact V]].
      injection X as <-. exists k. split; [left; reflexivity|]. destruct (U2 _ V) as [->|V']; [contradiction|exact V']. }
    destruct (status w p) eqn:SP; try exact Ph; (split; [exact (proj1 Ph)|apply G; [intros [?|[?|?]]; discriminate|exact (proj2 Ph)]]).
  - intros b' l [E|I]; [injection E; intros; subst|exact (c_events _ _ C _ _ I)].
    destruct b' as [q|].
    + destruct (object_dec q p) as [->|Nq].
      * destruct (c_owner _ _ C _ _ I0); auto.
      * left. pose proof (reach_depends _ _ (F1 _ (touch_use P _ _ U))) as Dq. pose proof (c_phase _ _ C) as Ph. unfold ordered in Ph.
        destruct (c_owner _ _ C _ _ I0) as [A|A]; destruct B as [B|[B|B]]; try exact B; rewrite B in Ph; destruct (Ph q Dq Nq); congruence.
    + left. destruct (c_none _ _ C _ I0) as [X|X]; [discriminate|]. destruct (X p). destruct B as [B|[B|B]]; [exact B|contradiction|contradiction].
Qed.

Lemma core_tstep w l1 b th l2 w' th' : core w (l1 ++ (b, th) :: l2) -> tstep P b w th w' th' ->
  (forall c r q, th = Run c :: r -> first c = Some q -> status w q = Absent -> D q -> q <> p -> ~ built (status w p) -> uses (ctor P q) p) ->
  core w' (l1 ++ (b, th') :: l2).
Proof.
  intros C S HF. assert (I0 : In (b, th) (l1 ++ (b, th) :: l2)) by (apply in_app_iff; right; left; reflexivity).
  pose proof (c_items _ _ C _ _ I0) as F0. destruct S as [w r|w c o r F A|w o r A|w o k r B|w o j k r B].
  - (* t_skip *) pose proof (Forall_inv_tail F0) as F3. constructor.
    + intros b' th' I. destruct (in_mid _ _ (b, Run Skip :: r) _ _ I) as [E|I']; [injection E; intros; subst; assumption|exact (c_items _ _ C _ _ I')].
    + exact (c_jobs _ _ C).
    + intros o' th' I. destruct (in_mid _ _ (b, Run Skip :: r) _ _ I) as [E|I']; [injection E; intros; subst; exact (c_owner _ _ C _ _ I0)|exact (c_owner _ _ C _ _ I')].
    + intros th' I. destruct (in_mid _ _ (b, Run Skip :: r) _ _ I) as [E|I']; [injection E; intros; subst|exact (c_none _ _ C _ I')].
      destruct (c_none _ _ C _ I0) as [X|X]; [discriminate|right; exact X].
    + intros o' A. destruct (c_building _ _ C _ A) as (b' & th' & I & I'). destruct (in_mid' _ _ _ (b, r) _ I) as [E|I2].
      * injection E; intros; subst. exists b, r. split; [apply in_app_iff; right; left; reflexivity|]. destruct I' as [X|X]; [discriminate|exact X].
      * exists b', th'. auto.
    + exact (c_nodup _ _ C).
    + exact (c_order _ _ C).
    + pose proof (c_phase _ _ C) as Ph. unfold ordered in *. destruct (status w p); try exact Ph; (split; [exact (proj1 Ph)|]);
        intros b' th' I; (destruct (in_mid _ _ (b, Run Skip :: r) _ _ I) as [E|I']; [injection E; intros; subst|exact (proj2 Ph _ _ I')]);
        intros k1 o k2 E1 Do No; subst; destruct (proj2 Ph _ _ I0 (Run Skip :: k1) o k2 eq_refl Do No) as (c & [X|X] & U); eauto; injection X as <-; destruct U.
    + exact (c_events _ _ C).
  - (* t_init *) destruct (Forall_inv F0) as [F1 F2]. pose proof (Forall_inv_tail F0) as F3. pose proof (first_uses _ _ F) as U.
    assert (K : forall x l, l <> Building -> status (set_life o Building w) x = l -> status w x = l).
    { intros x l N E. destruct (object_dec x o) as [->|Nx]; [rewrite status_same in E; congruence|rewrite status_other in E; assumption]. }
    assert (K2 : forall x l, l <> Absent -> status w x = l -> status (set_life o Building w) x = l).
    { intros x l N E. destruct (object_dec x o) as [->|Nx]; [congruence|rewrite status_other; assumption]. }
    constructor.
    + intros b' th' I. destruct (in_mid _ _ (b, Run c :: r) _ _ I) as [E|I']; [injection E; intros; subst|exact (c_items _ _ C _ _ I')].
      constructor; [split|constructor; [|constructor; [split|]]]; auto.
      * intros q T. apply F1. exact (touch_ctor P _ _ _ U T).
      * intros o' j H. exists (ctor P o). split; [right; exists o; left; reflexivity|exact H].
      * apply F1. apply touch_use. exact U.
    + exact (c_jobs _ _ C).
    + intros o' th' I. destruct (in_mid _ _ (b, Run c :: r) _ _ I) as [E|I']; [injection E; intros; subst; destruct (c_owner _ _ C _ _ I0)|destruct (c_owner _ _ C _ _ I')]; [left|right|left|right]; (apply K2; [discriminate|assumption]).
    + intros th' I. destruct (in_mid _ _ (b, Run c :: r) _ _ I) as [E|I'].
      * injection E; intros; subst. destruct (c_none _ _ C _ I0) as [X|X]; [discriminate|right]. intros x. split; intros Y; apply K in Y; try discriminate; destruct (X x); contradiction.
      * destruct (c_none _ _ C _ I') as [X|X]; [left; exact X|right]. intros x. split; intros Y; apply K in Y; try discriminate; destruct (X x); contradiction.
    + intros x A'. destruct (object_dec x o) as [->|Nx].
      * exists b, (Run (ctor P o) :: Built o :: Run c :: r). split; [apply in_app_iff; right; left; reflexivity|right; left; reflexivity].
      * rewrite status_other in A' by assumption. destruct (c_building _ _ C _ A') as (b' & th' & I & I'). destruct (in_mid' _ _ _ (b, Run (ctor P o) :: Built o :: Run c :: r) _ I) as [E|I2].
        -- injection E; intros; subst. exists b, (Run (ctor P o) :: Built o :: Run c :: r). split; [apply in_app_iff; right; left; reflexivity|right; right; exact I'].
        -- exists b', th'. auto.
    + exact (c_nodup _ _ C).
    + intros x. cbn [set_life order]. rewrite (c_order _ _ C x). split; intros Y; [apply K2; [discriminate|exact Y]|apply K in Y; [exact Y|discriminate]].
    + pose proof (c_phase _ _ C) as Ph. unfold ordered in *.
      assert (PB : built (status w p) -> status (set_life o Building w) p = status w p).
      { intros B. rewrite status_other; [reflexivity|]. intros ->. rewrite A in B. destruct B as [B|[B|B]]; discriminate. }
      assert (PN : ~ built (status w p) ->
        match status (set_life o Building w) p with
        | Absent | Building => (forall x, D x -> x <> p -> status (set_life o Building w) x = Absent \/ status (set_life o Building w) x = Building) /\
            (forall b' th', In (b', th') (l1 ++ (b, Run (ctor P o) :: Built o :: Run c :: r) :: l2) -> pending th') | _ => False end).
      { intros NB. assert (Ph' : (forall x, D x -> x <> p -> status w x = Absent \/ status w x = Building) /\ (forall b' th', In (b', th') (l1 ++ (b, Run c :: r) :: l2) -> pending th')).
        { destruct (status w p); try exact Ph; exfalso; apply NB; unfold built; auto. }
        assert (G : (forall x, D x -> x <> p -> status (set_life o Building w) x = Absent \/ status (set_life o Building w) x = Building) /\
            (forall b' th', In (b', th') (l1 ++ (b, Run (ctor P o) :: Built o :: Run c :: r) :: l2) -> pending th')).
        { split.
          - intros x Dx Nx. destruct (object_dec x o) as [->|No]; [right; apply status_same|rewrite status_other by assumption; exact (proj1 Ph' x Dx Nx)].
          - intros b' th' I. destruct (in_mid _ _ (b, Run c :: r) _ _ I) as [E|I']; [injection E; intros; subst|exact (proj2 Ph' _ _ I')].
            intros k1 x k2 E1 Dx Nx. destruct k1 as [|i1 k1]; [discriminate|]. injection E1 as <- E1. destruct k1 as [|i2 k1].
            + injection E1; intros; subst. exists (ctor P x). split; [left; reflexivity|]. exact (HF c r x eq_refl F A Dx Nx NB).
            + injection E1 as <- E1. destruct (proj2 Ph' _ _ I0 k1 x k2 E1 Dx Nx) as (c' & I' & U'). exists c'. split; [right; right; exact I'|exact U']. }
        destruct (status (set_life o Building w) p) eqn:SP; auto.
        all: apply K in SP; [|discriminate]; apply NB; unfold built; auto. }
      destruct (status w p) eqn:SP.
      * specialize (PN ltac:(intros [?|[?|?]]; discriminate)). destruct (status (set_life o Building w) p); try destruct PN; try (split; assumption); contradiction.
      * specialize (PN ltac:(intros [?|[?|?]]; discriminate)). destruct (status (set_life o Building w) p); try destruct PN; try (split; assumption); contradiction.
      * rewrite PB by (unfold built; auto). exact Ph.
      * rewrite PB by (unfold built; auto). intros x Dx Nx. destruct (object_dec x o) as [->|No]; [|rewrite status_other by assumption; exact (Ph x Dx Nx)].
        exfalso. pose proof (alive_for _ _ _ _ _ _ C I0 eq_refl o (touch_use P _ _ U) Dx Nx ltac:(rewrite SP; unfold built; auto)). congruence.
      * rewrite PB by (unfold built; auto). intros x Dx Nx. destruct (object_dec x o) as [->|No]; [|rewrite status_other by assumption; exact (Ph x Dx Nx)].
        exfalso. pose proof (alive_for _ _ _ _ _ _ C I0 eq_refl o (touch_use P _ _ U) Dx Nx ltac:(rewrite SP; unfold built; auto)). congruence.
    + exact (c_events _ _ C).
  - (* t_built *) pose proof (Forall_inv F0) as F1. pose proof (Forall_inv_tail F0) as F3. cbn in F1.
    assert (K : forall x l, l <> Alive -> status (set_life o Alive w) x = l -> status w x = l).
    { intros x l N E. destruct (object_dec x o) as [->|Nx]; [rewrite status_same in E; congruence|rewrite status_other in E; assumption]. }
    assert (K2 : forall x l, l <> Building -> status w x = l -> status (set_life o Alive w) x = l).
    { intros x l N E. destruct (object_dec x o) as [->|Nx]; [congruence|rewrite status_other; assumption]. }
    constructor; cbn [register status order jobs events]; change (fun x => if object_dec x o then Alive else status w x) with (status (set_life o Alive w)).
    + intros b' th' I. destruct (in_mid _ _ (b, Built o :: r) _ _ I) as [E|I']; [injection E; intros; subst; assumption|exact (c_items _ _ C _ _ I')].
    + exact (c_jobs _ _ C).
    + intros o' th' I. destruct (in_mid _ _ (b, Built o :: r) _ _ I) as [E|I']; [injection E; intros; subst; destruct (c_owner _ _ C _ _ I0)|destruct (c_owner _ _ C _ _ I')]; [left|right|left|right]; (apply K2; [discriminate|assumption]).
    + intros th' I. destruct (in_mid _ _ (b, Built o :: r) _ _ I) as [E|I'].
      * injection E; intros; subst. destruct (c_none _ _ C _ I0) as [X|X]; [discriminate|right]. intros x. split; intros Y; apply K in Y; try discriminate; destruct (X x); contradiction.
      * destruct (c_none _ _ C _ I') as [X|X]; [left; exact X|right]. intros x. split; intros Y; apply K in Y; try discriminate; destruct (X x); contradiction.
    + intros x A'. destruct (object_dec x o) as [->|Nx]; [rewrite status_same in A'; discriminate|].
      rewrite status_other in A' by assumption. destruct (c_building _ _ C _ A') as (b' & th' & I & I'). destruct (in_mid' _ _ _ (b, r) _ I) as [E|I2].
      * injection E; intros; subst. exists b, r. split; [apply in_app_iff; right; left; reflexivity|]. destruct I' as [X|X]; [congruence|exact X].
      * exists b', th'. auto.
    + constructor; [|exact (c_nodup _ _ C)]. intros I. apply (c_order _ _ C) in I. congruence.
    + intros x. cbn [In]. rewrite (c_order _ _ C x). destruct (object_dec x o) as [->|Nx]; [rewrite status_same; tauto|rewrite status_other by assumption]. split; [intros [->|H]; [congruence|exact H]|auto].
    + pose proof (c_phase _ _ C) as Ph. unfold ordered in *. cbn [register status order].
      change (fun x => if object_dec x o then Alive else status w x) with (status (set_life o Alive w)).
      destruct (object_dec o p) as [->|Nop].
      * rewrite status_same. rewrite A in Ph. intros k1 k2 E x Dx Nx I.
        assert (Z : In x (order w)) by (destruct k1 as [|i k1]; [injection E as E1; rewrite E1; exact I|injection E as E1 E2; rewrite E2; apply in_app_iff; right; right; exact I]).
        apply (c_order _ _ C) in Z. destruct (proj1 Ph x Dx Nx); congruence.
      * rewrite status_other by congruence. destruct (status w p) eqn:SP.
        -- split.
           ++ intros x Dx Nx. destruct (object_dec x o) as [->|No]; [|rewrite status_other by assumption; exact (proj1 Ph x Dx Nx)].
              exfalso. destruct (proj2 Ph _ _ I0 [] o r eq_refl Dx Nx) as (? & [] & _).
           ++ intros b' th' I. destruct (in_mid _ _ (b, Built o :: r) _ _ I) as [E|I']; [injection E; intros; subst|exact (proj2 Ph _ _ I')].
              intros k1 x k2 E1 Dx Nx. subst. destruct (proj2 Ph _ _ I0 (Built o :: k1) x k2 eq_refl Dx Nx) as (c & [X|X] & U); [discriminate|eauto].
        -- split.
           ++ intros x Dx Nx. destruct (object_dec x o) as [->|No]; [|rewrite status_other by assumption; exact (proj1 Ph x Dx Nx)].
              exfalso. destruct (proj2 Ph _ _ I0 [] o r eq_refl Dx Nx) as (? & [] & _).
           ++ intros b' th' I. destruct (in_mid _ _ (b, Built o :: r) _ _ I) as [E|I']; [injection E; intros; subst|exact (proj2 Ph _ _ I')].
              intros k1 x k2 E1 Dx Nx. subst. destruct (proj2 Ph _ _ I0 (Built o :: k1) x k2 eq_refl Dx Nx) as (c & [X|X] & U); [discriminate|eauto].
        -- intros k1 k2 E x Dx Nx. destruct k1 as [|i k1]; injection E; intros E1 E2; [congruence|]. exact (Ph _ _ E1 x Dx Nx).
        -- intros x Dx Nx. destruct (object_dec x o) as [->|No]; [|rewrite status_other by assumption; exact (Ph x Dx Nx)]. destruct (Ph o Dx Nx); congruence.
        -- intros x Dx Nx. destruct (object_dec x o) as [->|No]; [|rewrite status_other by assumption; exact (Ph x Dx Nx)]. destruct (Ph o Dx Nx); congruence.
    + exact (c_events _ _ C).
  - (* t_use *) apply (core_call w l1 b (Use o k) l2 o k r []); cbn; auto; [intuition congruence|intros ? ? []].
  - (* t_submit *) apply (core_call w l1 b (Submit o j k) l2 o k r [(o, j)]); cbn; auto; [intuition congruence|].
    intros o' j' [X|[]]. injection X as <- <-. destruct (Forall_inv F0) as [_ F2]. apply F2. cbn. auto.
Qed.

(** * The whole program *)

Definition threads (s : state) : list (option object * list item) :=
  (duty s, main s) :: map (fun q => (Some (fst q), snd q)) (workers s).

(** a program that begins by using the objects of [l] is still doing so, or they are all built *)
Definition starting (l : list object) (k : code) (s : state) : Prop :=
  (forall x, In x l -> built (status (world_of s) x)) \/
  (leaving s = false /\ workers s = [] /\ jobs (world_of s) = [] /\
   (forall x, ~ In x l -> status (world_of s) x = Absent) /\
   exists la lb, l = la ++ lb /\ lb <> [] /\ (forall x, In x la -> built (status (world_of s) x)) /\
     (main s = [Run (use_all lb k)] \/
      exists q lc, lb = q :: lc /\ (main s = [Run Skip; Built q; Run (use_all lb k)] \/ main s = [Built q; Run (use_all lb k)]))).

Record inv (s : state) : Prop := Inv {
  i_core : core (world_of s) (threads s);
  i_duty : match duty s with
           | Some o => leaving s = true /\ status (world_of s) o = Dying /\ exists l, main s = l ++ [Died o] /\ forall x, ~ In (Died x) l
           | None => leaving s = true -> main s = []
           end;
  i_before : leaving s = false -> duty s = None /\ (forall x, ~ In (Died x) (main s)) /\ forall o, status (world_of s) o <> Dying /\ status (world_of s) o <> Dead;
  i_dying : forall o, status (world_of s) o = Dying -> duty s = Some o;
  i_start : forall l k, start P = use_all l k -> (forall x, In x l -> ctor P x = Skip) -> starting l k s }.

Hypothesis first_built : forall o, o <> p -> D o -> built_first P p o.

Lemma tstep_status b w th w' th' o : tstep P b w th w' th' -> status w' o = status w o \/
  (status w o = Absent /\ status w' o = Building) \/ (status w o = Building /\ status w' o = Alive).
Proof.
  intros T. destruct T as [w r|w c x r F A|w x r A|w x k r B|w x j k r B]; auto; cbn; destruct (object_dec o x) as [->|]; auto.
Qed.
Lemma tstep_built b w th w' th' o : tstep P b w th w' th' -> built (status w o) -> built (status w' o).
Proof. intros T B. destruct (tstep_status _ _ _ _ _ o T) as [->|[[E _]|[E _]]]; auto; rewrite E in B; destruct B as [B|[B|B]]; discriminate. Qed.
Lemma tstep_ending b w th w' th' o l : tstep P b w th w' th' -> l = Dying \/ l = Dead -> (status w' o = l <-> status w o = l).
Proof. intros T L. destruct (tstep_status _ _ _ _ _ o T) as [->|[[E E']|[E E']]]; [tauto| |]; rewrite E, E'; destruct L as [-> | ->]; split; discriminate. Qed.
Lemma tstep_died b w th w' th' x : tstep P b w th w' th' -> In (Died x) th' -> In (Died x) th.
Proof.
  intros T. destruct T; cbn; intuition discriminate.
Qed.
Lemma tstep_bottom b w th w' th' o l : tstep P b w th w' th' -> th = l ++ [Died o] -> (forall x, ~ In (Died x) l) ->
  exists l', th' = l' ++ [Died o] /\ forall x, ~ In (Died x) l'.
Proof.
  intros T E N. destruct T as [w r|w c x r F A|w x r A|w x k r B|w x j k r B]; (destruct l as [|i l]; [discriminate|]); injection E as <- ->;
    assert (N' : forall x, ~ In (Died x) l) by (intros y I; apply (N y); right; exact I).
  - exists l; auto.
  - exists (Run (ctor P x) :: Built x :: Run c :: l). split; [reflexivity|]. intros y. cbn. intros [Y|[Y|[Y|Y]]]; try discriminate. exact (N' y Y).
  - exists l; auto.
  - exists (Run k :: l). split; [reflexivity|]. intros y. cbn. intros [Y|Y]; [discriminate|exact (N' y Y)].
  - exists (Run k :: l). split; [reflexivity|]. intros y. cbn. intros [Y|Y]; [discriminate|exact (N' y Y)].
Qed.

Lemma use_all_first q l k : first (use_all (q :: l) k) = Some q.
Proof. reflexivity. Qed.

Lemma first_use s l1 b th l2 : inv s -> threads s = l1 ++ (b, th) :: l2 -> forall c r q, th = Run c :: r -> first c = Some q ->
  status (world_of s) q = Absent -> D q -> q <> p -> ~ built (status (world_of s) p) -> uses (ctor P q) p.
Proof.
  intros I E c r q -> F A Dq Nq NB. destruct (first_built q Nq Dq) as [U|(l & k & S & Ip & Iq & Cs)]; [exact U|].
  exfalso. destruct (i_start _ I l k S Cs) as [B|(L & W & J & O & la & lb & -> & Nb & Ba & M)]; [exact (NB (B p Ip))|].
  unfold threads in E. rewrite W in E. cbn in E. destruct l1 as [|x l1]; [|destruct l1; discriminate]. injection E as <- E _.
  destruct M as [M|(q' & lc & -> & [M|M])]; rewrite M in E; try discriminate.
  - injection E as <- <-. destruct lb as [|y lb]; [contradiction|]. injection F as <-. apply Iq. apply in_app_iff. right; left; reflexivity.
  - injection E as <- <-. discriminate.
Qed.

Lemma start_tstep s b th w' th' m' ws' l k : inv s -> starting l k s -> (forall x, In x l -> ctor P x = Skip) ->
  tstep P b (world_of s) th w' th' -> (th = main s /\ m' = th' /\ ws' = workers s) \/ (m' = main s /\ exists o, In (o, th) (workers s)) ->
  starting l k (State w' m' (leaving s) (duty s) ws').
Proof.
  intros I [B|(L & W & J & O & la & lb & -> & Nb & Ba & M)] Cs T X; [left; intros x Ix; exact (tstep_built _ _ _ _ _ _ T (B x Ix))|].
  destruct X as [(-> & -> & ->)|(_ & o & Y)]; [|rewrite W in Y; destruct Y].
  destruct lb as [|q lb]; [contradiction|].
  assert (Iq : In q (la ++ q :: lb)) by (apply in_app_iff; right; left; reflexivity).
  destruct M as [M|(q' & lc & E & [M|M])]; try (injection E as <- <-); rewrite M in T.
  - cbn [use_all] in T. inversion T as [|? ? ? ? F A|? ? ? A|? ? ? ? B|]; subst.
    + injection F as <-. right. cbn [world_of main leaving workers]. split; [exact L|]. split; [exact W|]. split; [exact J|]. split.
      * intros x Nx. rewrite status_other; [exact (O x Nx)|]. intros ->. contradiction.
      * exists la, (q :: lb). split; [reflexivity|]. split; [discriminate|]. split.
        -- intros x Ix. exact (tstep_built _ _ _ _ _ _ T (Ba x Ix)).
        -- right. exists q, lb. split; [reflexivity|]. left. rewrite (Cs q Iq). reflexivity.
    + destruct lb as [|q2 lb].
      * left. cbn [world_of]. intros x Ix. cbn. apply in_app_iff in Ix as [Ix|[<-|[]]]; [exact (Ba x Ix)|exact B].
      * right. cbn [world_of main leaving workers record status jobs]. split; [exact L|]. split; [exact W|]. split; [exact J|]. split; [exact O|].
        exists (la ++ [q]), (q2 :: lb). rewrite <- app_assoc. split; [reflexivity|]. split; [discriminate|]. split.
        -- intros x Ix. apply in_app_iff in Ix as [Ix|[<-|[]]]; [exact (Ba x Ix)|exact B].
        -- left. reflexivity.
  - inversion T as [|? ? ? ? F A|? ? ? A|? ? ? ? B|]; subst; [|discriminate].
    right. cbn [world_of main leaving workers]. split; [exact L|]. split; [exact W|]. split; [exact J|]. split; [exact O|].
    exists la, (q :: lb). split; [reflexivity|]. split; [discriminate|]. split; [exact Ba|]. right. exists q, lb. split; [reflexivity|]. right. reflexivity.
  - inversion T as [|? ? ? ? F A|? ? ? A|? ? ? ? B|]; subst.
    right. cbn [world_of main leaving workers register jobs set_life]. split; [exact L|]. split; [exact W|]. split; [exact J|]. split.
    + intros x Nx. change (status (set_life q Alive (world_of s)) x = Absent). rewrite status_other; [exact (O x Nx)|]. intros ->. contradiction.
    + exists la, (q :: lb). split; [reflexivity|]. split; [discriminate|]. split; [intros x Ix; exact (tstep_built _ _ _ _ _ _ T (Ba x Ix))|]. left. reflexivity.
Qed.

Lemma inv_tstep s l1 b th l2 w' th' m' ws' : inv s -> threads s = l1 ++ (b, th) :: l2 -> tstep P b (world_of s) th w' th' ->
  threads (State w' m' (leaving s) (duty s) ws') = l1 ++ (b, th') :: l2 ->
  (th = main s /\ m' = th' /\ ws' = workers s /\ b = duty s) \/ (m' = main s /\ exists o, In (o, th) (workers s)) ->
  inv (State w' m' (leaving s) (duty s) ws').
Proof.
  intros I E T E' X. constructor.
  - cbn [world_of]. rewrite E'. apply (core_tstep (world_of s) l1 b th l2 w' th'); [rewrite <- E; exact (i_core _ I)|exact T|exact (first_use _ _ _ _ _ I E)].
  - cbn [duty leaving world_of main]. pose proof (i_duty _ I) as Du. destruct (duty s) as [o|].
    + destruct Du as (L & S & l & M & N). split; [exact L|]. split; [apply (tstep_ending _ _ _ _ _ o Dying T); auto|].
      destruct X as [(-> & -> & -> & _)|(-> & _)]; [exact (tstep_bottom _ _ _ _ _ _ _ T M N)|eauto].
    + intros L. specialize (Du L). destruct X as [(-> & -> & -> & ->)|(-> & _)]; [rewrite Du in T; inversion T|exact Du].
  - cbn [leaving duty world_of main]. intros L. destruct (i_before _ I L) as (D1 & D2 & D3). split; [exact D1|]. split.
    + intros x Ix. destruct X as [(-> & -> & -> & _)|(-> & _)]; [exact (D2 x (tstep_died _ _ _ _ _ _ T Ix))|exact (D2 x Ix)].
    + intros o. rewrite (tstep_ending _ _ _ _ _ o Dying T), (tstep_ending _ _ _ _ _ o Dead T) by auto. exact (D3 o).
  - cbn [world_of duty]. intros o S. apply (tstep_ending _ _ _ _ _ o Dying T) in S; [|auto]. exact (i_dying _ I o S).
  - intros l k S Cs. apply (start_tstep s b th w' th' m' ws' l k I (i_start _ I l k S Cs) Cs T).
    destruct X as [(-> & -> & -> & _)|X]; auto.
Qed.

Lemma starting_other l k s t : starting l k s -> (forall x, built (status (world_of s) x) -> built (status (world_of t) x)) ->
  (leaving s = true \/ main s = [] \/ workers s <> [] \/ jobs (world_of s) <> []) -> starting l k t.
Proof.
  intros [B|(L & W & J & _ & la & lb & _ & _ & _ & M)] K X; [left; auto|]. exfalso. destruct X as [X|[X|[X|X]]]; try congruence.
  destruct M as [M|(q & lc & _ & [M|M])]; rewrite M in X; discriminate.
Qed.

Lemma inv_step s t : inv s -> step P s t -> inv t.
Proof.
  intros I S. destruct S as [w m l d ws w' m' T|w m l d l1 o th l2 w' th' T|w m l d ws o j j1 j2 J A|w m l d l1 o l2|w ws|w ws o r O|w o r ws j j1 j2 J|w o r ws N].
  - apply (inv_tstep _ [] d m (map (fun q => (Some (fst q), snd q)) ws) w' m' m' ws I); auto.
  - apply (inv_tstep _ ((d, m) :: map (fun q => (Some (fst q), snd q)) l1) (Some o) th (map (fun q => (Some (fst q), snd q)) l2) w' th' m (l1 ++ (o, th') :: l2) I); auto.
    + unfold threads. cbn [workers duty main]. rewrite map_app. reflexivity.
    + unfold threads. cbn [workers duty main]. rewrite map_app. reflexivity.
    + right. split; [reflexivity|]. exists o. cbn. apply in_app_iff. right; left; reflexivity.
  - (* s_take *) pose proof (i_core _ I) as C. cbn [world_of] in C.
    assert (Gj : given P o j) by (apply (c_jobs _ _ C); rewrite J; apply in_app_iff; right; left; reflexivity).
    assert (K : forall b th, In (b, th) (threads (State w m l d ((o, [Run j]) :: ws))) -> (b = Some o /\ th = [Run j]) \/ In (b, th) (threads (State w m l d ws))).
    { unfold threads. cbn. intros b th [X|[X|X]]; auto. injection X; intros; subst; auto. }
    constructor; [constructor|..]; cbn [world_of duty leaving main].
    + intros b th X. destruct (K b th X) as [[-> ->]|Y]; [|exact (c_items _ _ C _ _ Y)]. constructor; [|constructor]. split.
      * intros q Tq. exists j. split; [right; exact Gj|exact Tq].
      * intros o' j' H. destruct Gj as (c & Hc & Hj). exists c. split; [exact Hc|]. clear -Hj H. revert o j Hj o' j' H.
        induction c as [|x k IH|x jj IHj k IHk]; cbn; intros o j Hj o' j' H; [exact Hj|eauto|].
        destruct Hj as [[-> ->]|[Hj|Hj]]; [right; left; exact H|right; left; eauto|right; right; eauto].
    + intros x y X. apply (c_jobs _ _ C). rewrite J. cbn [jobs] in X. apply in_app_iff in X as [X|X]; apply in_app_iff; [left|right; right]; exact X.
    + intros x th X. destruct (K _ _ X) as [[Y _]|Y]; [injection Y as ->; exact A|exact (c_owner _ _ C _ _ Y)].
    + intros th X. destruct (K _ _ X) as [[Y _]|Y]; [discriminate|exact (c_none _ _ C _ Y)].
    + intros x X. destruct (c_building _ _ C _ X) as (b & th & Y & Z). exists b, th. split; [|exact Z]. unfold threads in *. cbn in *. tauto.
    + exact (c_nodup _ _ C).
    + exact (c_order _ _ C).
    + pose proof (c_phase _ _ C) as Ph. unfold ordered in *. cbn [status order]. destruct (status w p); try exact Ph; (split; [exact (proj1 Ph)|]);
        intros b th X; (destruct (K _ _ X) as [[-> ->]|Y]; [|exact (proj2 Ph _ _ Y)]); intros k1 x k2 E; destruct k1 as [|? [|]]; discriminate.
    + exact (c_events _ _ C).
    + exact (i_duty _ I).
    + exact (i_before _ I).
    + exact (i_dying _ I).
    + intros l' k S Cs. apply (starting_other l' k _ _ (i_start _ I l' k S Cs)); [cbn; auto|]. right; right; right. cbn. rewrite J. destruct j1; discriminate.
  - (* s_end *) pose proof (i_core _ I) as C. cbn [world_of] in C.
    assert (K : forall b th, In (b, th) (threads (State w m l d (l1 ++ l2))) -> In (b, th) (threads (State w m l d (l1 ++ (o, []) :: l2)))).
    { unfold threads. cbn. rewrite !map_app. cbn. intros b th [X|X]; auto. right. apply in_app_iff in X. apply in_app_iff. cbn. tauto. }
    constructor; [constructor|..]; cbn [world_of duty leaving main].
    + intros b th X. exact (c_items _ _ C _ _ (K _ _ X)).
    + exact (c_jobs _ _ C).
    + intros x th X. exact (c_owner _ _ C _ _ (K _ _ X)).
    + intros th X. exact (c_none _ _ C _ (K _ _ X)).
    + intros x X. destruct (c_building _ _ C _ X) as (b & th & Y & Z). exists b, th. split; [|exact Z]. unfold threads in *. cbn in *. rewrite map_app in *. cbn in Y.
      destruct Y as [Y|Y]; [auto|]. right. apply in_app_iff in Y. apply in_app_iff. destruct Y as [Y|[Y|Y]]; auto. injection Y as <- <-. destruct Z.
    + exact (c_nodup _ _ C).
    + exact (c_order _ _ C).
    + pose proof (c_phase _ _ C) as Ph. unfold ordered in *. destruct (status w p); try exact Ph; (split; [exact (proj1 Ph)|]); intros b th X; exact (proj2 Ph _ _ (K _ _ X)).
    + exact (c_events _ _ C).
    + exact (i_duty _ I).
    + exact (i_before _ I).
    + exact (i_dying _ I).
    + intros l' k S Cs. apply (starting_other l' k _ _ (i_start _ I l' k S Cs)); [cbn; auto|]. right; right; left. cbn. destruct l1; discriminate.
  - (* s_leave *) constructor; cbn [world_of duty leaving main].
    + exact (i_core _ I).
    + auto.
    + discriminate.
    + exact (i_dying _ I).
    + intros l' k S Cs. apply (starting_other l' k _ _ (i_start _ I l' k S Cs)); [cbn; auto|]. right; left. reflexivity.
  - (* s_destroy *) pose proof (i_core _ I) as C. cbn [world_of] in C.
    assert (Ao : status w o = Alive) by (apply (c_order _ _ C); rewrite O; left; reflexivity).
    assert (No : ~ In o r) by (pose proof (c_nodup _ _ C) as Nd; rewrite O in Nd; inversion Nd; assumption).
    assert (ND : forall x, status w x <> Dying) by (intros x Y; pose proof (i_dying _ I x Y); discriminate).
    assert (K : forall b th, In (b, th) (threads (State w [Run (dtor P o); Died o] true (Some o) ws)) -> (b = Some o /\ th = [Run (dtor P o); Died o]) \/ (In (b, th) (threads (State w [] true None ws)) /\ exists x, b = Some x)).
    { unfold threads. cbn. intros b th [X|X]; [injection X; intros; subst; auto|]. right. split; [auto|]. apply in_map_iff in X as ([x y] & X & _). injection X; intros; subst. eauto. }
    constructor; [constructor|..]; cbn [world_of duty leaving main status order jobs events];
      change (fun x => if object_dec x o then Dying else status w x) with (status (set_life o Dying w)).
    + intros b th X. destruct (K b th X) as [[-> ->]|[Y _]]; [|exact (c_items _ _ C _ _ Y)]. constructor; [|constructor; [exact Logic.I|constructor]]. split.
      * intros q Tq. exists (dtor P o). split; [left; reflexivity|exact Tq].
      * intros x j H. exists (dtor P o). split; [right; exists o; right; reflexivity|exact H].
    + exact (c_jobs _ _ C).
    + intros x th X. destruct (object_dec x o) as [->|Nx]; [right; apply status_same|]. rewrite status_other by assumption.
      destruct (K _ _ X) as [[Y _]|[Y _]]; [injection Y as ->; contradiction|exact (c_owner _ _ C _ _ Y)].
    + intros th X. destruct (K _ _ X) as [[Y _]|[_ [x Y]]]; discriminate.
    + intros x X. destruct (object_dec x o) as [->|Nx]; [rewrite status_same in X; discriminate|]. rewrite status_other in X by assumption.
      destruct (c_building _ _ C _ X) as (b & th & Y & Z). exists b, th. split; [|exact Z]. unfold threads in *. cbn in *.
      destruct Y as [Y|Y]; [injection Y as <- <-; destruct Z|auto].
    + pose proof (c_nodup _ _ C) as Nd. rewrite O in Nd. inversion Nd; assumption.
    + intros x. pose proof (c_order _ _ C x) as Ox. rewrite O in Ox. destruct (object_dec x o) as [->|Nx]; [rewrite status_same; split; [contradiction|discriminate]|].
      rewrite status_other by assumption. rewrite <- Ox. cbn. split; [auto|intros [->|Y]; [contradiction|exact Y]].
    + pose proof (c_phase _ _ C) as Ph. unfold ordered in *. cbn [status order];
      change (fun x => if object_dec x o then Dying else status w x) with (status (set_life o Dying w)).
      destruct (object_dec p o) as [->|Np].
      * rewrite status_same. rewrite Ao in Ph. intros x Dx Nx. rewrite status_other by assumption.
        destruct (status w x) eqn:Sx; auto; exfalso.
        -- (* Building *) destruct (c_building _ _ C _ Sx) as (b & th & Y & Z). unfold threads in Y. cbn in Y. destruct Y as [Y|Y]; [injection Y as <- <-; destruct Z|].
           apply in_map_iff in Y as ([q y] & Y & W). injection Y as <- <-. cbn in *.
           assert (It : In (Some q, y) (threads (State w [] true None ws))) by (right; apply in_map_iff; exists (q, y); auto).
           pose proof (c_items _ _ C _ _ It) as F. rewrite Forall_forall in F. specialize (F _ Z). cbn [item_ok] in F.
           destruct (object_dec q o) as [->|Nq]; [exact (acyclic x Nx (reach_depends _ _ F) Dx)|].
           pose proof (reach_more _ _ _ F Dx) as Dq. destruct (c_owner _ _ C _ _ It) as [Aq|Aq]; [|exact (ND _ Aq)].
           apply (Ph [] r O q Dq Nq). apply (c_order _ _ C) in Aq. rewrite O in Aq. destruct Aq as [->|Aq]; [contradiction|exact Aq].
        -- (* Alive *) apply (Ph [] r O x Dx Nx). apply (c_order _ _ C) in Sx. rewrite O in Sx. destruct Sx as [->|Sx]; [contradiction|exact Sx].
        -- exact (ND _ Sx).
      * rewrite status_other by assumption. destruct (status w p) eqn:Sp.
        -- split.
           ++ intros x Dx Nx. destruct (object_dec x o) as [->|Nxo]; [|rewrite status_other by assumption; exact (proj1 Ph x Dx Nx)].
              exfalso. destruct (proj1 Ph o Dx Nx); congruence.
           ++ intros b th X. destruct (K _ _ X) as [[-> ->]|[Y _]]; [|exact (proj2 Ph _ _ Y)]. intros k1 x k2 E. destruct k1 as [|? [|? [|]]]; discriminate.
        -- split.
           ++ intros x Dx Nx. destruct (object_dec x o) as [->|Nxo]; [|rewrite status_other by assumption; exact (proj1 Ph x Dx Nx)].
              exfalso. destruct (proj1 Ph o Dx Nx); congruence.
           ++ intros b th X. destruct (K _ _ X) as [[-> ->]|[Y _]]; [|exact (proj2 Ph _ _ Y)]. intros k1 x k2 E. destruct k1 as [|? [|? [|]]]; discriminate.
        -- intros k1 k2 E x Dx Nx. apply (Ph (o :: k1) k2); [rewrite O, E; reflexivity|exact Dx|exact Nx].
        -- exfalso. exact (ND _ Sp).
        -- intros x Dx Nx. destruct (object_dec x o) as [->|Nxo]; [|rewrite status_other by assumption; exact (Ph x Dx Nx)]. destruct (Ph o Dx Nx); congruence.
    + exact (c_events _ _ C).
    + split; [reflexivity|]. split; [apply status_same|]. exists [Run (dtor P o)]. split; [reflexivity|]. intros x [X|[]]. discriminate.
    + discriminate.
    + intros x X. destruct (object_dec x o) as [->|Nx]; [reflexivity|]. rewrite status_other in X by assumption. destruct (ND _ X).
    + intros l' k S Cs. apply (starting_other l' k _ _ (i_start _ I l' k S Cs)); [|auto]. cbn [world_of status]. intros x B.
      destruct (object_dec x o) as [->|Nx]; [rewrite status_same; unfold built; auto|rewrite status_other by assumption; exact B].
  - (* s_rest *) pose proof (i_core _ I) as C. cbn [world_of] in C.
    assert (Gj : given P o j) by (apply (c_jobs _ _ C); rewrite J; apply in_app_iff; right; left; reflexivity).
    assert (I0 : In (Some o, Died o :: r) (threads (State w (Died o :: r) true (Some o) ws))) by (left; reflexivity).
    assert (K : forall b th, In (b, th) (threads (State w (Run j :: Died o :: r) true (Some o) ws)) -> (b = Some o /\ th = Run j :: Died o :: r) \/ In (b, th) (threads (State w (Died o :: r) true (Some o) ws))).
    { unfold threads. cbn. intros b th [X|X]; auto. injection X; intros; subst; auto. }
    constructor; [constructor|..]; cbn [world_of duty leaving main].
    + intros b th X. destruct (K b th X) as [[-> ->]|Y]; [|exact (c_items _ _ C _ _ Y)]. constructor; [|exact (c_items _ _ C _ _ I0)]. split.
      * intros q Tq. exists j. split; [right; exact Gj|exact Tq].
      * intros o' j' H. destruct Gj as (c & Hc & Hj). exists c. split; [exact Hc|]. clear -Hj H. revert o j Hj o' j' H.
        induction c as [|x k IH|x jj IHj k IHk]; cbn; intros o j Hj o' j' H; [exact Hj|eauto|].
        destruct Hj as [[-> ->]|[Hj|Hj]]; [right; left; exact H|right; left; eauto|right; right; eauto].
    + intros x y X. apply (c_jobs _ _ C). rewrite J. cbn [jobs] in X. apply in_app_iff in X as [X|X]; apply in_app_iff; [left|right; right]; exact X.
    + intros x th X. destruct (K _ _ X) as [[Y _]|Y]; [injection Y as ->; exact (c_owner _ _ C _ _ I0)|exact (c_owner _ _ C _ _ Y)].
    + intros th X. destruct (K _ _ X) as [[Y _]|Y]; [discriminate|exact (c_none _ _ C _ Y)].
    + intros x X. destruct (c_building _ _ C _ X) as (b & th & Y & Z). unfold threads in *. cbn in *. destruct Y as [Y|Y].
      * injection Y as <- <-. exists (Some o), (Run j :: Died o :: r). split; [left; reflexivity|right; exact Z].
      * exists b, th. auto.
    + exact (c_nodup _ _ C).
    + exact (c_order _ _ C).
    + pose proof (c_phase _ _ C) as Ph. unfold ordered in *. cbn [status order]. destruct (status w p); try exact Ph; (split; [exact (proj1 Ph)|]);
        intros b th X; (destruct (K _ _ X) as [[-> ->]|Y]; [|exact (proj2 Ph _ _ Y)]); intros k1 x k2 E Dx Nx; (destruct k1 as [|i k1]; [discriminate|]); injection E as <- E;
        destruct (proj2 Ph _ _ I0 k1 x k2 E Dx Nx) as (c & X1 & X2); exists c; cbn; auto.
    + exact (c_events _ _ C).
    + pose proof (i_duty _ I) as (L & S & q & M & N). cbn [leaving world_of main] in *. split; [exact L|]. split; [exact S|]. exists (Run j :: q). rewrite M. split; [reflexivity|].
      intros x [X|X]; [discriminate|exact (N x X)].
    + discriminate.
    + exact (i_dying _ I).
    + intros l' k S Cs. apply (starting_other l' k _ _ (i_start _ I l' k S Cs)); [cbn; auto|auto].
  - (* s_dead *) pose proof (i_core _ I) as C. cbn [world_of] in C.
    pose proof (i_duty _ I) as (L & S & q & M & Nq). cbn [leaving world_of main] in *.
    assert (E : r = []). { destruct q as [|i q]; [injection M as ->; reflexivity|]. injection M as <- ->. destruct (Nq o). left; reflexivity. } subst r. clear q M Nq.
    assert (K : forall b th, In (b, th) (threads (State w [] true None ws)) -> (b = None /\ th = []) \/ (In (b, th) (threads (State w [Died o] true (Some o) ws)) /\ exists x, b = Some x /\ x <> o)).
    { unfold threads. cbn. intros b th [X|X]; [injection X; intros; subst; auto|]. right. split; [auto|]. apply in_map_iff in X as ([x y] & X & W). injection X; intros; subst. exists x. split; [reflexivity|]. intros ->. exact (N _ W). }
    constructor; [constructor|..]; cbn [world_of duty leaving main].
    + intros b th X. destruct (K b th X) as [[-> ->]|[Y _]]; [constructor|exact (c_items _ _ C _ _ Y)].
    + exact (c_jobs _ _ C).
    + intros x th X. destruct (K _ _ X) as [[Y _]|(Y & z & Z & Nz)]; [discriminate|]. injection Z as ->. rewrite status_other by assumption. exact (c_owner _ _ C _ _ Y).
    + intros th X. destruct (K _ _ X) as [[_ ->]|(_ & z & Z & _)]; [auto|discriminate].
    + intros x X. destruct (object_dec x o) as [->|Nx]; [rewrite status_same in X; discriminate|]. rewrite status_other in X by assumption.
      destruct (c_building _ _ C _ X) as (b & th & Y & Z). exists b, th. split; [|exact Z]. unfold threads in *. cbn in *.
      destruct Y as [Y|Y]; [injection Y as <- <-; destruct Z as [Z|[]]; discriminate|auto].
    + exact (c_nodup _ _ C).
    + intros x. change (order (set_life o Dead w)) with (order w). rewrite (c_order _ _ C x). destruct (object_dec x o) as [->|Nx]; [rewrite status_same, S; split; discriminate|rewrite status_other by assumption; tauto].
    + pose proof (c_phase _ _ C) as Ph. unfold ordered in *. destruct (object_dec p o) as [->|Np].
      * rewrite status_same. rewrite S in Ph. intros x Dx Nx. rewrite status_other by assumption. exact (Ph x Dx Nx).
      * rewrite status_other by assumption. destruct (status w p) eqn:Sp.
        -- split.
           ++ intros x Dx Nx. destruct (object_dec x o) as [->|Nxo]; [|rewrite status_other by assumption; exact (proj1 Ph x Dx Nx)].
              exfalso. destruct (proj1 Ph o Dx Nx); congruence.
           ++ intros b th X. destruct (K _ _ X) as [[-> ->]|[Y _]]; [|exact (proj2 Ph _ _ Y)]. intros k1 x k2 E. destruct k1; discriminate.
        -- split.
           ++ intros x Dx Nx. destruct (object_dec x o) as [->|Nxo]; [|rewrite status_other by assumption; exact (proj1 Ph x Dx Nx)].
              exfalso. destruct (proj1 Ph o Dx Nx); congruence.
           ++ intros b th X. destruct (K _ _ X) as [[-> ->]|[Y _]]; [|exact (proj2 Ph _ _ Y)]. intros k1 x k2 E. destruct k1; discriminate.
        -- exact Ph.
        -- intros x Dx Nx. destruct (object_dec x o) as [->|Nxo]; [right; apply status_same|rewrite status_other by assumption; exact (Ph x Dx Nx)].
        -- intros x Dx Nx. destruct (object_dec x o) as [->|Nxo]; [right; apply status_same|rewrite status_other by assumption; exact (Ph x Dx Nx)].
    + exact (c_events _ _ C).
    + auto.
    + discriminate.
    + intros x X. destruct (object_dec x o) as [->|Nx]; [rewrite status_same in X; discriminate|]. rewrite status_other in X by assumption.
      pose proof (i_dying _ I x X) as Y. cbn in Y. congruence.
    + intros l' k S' Cs. apply (starting_other l' k _ _ (i_start _ I l' k S' Cs)); [|auto]. intros x B. cbn [world_of] in *.
      destruct (object_dec x o) as [->|Nx]; [rewrite status_same; unfold built; auto|rewrite status_other by assumption; exact B].
Qed.

Lemma inv_init : inv (initial P).
Proof.
  constructor; [constructor|..]; cbn.
  - intros b th [E|[]]. injection E as <- <-. constructor; [|constructor]. split; [exact (fun _ _ => Logic.I)|].
    intros o j H. exists (start P). auto.
  - intros o j [].
  - intros o th [E|[]]. discriminate.
  - intros th _. right. split; discriminate.
  - discriminate.
  - constructor.
  - intros o. split; [intros []|discriminate].
  - unfold ordered. cbn. split; [auto|]. intros b th [E|[]]. injection E as <- <-. intros k1 o k2 E. destruct k1 as [|? [|]]; discriminate.
  - intros b l [].
  - discriminate.
  - intros _. split; [reflexivity|]. split; [intros x [X|[]]; discriminate|split; discriminate].
  - discriminate.
  - intros [|q l] k S Cs; [left; intros x []|]. right. cbn. repeat split; auto. exists [], (q :: l). split; [reflexivity|]. split; [discriminate|].
    split; [intros x []|]. left. rewrite S. reflexivity.
Qed.

Lemma inv_reachable s : reachable P s -> inv s.
Proof. induction 1 as [|s t R IH S]; [exact inv_init|exact (inv_step _ _ IH S)]. Qed.

Lemma used_alive_proof s : reachable P s -> used_alive p s.
Proof. intros R. exact (c_events _ _ (i_core _ (inv_reachable _ R))). Qed.
End Target.
