(** The static objects cause no deadlock. *)
From Coq Require Import List Lia Arith.
From Verif Require Import InstanceModel InstanceSpec InstanceProofs.
Import ListNotations.

Section Live.
Variables (P : program) (rank : object -> nat).
Hypothesis ranked : forall o q, uses (ctor P o) q -> rank q < rank o.

Definition builts (th : list item) : list object := flat_map (fun i => match i with Built o => [o] | _ => [] end) th.
Definition all_builts (T : list (option object * list item)) : list object := flat_map (fun t => builts (snd t)) T.
Definition stacked (th : list item) : Prop :=
  forall l1 o l2 c q, th = l1 ++ Built o :: l2 -> In (Run c) l1 -> uses c q -> rank q < rank o.

Lemma builts_app a b : builts (a ++ b) = builts a ++ builts b.
Proof. apply flat_map_app. Qed.
Lemma all_app a b : all_builts (a ++ b) = all_builts a ++ all_builts b.
Proof. apply flat_map_app. Qed.
Lemma in_builts o th : In o (builts th) <-> In (Built o) th.
Proof.
  unfold builts. rewrite in_flat_map. split.
  - intros (i & I & J). destruct i; cbn in J; try contradiction. destruct J as [->|[]]. exact I.
  - intros I. exists (Built o). split; [exact I|left; reflexivity].
Qed.

Record live (w : world) (T : list (option object * list item)) : Prop := Live {
  v_nodup : NoDup (all_builts T);
  v_building : forall o, In o (all_builts T) <-> status w o = Building;
  v_stack : forall b th, In (b, th) T -> stacked th;
  v_owner : forall o th, In (Some o, th) T -> status w o = Alive \/ status w o = Dying;
  v_ordup : NoDup (order w);
  v_order : forall o, In o (order w) <-> status w o = Alive }.

Lemma live_tstep w l1 b th l2 w' th' : live w (l1 ++ (b, th) :: l2) -> tstep P b w th w' th' -> live w' (l1 ++ (b, th') :: l2).
Proof.
  intros C T. assert (I0 : In (b, th) (l1 ++ (b, th) :: l2)) by (apply in_app_iff; right; left; reflexivity).
  pose proof (v_nodup _ _ C) as N. pose proof (v_building _ _ C) as B. rewrite all_app in N, B. change (all_builts ((b, th) :: l2)) with (builts th ++ all_builts l2) in N, B.
  pose proof (v_stack _ _ C _ _ I0) as St0.
  assert (G : forall (W : world), (forall o, status w o = Alive -> status W o = Alive) -> (forall o, status w o = Dying -> status W o = Dying) ->
    NoDup (all_builts l1 ++ builts th' ++ all_builts l2) -> (forall o, In o (all_builts l1 ++ builts th' ++ all_builts l2) <-> status W o = Building) ->
    stacked th' -> NoDup (order W) -> (forall o, In o (order W) <-> status W o = Alive) -> live W (l1 ++ (b, th') :: l2)).
  { intros W WA WD G1 G2 G3 G4 G5. constructor; auto.
    - rewrite all_app. exact G1.
    - rewrite all_app. exact G2.
    - intros b' t I. destruct (in_mid _ _ (b, th) _ _ I) as [E|I']; [injection E; intros; subst; exact G3|exact (v_stack _ _ C _ _ I')].
    - intros o t I. destruct (in_mid _ _ (b, th) _ _ I) as [E|I']; [injection E; intros; subst; destruct (v_owner _ _ C _ _ I0)|destruct (v_owner _ _ C _ _ I')]; auto. }
  destruct T as [w r|w c o r F A|w o r A|w o k r X|w o j k r X].
  - apply G; auto; [|exact (v_ordup _ _ C)|exact (v_order _ _ C)]. intros k1 o k2 c q E. subst r. intros I U. exact (St0 (Run Skip :: k1) o k2 c q eq_refl (or_intror I) U).
  - pose proof (first_uses _ _ F) as U. apply G.
    + intros x E. rewrite status_other; [exact E|congruence].
    + intros x E. rewrite status_other; [exact E|congruence].
    + cbn. apply NoDup_Add with (a := o) (l := all_builts l1 ++ builts r ++ all_builts l2); [apply Add_app|]. split; [exact N|]. intros I. apply B in I. congruence.
    + intros x. cbn. rewrite in_app_iff. cbn. specialize (B x). cbn in B. rewrite in_app_iff in B. destruct (object_dec x o) as [->|Nx]; [tauto|]. rewrite <- B. intuition congruence.
    + intros k1 x k2 c' q E I V. destruct k1 as [|i1 k1]; [discriminate|]. injection E as <- E. destruct k1 as [|i2 k1].
      * injection E as <- <-. destruct I as [I|[]]. injection I as <-. exact (ranked _ _ V).
      * injection E as <- E. destruct k1 as [|i3 k1]; [discriminate|]. injection E as <- ->.
        destruct I as [I|[I|[I|I]]]; [|discriminate| |].
        -- injection I as <-. apply Nat.lt_trans with (rank o); [exact (ranked _ _ V)|]. exact (St0 (Run c :: k1) x k2 c o eq_refl (or_introl eq_refl) U).
        -- injection I as <-. exact (St0 (Run c :: k1) x k2 c q eq_refl (or_introl eq_refl) V).
        -- exact (St0 (Run c :: k1) x k2 c' q eq_refl (or_intror I) V).
    + exact (v_ordup _ _ C).
    + intros x. change (order (set_life o Building w)) with (order w). rewrite (v_order _ _ C x). destruct (object_dec x o) as [->|Nx]; [rewrite status_same; split; congruence|rewrite status_other by assumption; tauto].
  - assert (No : ~ In o (all_builts l1 ++ builts r ++ all_builts l2)) by (cbn in N; apply NoDup_remove in N; exact (proj2 N)).
    apply G; unfold register; cbn [status order]; change (fun x => if object_dec x o then Alive else status w x) with (status (set_life o Alive w)).
    + intros x E. destruct (object_dec x o) as [->|Nx]; [apply status_same|rewrite status_other by assumption; exact E].
    + intros x E. destruct (object_dec x o) as [->|Nx]; [congruence|rewrite status_other by assumption; exact E].
    + cbn in N. apply NoDup_remove in N. exact (proj1 N).
    + intros x. specialize (B x). cbn in B. rewrite in_app_iff in B. cbn in B. destruct (object_dec x o) as [->|Nx]; [rewrite status_same; split; [contradiction|discriminate]|].
      rewrite status_other by assumption. rewrite <- B, in_app_iff. intuition congruence.
    + intros k1 x k2 c q E. subst r. intros I U. exact (St0 (Built o :: k1) x k2 c q eq_refl (or_intror I) U).
    + constructor; [|exact (v_ordup _ _ C)]. intros I. apply (v_order _ _ C) in I. congruence.
    + intros x. cbn [In]. change (order (set_life o Alive w)) with (order w). rewrite (v_order _ _ C x). destruct (object_dec x o) as [->|Nx]; [rewrite status_same; tauto|rewrite status_other by assumption]. split; [intros [->|H]; [contradiction|exact H]|auto].
  - apply G; auto; [|exact (v_ordup _ _ C)|exact (v_order _ _ C)]. intros k1 x k2 c q E. destruct k1 as [|i k1]; [discriminate|]. injection E as <- ->. intros [I|I] U.
    + injection I as <-. exact (St0 (Run (Use o k) :: k1) x k2 (Use o k) q eq_refl (or_introl eq_refl) (or_intror U)).
    + exact (St0 (Run (Use o k) :: k1) x k2 c q eq_refl (or_intror I) U).
  - apply G; auto; [|exact (v_ordup _ _ C)|exact (v_order _ _ C)]. intros k1 x k2 c q E. destruct k1 as [|i k1]; [discriminate|]. injection E as <- ->. intros [I|I] U.
    + injection I as <-. exact (St0 (Run (Submit o j k) :: k1) x k2 (Submit o j k) q eq_refl (or_introl eq_refl) (or_intror U)).
    + exact (St0 (Run (Submit o j k) :: k1) x k2 c q eq_refl (or_intror I) U).
Qed.

Record linv (s : state) : Prop := Linv {
  l_live : live (world_of s) (threads s);
  l_duty : match duty s with
           | Some o => leaving s = true /\ status (world_of s) o = Dying /\ exists l, main s = l ++ [Died o] /\ forall x, ~ In (Died x) l
           | None => leaving s = true -> main s = []
           end;
  l_before : leaving s = false -> duty s = None /\ (forall x, ~ In (Died x) (main s));
  l_workers : forall o th x, In (o, th) (workers s) -> ~ In (Died x) th;
  l_dying : forall o, status (world_of s) o = Dying -> duty s = Some o }.

Lemma linv_step s t : linv s -> step P s t -> linv t.
Proof.
  intros I S. destruct S as [w m l d ws w' m' T|w m l d l1 o th l2 w' th' T|w m l d ws o j j1 j2 J A|w m l d l1 o l2|w ws|w ws o r O|w o r ws j j1 j2 J|w o r ws N].
  - constructor; cbn [world_of duty leaving main workers].
    + exact (live_tstep w [] d m _ w' m' (l_live _ I) T).
    + pose proof (l_duty _ I) as Du. cbn in Du. destruct d as [o|].
      * destruct Du as (L & Sd & q & M & N). split; [exact L|]. split; [apply (tstep_ending _ _ _ _ _ _ o Dying T); auto|]. exact (tstep_bottom _ _ _ _ _ _ _ _ T M N).
      * intros L. rewrite (Du L) in T. inversion T.
    + intros L. destruct (l_before _ I L) as (D1 & D2). split; [exact D1|]. intros x X. exact (D2 x (tstep_died _ _ _ _ _ _ _ T X)).
    + exact (l_workers _ I).
    + intros o X. apply (tstep_ending _ _ _ _ _ _ o Dying T) in X; [|auto]. exact (l_dying _ I o X).
  - constructor; cbn [world_of duty leaving main workers].
    + pose proof (l_live _ I) as Lv. unfold threads in *. cbn [world_of duty main workers] in *. rewrite map_app in *. cbn [map fst snd] in *.
      exact (live_tstep w ((d, m) :: map (fun q => (Some (fst q), snd q)) l1) (Some o) th _ w' th' Lv T).
    + pose proof (l_duty _ I) as Du. cbn in Du. destruct d as [o'|]; [|exact Du].
      destruct Du as (L & Sd & q). split; [exact L|]. split; [apply (tstep_ending _ _ _ _ _ _ o' Dying T); auto|exact q].
    + exact (l_before _ I).
    + intros o' t x X. destruct (in_mid _ _ (o, th) _ _ X) as [E|Y]; [|exact (l_workers _ I _ _ x Y)]. injection E as -> ->.
      intros Z. apply (l_workers _ I o th x); [cbn; apply in_app_iff; right; left; reflexivity|exact (tstep_died _ _ _ _ _ _ _ T Z)].
    + intros x X. apply (tstep_ending _ _ _ _ _ _ x Dying T) in X; [|auto]. exact (l_dying _ I x X).
  - pose proof (l_live _ I) as C. unfold threads in C. cbn [world_of duty main workers] in C. constructor; [constructor|..]; cbn [world_of duty leaving main workers].
    + exact (v_nodup _ _ C).
    + exact (v_building _ _ C).
    + unfold threads. cbn. intros b t [X|[X|X]].
      * injection X as <- <-. apply (v_stack _ _ C d). left; reflexivity.
      * injection X as <- <-. intros k1 x k2 c q E. destruct k1 as [|? [|]]; discriminate.
      * apply (v_stack _ _ C b). right; exact X.
    + unfold threads. cbn. intros x t [X|[X|X]].
      * apply (v_owner _ _ C x t). left; exact X.
      * injection X as <- <-. exact A.
      * apply (v_owner _ _ C x t). right; exact X.
    + exact (v_ordup _ _ C).
    + exact (v_order _ _ C).
    + exact (l_duty _ I).
    + exact (l_before _ I).
    + intros o' t x [X|X]; [injection X as <- <-; intros [Y|[]]; discriminate|exact (l_workers _ I _ _ x X)].
    + exact (l_dying _ I).
  - pose proof (l_live _ I) as C. unfold threads in C. cbn [world_of duty main workers] in C. rewrite map_app in C. cbn [map fst snd] in C.
    assert (K : forall b th, In (b, th) (threads (State w m l d (l1 ++ l2))) -> In (b, th) ((d, m) :: map (fun q => (Some (fst q), snd q)) l1 ++ (Some o, []) :: map (fun q => (Some (fst q), snd q)) l2)).
    { unfold threads. cbn. rewrite !map_app. intros b th [X|X]; auto. right. apply in_app_iff in X. apply in_app_iff. cbn. tauto. }
    assert (E : all_builts (threads (State w m l d (l1 ++ l2))) = all_builts ((d, m) :: map (fun q => (Some (fst q), snd q)) l1 ++ (Some o, []) :: map (fun q => (Some (fst q), snd q)) l2)).
    { unfold threads, all_builts. cbn. rewrite map_app, !flat_map_app. reflexivity. }
    constructor; [constructor|..]; cbn [world_of duty leaving main workers].
    + rewrite E. exact (v_nodup _ _ C).
    + rewrite E. exact (v_building _ _ C).
    + intros b th X. exact (v_stack _ _ C _ _ (K _ _ X)).
    + intros b th X. exact (v_owner _ _ C _ _ (K _ _ X)).
    + exact (v_ordup _ _ C).
    + exact (v_order _ _ C).
    + exact (l_duty _ I).
    + exact (l_before _ I).
    + intros o' t x X. apply (l_workers _ I o' t x). cbn. apply in_app_iff in X. apply in_app_iff. cbn. tauto.
    + exact (l_dying _ I).
  - constructor; cbn [world_of duty leaving main workers]; [exact (l_live _ I)|auto|discriminate|exact (l_workers _ I)|exact (l_dying _ I)].
  - pose proof (l_live _ I) as C. unfold threads in C. cbn [world_of duty main workers] in C.
    assert (Ao : status w o = Alive) by (apply (v_order _ _ C); rewrite O; left; reflexivity).
    pose proof (v_ordup _ _ C) as Nd. rewrite O in Nd. inversion Nd as [|? ? No Nr]; subst.
    constructor; [constructor|..]; cbn [world_of duty leaving main workers status order];
      try change (fun x => if object_dec x o then Dying else status w x) with (status (set_life o Dying w)).
    + exact (v_nodup _ _ C).
    + intros x. etransitivity; [exact (v_building _ _ C x)|]. destruct (object_dec x o) as [->|Nx]; [rewrite status_same, Ao; split; discriminate|rewrite status_other by assumption; tauto].
    + unfold threads. cbn. intros b t [X|X].
      * injection X as <- <-. intros k1 x k2 c q E. destruct k1 as [|? [|? [|]]]; discriminate.
      * apply (v_stack _ _ C b). right; exact X.
    + unfold threads. cbn [duty main workers]. intros x t [X|X].
      * injection X as <- <-. right. apply status_same.
      * destruct (object_dec x o) as [->|Nx]; [right; apply status_same|rewrite status_other by assumption]. apply (v_owner _ _ C x t). right; exact X.
    + exact Nr.
    + intros x. pose proof (v_order _ _ C x) as Ox. rewrite O in Ox. destruct (object_dec x o) as [->|Nx]; [rewrite status_same; split; [contradiction|discriminate]|].
      rewrite status_other by assumption. rewrite <- Ox. cbn. split; [auto|intros [->|Y]; [contradiction|exact Y]].
    + split; [reflexivity|]. split; [apply status_same|]. exists [Run (dtor P o)]. split; [reflexivity|]. intros x [X|[]]. discriminate.
    + discriminate.
    + exact (l_workers _ I).
    + intros x X. destruct (object_dec x o) as [->|Nx]; [reflexivity|]. rewrite status_other in X by assumption. pose proof (l_dying _ I x X). discriminate.
  - pose proof (l_live _ I) as C. unfold threads in C. cbn [world_of duty main workers] in C. constructor; [constructor|..]; cbn [world_of duty leaving main workers].
    + exact (v_nodup _ _ C).
    + exact (v_building _ _ C).
    + unfold threads. cbn. intros b t [X|X].
      * injection X as <- <-. intros k1 x k2 c q E I1 U. destruct k1 as [|i k1]; [discriminate|]. injection E as <- E.
        pose proof (l_duty _ I) as (_ & _ & z & M & Nz). cbn in M. destruct z as [|iz z]; [|injection M as <- _; destruct (Nz o); left; reflexivity]. injection M as ->.
        destruct k1 as [|? [|]]; discriminate.
      * apply (v_stack _ _ C b). right; exact X.
    + unfold threads. cbn [duty main workers]. intros x t [X|X].
      * injection X as <- <-. apply (v_owner _ _ C o (Died o :: r)). left; reflexivity.
      * apply (v_owner _ _ C x t). right; exact X.
    + exact (v_ordup _ _ C).
    + exact (v_order _ _ C).
    + pose proof (l_duty _ I) as (L & Sd & q & M & N). cbn [leaving world_of main] in *. split; [exact L|]. split; [exact Sd|]. exists (Run j :: q). rewrite M. split; [reflexivity|].
      intros x [X|X]; [discriminate|exact (N x X)].
    + discriminate.
    + exact (l_workers _ I).
    + exact (l_dying _ I).
  - pose proof (l_live _ I) as C. unfold threads in C. cbn [world_of duty main workers] in C.
    pose proof (l_duty _ I) as (L & Sd & q & M & Nq). cbn [leaving world_of main] in *.
    assert (E : r = []). { destruct q as [|i q]; [injection M as ->; reflexivity|]. injection M as <- ->. destruct (Nq o). left; reflexivity. } subst r. clear q M Nq.
    constructor; [constructor|..]; cbn [world_of duty leaving main workers].
    + exact (v_nodup _ _ C).
    + intros x. etransitivity; [exact (v_building _ _ C x)|]. destruct (object_dec x o) as [->|Nx]; [rewrite status_same, Sd; split; discriminate|rewrite status_other by assumption; tauto].
    + unfold threads. cbn. intros b t [X|X].
      * injection X as <- <-. intros k1 x k2 c q E. destruct k1; discriminate.
      * apply (v_stack _ _ C b). right; exact X.
    + unfold threads. cbn [duty main workers]. intros x t [X|X]; [discriminate|].
      destruct (object_dec x o) as [->|Nx]; [exfalso; apply in_map_iff in X as ([y z] & X & W); injection X as -> ->; exact (N _ W)|].
      rewrite status_other by assumption. apply (v_owner _ _ C x t). right; exact X.
    + exact (v_ordup _ _ C).
    + intros x. change (order (set_life o Dead w)) with (order w). rewrite (v_order _ _ C x). destruct (object_dec x o) as [->|Nx]; [|rewrite status_other by assumption; tauto].
      rewrite status_same, Sd. split; discriminate.
    + auto.
    + discriminate.
    + exact (l_workers _ I).
    + intros x X. destruct (object_dec x o) as [->|Nx]; [rewrite status_same in X; discriminate|]. rewrite status_other in X by assumption.
      pose proof (l_dying _ I x X) as Y. cbn in Y. congruence.
Qed.

Lemma linv_init : linv (initial P).
Proof.
  constructor; [constructor|..]; cbn; try discriminate; auto.
  - constructor.
  - intros o. split; [intros []|discriminate].
  - intros b th [E|[]]. injection E as <- <-. intros k1 o k2 c q E. destruct k1 as [|? [|]]; discriminate.
  - intros o th [E|[]]. discriminate.
  - constructor.
  - intros o. split; [intros []|discriminate].
  - intros _. split; [reflexivity|]. intros x [X|[]]. discriminate.
Qed.
Lemma linv_reachable s : reachable P s -> linv s.
Proof. induction 1 as [|s t R IH S]; [exact linv_init|exact (linv_step _ _ IH S)]. Qed.

Definition moves (s : state) : Prop := exists t, step P s t.

(** a thread that can step lets the program step *)
Lemma thread_moves s b th w' th' : In (b, th) (threads s) -> tstep P b (world_of s) th w' th' -> moves s.
Proof.
  destruct s as [w m l d ws]. unfold threads. cbn. intros [E|I] T.
  - injection E as <- <-. eexists. apply s_main. exact T.
  - apply in_map_iff in I as ([o t] & E & I). injection E as <- <-. cbn in *. apply in_split in I as (l1 & l2 & ->). eexists. apply s_worker. exact T.
Qed.

(** what a thread does next: it steps, it is at its end or in a destructor, or it waits for an object to be built *)
Lemma next s b th : linv s -> In (b, th) (threads s) ->
  moves s \/ th = [] \/ (exists o r, th = Died o :: r) \/ exists c r q, th = Run c :: r /\ uses c q /\ status (world_of s) q = Building.
Proof.
  intros I It. destruct th as [|[c|o|o] r]; [auto| |left|right; right; left; eauto].
  - assert (G : forall q, first c = Some q -> (built (status (world_of s) q) -> moves s) ->
      moves s \/ exists c' r' q', Run c :: r = Run c' :: r' /\ uses c' q' /\ status (world_of s) q' = Building).
    { intros q F B. destruct (status (world_of s) q) eqn:Q; try (left; apply B; unfold built; auto; fail).
      - left. eapply thread_moves; [exact It|]. eapply t_init; eassumption.
      - right. exists c, r, q. split; [reflexivity|]. split; [exact (first_uses _ _ F)|exact Q]. }
    destruct c as [|o k|o j k].
    + left. eapply thread_moves; [exact It|]. apply t_skip.
    + destruct (G o eq_refl) as [X|X]; auto. intros B. eapply thread_moves; [exact It|]. apply t_use. exact B.
    + destruct (G o eq_refl) as [X|X]; auto. intros B. eapply thread_moves; [exact It|]. apply t_submit. exact B.
  - eapply thread_moves; [exact It|]. apply t_built. apply (v_building _ _ (l_live _ I)). unfold all_builts. apply in_flat_map.
    exists (b, Built o :: r). split; [exact It|]. cbn. auto.
Qed.

Lemma waiting_moves s : linv s -> forall n q, rank q < n -> status (world_of s) q = Building -> moves s.
Proof.
  intros I n. induction n as [|n IH]; intros q R B; [lia|].
  apply (v_building _ _ (l_live _ I)) in B. unfold all_builts in B. apply in_flat_map in B as ([b th] & It & Iq). cbn in Iq. apply in_builts in Iq.
  destruct (next s b th I It) as [M|[->|[(o & r & ->)|(c & r & x & -> & U & X)]]]; [exact M|destruct Iq| |].
  - exfalso. unfold threads in It. destruct It as [E|It].
    + injection E as E1 E2. pose proof (l_duty _ I) as Du. rewrite E1 in Du. destruct b as [o'|].
      * destruct Du as (_ & _ & z & M & Nz). rewrite E2 in M. destruct z as [|i z]; [injection M as _ Er; rewrite Er in Iq; destruct Iq as [Y|[]]; discriminate|].
        injection M as <- _. destruct (Nz o). left; reflexivity.
      * destruct (leaving s) eqn:L; [rewrite (Du eq_refl) in E2; discriminate|]. destruct (l_before _ I L) as (_ & Nd). apply (Nd o). rewrite E2. left; reflexivity.
    + apply in_map_iff in It as ([o' t] & E & It). injection E as E1 E2. cbn in E2. subst t. apply (l_workers _ I o' _ o It). left; reflexivity.
  - apply (IH x); [|exact X]. destruct Iq as [Y|Iq]; [discriminate|]. apply in_split in Iq as (k1 & k2 & ->).
    pose proof (v_stack _ _ (l_live _ I) _ _ It (Run c :: k1) q k2 c x eq_refl (or_introl eq_refl) U). lia.
Qed.

(** any thread of an object lets the program step *)
Lemma worker_moves s o th : linv s -> In (o, th) (workers s) -> moves s.
Proof.
  intros I It. assert (It' : In (Some o, th) (threads s)) by (right; apply in_map_iff; exists (o, th); auto).
  destruct (next s _ _ I It') as [M|[->|[(x & r & ->)|(c & r & x & -> & U & X)]]]; [exact M| | |exact (waiting_moves s I (S (rank x)) x ltac:(lia) X)].
  - destruct s as [w m l d ws]. cbn in It. apply in_split in It as (l1 & l2 & ->). eexists. apply s_end.
  - destruct (l_workers _ I _ _ x It). left; reflexivity.
Qed.

Lemma no_deadlock_proof s : reachable P s -> moves s \/ finished s.
Proof.
  intros R. pose proof (linv_reachable _ R) as I.
  assert (I0 : In (duty s, main s) (threads s)) by (left; reflexivity).
  destruct (next s _ _ I I0) as [M|[E|[(o & r & E)|(c & r & x & _ & U & X)]]]; [auto| | |left; exact (waiting_moves s I (S (rank x)) x ltac:(lia) X)].
  - pose proof (l_duty _ I) as Du. pose proof (l_before _ I) as Be. pose proof (l_live _ I) as C. pose proof (l_dying _ I) as Dy. pose proof (fun o th => worker_moves s o th I) as Wm.
    destruct s as [w m l d ws]. cbn in *. subst m. destruct d as [o|]; [destruct Du as (_ & _ & z & M & _); destruct z; discriminate|].
    destruct l; [|left; eexists; apply s_leave]. destruct (order w) as [|o r] eqn:O; [|left; eexists; eapply s_destroy; exact O].
    destruct ws as [|[o th] ws]; [|left; apply (Wm o th); left; reflexivity]. right. repeat split. cbn. intros o.
    pose proof (v_building _ _ C o) as B. pose proof (v_order _ _ C o) as Oo. rewrite O in Oo. specialize (Dy o). cbn in *. destruct (status w o); auto.
    + destruct (proj2 B eq_refl).
    + destruct (proj2 Oo eq_refl).
    + discriminate (Dy eq_refl).
  - left. pose proof (l_duty _ I) as Du. pose proof (l_before _ I) as Be. pose proof (fun o th => worker_moves s o th I) as Wm. destruct s as [w m l d ws]. cbn in *. subst m.
    destruct d as [o'|].
    + destruct Du as (-> & _ & z & M & Nz). destruct z as [|i z]; [|injection M as <- _; destruct (Nz o); left; reflexivity]. injection M as -> ->.
      assert (Dc : (exists th, In (o', th) ws) \/ forall th, ~ In (o', th) ws).
      { clear. induction ws as [|[x t] ws IH]; [right; intros th []|]. destruct (object_dec x o') as [->|N]; [left; exists t; left; reflexivity|].
        destruct IH as [(th & Y)|Y]; [left; exists th; right; exact Y|right]. intros th [E|Z]; [congruence|exact (Y th Z)]. }
      destruct Dc as [(th & Y)|Y]; [exact (Wm o' th Y)|]. eexists. apply s_dead. exact Y.
    + destruct l; [discriminate (Du eq_refl)|]. destruct (Be eq_refl) as (_ & N). destruct (N o). left; reflexivity.
Qed.
End Live.
