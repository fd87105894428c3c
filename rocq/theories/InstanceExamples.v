(** Programs and executions used as witnesses and as non-trivial cases. *)
From Coq Require Import List Lia Arith.
From Verif Require Import InstanceModel InstanceSpec InstanceProofs InstanceLive InstanceEnd.
Import ListNotations.

Inductive path (P : program) (s : state) : state -> Prop :=
| path_0 : path P s s
| path_S t u : step P s t -> path P t u -> path P s u.
Lemma path_reachable P s t : reachable P s -> path P s t -> reachable P t.
Proof. intros R H. revert R. induction H as [|s t u S _ IH]; intros R; [exact R|]. apply IH. exact (r_step P _ _ R S). Qed.

Definition none : nat -> code := fun _ => Skip.
Definition log : code := Submit Logger Skip Skip.

(** main uses the logger, then gives the pool a task that logs *)
Definition logger_first : program := Program (Use Logger (Submit Pool log Skip)) none none.
(** main gives the pool a task that logs, then logs *)
Definition pool_first : program := Program (Submit Pool log log) none none.
(** a static object that is built before the logger and logs in its destructor *)
Definition late_logger : program := Program (Use (User 0) log) none (fun _ => log).
(** the same, but its constructor logs too *)
Definition early_logger : program := Program (Use (User 0) log) (fun _ => log) (fun _ => log).
(** a log writer that uses a static object which logs in its destructor *)
Definition circular : program := Program (Submit Logger (Use (User 0) Skip) Skip) none (fun _ => log).
(** two static objects whose constructors use each other, built by main and by a task *)
Definition crossed : program :=
  Program (Submit Pool (Use (User 1) Skip) (Use (User 0) Skip)) (fun n => Use (User (1 - n)) Skip) none.

Ltac alive := cbn; unfold built; tauto.
Ltac thread := first [apply t_skip | eapply t_built; reflexivity | eapply t_init; reflexivity | apply t_use; alive | apply t_submit; alive].
(* main steps, worker number 0 steps, the first job is taken, the first worker ends *)
Ltac m := eapply path_S; [apply s_main; thread|]; cbn [ctor dtor user_ctor user_dtor none log].
Ltac w := eapply path_S; [eapply (s_worker _ _ _ _ _ []); thread|]; cbn [app ctor dtor user_ctor user_dtor none log].
Ltac take := eapply path_S; [eapply (s_take _ _ _ _ _ _ _ _ []); [reflexivity|cbn; auto]|]; cbn [app].
Ltac take1 := eapply path_S; [eapply (s_take _ _ _ _ _ _ _ _ [_]); [reflexivity|cbn; auto]|]; cbn [app].
Ltac ended := eapply path_S; [eapply (s_end _ _ _ _ _ [])|]; cbn [app].
Ltac leave := eapply path_S; [apply s_leave|].
Ltac kill := eapply path_S; [eapply s_destroy; reflexivity|]; cbn [ctor dtor user_ctor user_dtor none log].
Ltac gone := eapply path_S; [apply s_dead; cbn; let X := fresh in intros ? X; repeat (destruct X as [X|X]; [discriminate|]); destruct X|].
Ltac rest := eapply path_S; [eapply (s_rest _ _ _ _ _ _ []); reflexivity|]; cbn [app].
Ltac stop := apply path_0.

Lemma pool_first_dead : exists s, reachable pool_first s /\ In (used (Some Pool) Logger Dead) (events (world_of s)).
Proof.
  eexists. split.
  - eapply path_reachable; [apply r_init|]. unfold initial. cbn [start pool_first log].
    m. m. m. m. m. m. m. m. m. take1. leave. kill. m. gone. w. stop.
  - cbn. auto.
Qed.
Lemma late_logger_dead : exists s, reachable late_logger s /\ In (used (Some (User 0)) Logger Dead) (events (world_of s)).
Proof.
  eexists. split.
  - eapply path_reachable; [apply r_init|]. unfold initial. cbn [start late_logger log].
    m. m. m. m. m. m. m. m. m. leave. kill. m. gone. kill. m. stop.
  - cbn. auto.
Qed.
Lemma circular_dead : exists s, reachable circular s /\ In (used (Some (User 0)) Logger Dead) (events (world_of s)).
Proof.
  eexists. split.
  - eapply path_reachable; [apply r_init|]. unfold initial. cbn [start circular log].
    m. m. m. m. m. leave. kill. m. rest. m. m. m. m. m. gone. kill. m. stop.
  - cbn. auto.
Qed.

(** the logger is used by a task while the pool is being destroyed *)
Lemma logger_first_run : exists s, reachable logger_first s /\ status (world_of s) Pool = Dying /\ leaving s = true /\
  In (used (Some Pool) Logger Alive) (events (world_of s)).
Proof.
  eexists. split.
  - eapply path_reachable; [apply r_init|]. unfold initial. cbn [start logger_first log].
    m. m. m. m. m. m. m. m. m. leave. kill. take. w. stop.
  - cbn. auto.
Qed.
(** a program that ends *)
Lemma logger_first_end : exists s, reachable logger_first s /\ finished s /\ In (used (Some Pool) Logger Alive) (events (world_of s)).
Proof.
  eexists. split.
  - eapply path_reachable; [apply r_init|]. unfold initial. cbn [start logger_first log].
    m. m. m. m. m. m. m. m. m. leave. kill. take. w. w. ended. m. gone. kill. m. gone. stop.
  - split; [|cbn; auto]. repeat split. intros o. cbn. destruct (object_dec o Logger); [auto|]. destruct (object_dec o Pool) as [->|]; [cbn; auto|].
    repeat (destruct (object_dec _ _); [auto; try congruence|]); auto.
Qed.

Lemma crossed_stuck : exists s, reachable crossed s /\ ~ finished s /\ forall t, ~ step crossed s t.
Proof.
  eexists. split; [|split].
  - eapply path_reachable; [apply r_init|]. unfold initial. cbn [start crossed]. m. m. m. m. take. m. w. stop.
  - intros (X & _). discriminate.
  - assert (TS : forall b st o j ev w' th', st (User 0) = Building -> st (User 1) = Building -> forall q r, q = User 0 \/ q = User 1 ->
      ~ tstep crossed b (World st o j ev) (Run (Use q Skip) :: r) w' th').
    { intros b st o j ev w' th' B0 B1 q r Q T. assert (Bq : st q = Building) by (destruct Q as [-> | ->]; assumption).
      inversion T as [|? ? ? ? F A| |? ? ? ? B|]; subst; cbn in *; [injection F as <-; congruence|].
      rewrite Bq in B. destruct B as [B|[B|B]]; discriminate. }
    intros t S. inversion S; subst.
    + eapply TS; [| | |eassumption]; [reflexivity|reflexivity|auto].
    + destruct l1 as [|? [|]]; cbn in *; try discriminate.
      match goal with E : _ :: _ = _ :: _ |- _ => injection E; intros; subst end. eapply TS; [| | |eassumption]; [reflexivity|reflexivity|auto].
    + cbn in *. destruct j1; discriminate.
    + destruct l1 as [|? [|]]; discriminate.
Qed.

(** ** The hypotheses of the theorems *)
Lemma skip_touches P q : ~ touches P Skip q.
Proof. intros T. inversion T; subst; contradiction. Qed.
Lemma log_touches P q : touches P log q -> q = Logger.
Proof. intros T. inversion T as [? ? U|? o ? U V]; subst; cbn in U; destruct U as [U|[]]; subst; [reflexivity|]. destruct (skip_touches _ _ V). Qed.


Lemma logger_first_ok P k : start P = Use Logger k -> (forall j q, given P Logger j -> ~ touches P j q) -> forall s, reachable P s -> used_alive Logger s.
Proof.
  intros S W s R. apply (used_alive_proof P Logger); [| |exact R].
  - intros q _ Dq. exfalso. assert (N : forall c m, acts P Logger c -> ~ touches P c m) by (intros c m [->|G]; [apply skip_touches|exact (W c m G)]).
    inversion Dq; subst; eapply N; eassumption.
  - intros o No _. right. exists [Logger], k. split; [exact S|]. split; [left; reflexivity|]. split; [intros [E|[]]; congruence|]. intros x [<-|[]]. reflexivity.
Qed.

Lemma hands_log o j : hands log o j -> o = Logger /\ j = Skip.
Proof. cbn. intuition congruence. Qed.

(** the constructor of the static object uses the logger, so its destructor can *)
Lemma early_logger_ok : (forall o, o <> Logger -> depends early_logger o Logger -> built_first early_logger Logger o) /\
  (forall q, q <> Logger -> depends early_logger Logger q -> ~ depends early_logger q Logger).
Proof.
  assert (G : forall o j, given early_logger o j -> o = Logger /\ j = Skip).
  { intros o j (c & [->|(x & [->| ->])] & H); [destruct H as [[-> ->]|[[]|[]]]; auto|destruct x; try destruct H as [[-> ->]|[[]|[]]]; auto; destruct H|destruct x; try destruct H as [[-> ->]|[[]|[]]]; auto; destruct H]. }
  split.
  - intros o No Do. left. destruct o as [| |n]; [|congruence|cbn; auto]. exfalso.
    assert (N : forall c m, acts early_logger Pool c -> ~ touches early_logger c m) by (intros c m [->|Gc]; [apply skip_touches|destruct (G _ _ Gc); discriminate]).
    inversion Do; subst; eapply N; eassumption.
  - intros q _ Dq. exfalso.
    assert (N : forall c m, acts early_logger Logger c -> ~ touches early_logger c m) by (intros c m [->|Gc]; [apply skip_touches|destruct (G _ _ Gc) as [_ ->]; apply skip_touches]).
    inversion Dq; subst; eapply N; eassumption.
Qed.
Lemma early_logger_run : exists s, reachable early_logger s /\ In (used (Some (User 0)) Logger Alive) (events (world_of s)).
Proof.
  eexists. split.
  - eapply path_reachable; [apply r_init|]. unfold initial. cbn [start early_logger log].
    m. m. m. m. m. m. m. m. m. m. leave. kill. m. stop.
  - cbn. auto.
Qed.
(** writers that use nothing *)
Lemma logger_first_writers j q : given logger_first Logger j -> ~ touches logger_first j q.
Proof.
  intros (c & [->|(x & [->| ->])] & H); [|destruct x; destruct H|destruct x; destruct H].
  cbn in H. assert (j = Skip) as -> by intuition congruence. apply skip_touches.
Qed.

Lemma ranked_ends_proof P rank objs : (forall o q, uses (ctor P o) q -> rank q < rank o) -> NoDup objs -> finite_program P objs ->
  (forall s, reachable P s -> (exists t, step P s t) \/ finished s) /\ (exists n, forall k s, steps P k s -> k <= n).
Proof. intros R N F. split; [exact (no_deadlock_proof P rank R)|exact (ends_proof P objs N F)]. Qed.
Lemma early_logger_finite : finite_program early_logger [Logger; User 0] /\ NoDup [Logger; User 0] /\
  forall o q, uses (ctor early_logger o) q -> (fun x => match x with Logger => 0 | _ => 1 end) q < (fun x => match x with Logger => 0 | _ => 1 end) o.
Proof.
  split; [|split].
  - split; [cbn; tauto|]. intros o [<-|[<-|[]]]; cbn; tauto.
  - repeat constructor; cbn; intuition congruence.
  - intros [| |n] q; cbn; try tauto. intros [<-|[]]. auto.
Qed.

(** Programs in which neither destructors nor work that is given away use [p] *)
Lemma only_main_ok P p : (forall o j, given P o j -> ~ touches P j p) -> (forall n, ~ touches P (user_dtor P n) p) ->
  forall s, reachable P s -> used_alive p s.
Proof.
  intros G D.
  assert (A1 : forall o c, acts P o c -> ~ touches P c p).
  { intros o c [-> | A] T; [| exact (G _ _ A T)]. destruct o as [| | n]; [| | exact (D n T)]; apply (skip_touches _ _ T). }
  assert (N : forall o, ~ depends P o p).
  { intros o Hd. clear G D. induction Hd as [o c q A T | o c m q A T Hd IH]; [exact (A1 _ _ A T) | exact (IH A1)]. }
  apply used_alive_proof; [intros q _ _; apply N | intros o _ Ho; destruct (N _ Ho)].
Qed.
(** a task that uses a static object, built before the logger, with which only main logs *)
Definition main_logs : program := Program (Submit Pool (Use (User 0) Skip) log) none none.
Lemma main_logs_example :
  (forall o j, given main_logs o j -> ~ touches main_logs j Logger) /\ (forall n, ~ touches main_logs (user_dtor main_logs n) Logger).
Proof.
  split; [| intros n; apply skip_touches].
  intros o j (c & C & H).
  assert (E : j = Use (User 0) Skip \/ j = Skip).
  { destruct C as [-> | (x & [-> | ->])].
    - cbn in H. destruct H as [[_ <-] | [[] | H]]; [left; reflexivity |].
      destruct H as [[_ <-] | [[] | []]]. right. reflexivity.
    - destruct x; destruct H.
    - destruct x; destruct H. }
  destruct E as [-> | ->]; [| apply skip_touches].
  intros T. inversion T as [? ? U | ? q ? U V]; subst; cbn in U; destruct U as [U | []]; [discriminate |].
  subst. exact (skip_touches _ _ V).
Qed.
