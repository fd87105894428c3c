(** The thread pool follows the discipline of LockProofs.v. *)
From Coq Require Import List Bool Arith Lia.
From Verif Require Import ListUpdate LockModel LockSpec LockProofs.
Import ListNotations.

(** [run_at]: whether run_at and run_after are used *)
Definition pool_guards (run_at : bool) (x : ploc) : guard :=
  match x with
  | PWorkers => LockedUntil 0 0
  | PThreads => OwnedAfter 0 0 Main
  | PScheduler => if run_at then Loose else Owned Main
  | _ => Locked 0
  end.
Definition pool_spawns (run_at : bool) (k k' : kind) : bool :=
  kind_eqb k k' ||
  match k, k' with
  | Client, Worker => true
  | Client, Scheduler | Worker, Scheduler => run_at
  | _, _ => false
  end.
Definition pool_users (k : kind) : bool := match k with Client | Worker => true | _ => false end.
Lemma pool_spawns_refl r k : pool_spawns r k k = true.
Proof. destruct k; reflexivity. Qed.
Lemma pool_spawns_trans r a b c : pool_spawns r a b = true -> pool_spawns r b c = true -> pool_spawns r a c = true.
Proof. destruct r, a, b, c; cbn; congruence. Qed.

(** knowledge [b], reached from [a], inside the critical section *)
Definition inside (a b : know) : Prop :=
  held b = Some 0 /\ det b = false /\ joined b = joined a /\ begun b = begun a /\
  (forall n, facts a n = Some true -> facts b n = Some true).
Lemma inside_lock a : held a = None -> det a = false -> inside a (set_held a (Some 0)).
Proof. repeat split; auto. Qed.
Lemma inside_wait a b : inside a b -> inside a (set_held (forget b) (Some 0)).
Proof. intros (H1 & H2 & H3 & H4 & H5). repeat split; cbn; auto. intros n Hn. rewrite (H5 _ Hn). reflexivity. Qed.
Lemma inside_fact a b v : inside a b -> (facts a 0 = Some true -> v = true) -> inside a (set_fact b 0 v).
Proof.
  intros (H1 & H2 & H3 & H4 & H5) Hv. repeat split; cbn; auto. intros n Hn. unfold put. destruct (n =? 0) eqn:E; [|auto].
  apply Nat.eqb_eq in E. subst n. rewrite Hv; auto.
Qed.
Lemma inside_unlock a b : inside a b -> det a = false -> le a (forget b).
Proof.
  intros (H1 & H2 & H3 & H4 & H5) D. repeat split; cbn; auto; try congruence.
  - intros n Hn. rewrite (H5 _ Hn). reflexivity.
  - intros n. destruct (facts b n) as [[|]|]; discriminate.
Qed.
Lemma perm_locked ra k a b x w : inside a b -> pool_guards ra x = Locked 0 -> perm (pool_guards ra) k b x w.
Proof. intros (H1 & H2 & _) G. split; [auto|]. right. rewrite G. exact H1. Qed.
Lemma perm_read ra k a b x n : inside a b -> pool_guards ra x = LockedUntil 0 n -> perm (pool_guards ra) k b x false.
Proof. intros (H1 & H2 & _) G. split; [auto|]. right. rewrite G. auto. Qed.

Section Pool.
Variable ra : bool.
Notation safe := (safe (pool_guards ra) (fun _ => 0) (pool_spawns ra) pool_users).

(** the locations and the statements of a critical section *)
Ltac pm := solve [eapply perm_locked; [eassumption|reflexivity] | eapply perm_read; [eassumption|reflexivity]].
Ltac pstep :=
  match goal with
  | |- LockProofs.safe _ _ _ _ _ _ _ _ => progress cbn [LockProofs.safe block map]
  | |- perm _ _ _ _ _ /\ _ => split; [pm|]
  end.

Lemma grow_safe k a b (Q : know -> Prop) : inside a b -> facts b 0 = Some false -> k <> Main -> pool_spawns ra k Worker = true ->
  (forall b, inside a b -> facts b 0 = Some false -> Q b) -> safe k pool_grow Q b.
Proof.
  intros Hb Fb Nk Sp HQ. unfold pool_grow. exists (fun b => inside a b /\ facts b 0 = Some false). split; [auto|]. split; [|intros c (H1 & H2); auto].
  clear b Hb Fb. intros b (Hb & Fb). repeat pstep. split.
  { split; [auto|]. split; [discriminate|]. split; [left; apply Hb|exact Fb]. }
  assert (after_spawn (fun _ => 0) (pool_spawns ra) k b Worker = b) as -> by (destruct k; [congruence|reflexivity..]).
  split. { split; [right; destruct Hb; congruence|]. right. cbn. left. destruct Hb. auto. }
  split. { split; [right; destruct Hb; congruence|]. right. cbn. left. destruct Hb. auto. }
  auto.
Qed.

Lemma public_proof k n a : clean pool_users k a -> safe k (pool_public Skip ra n) (le a) a.
Proof.
  intros (C1 & C2 & C3 & C4). assert (k <> Main) as Nk by (intros ->; discriminate).
  assert (Sp : pool_spawns ra k Worker = true) by (destruct k; cbn in C4; try discriminate; reflexivity).
  assert (Ba := inside_lock a C1 C2).
  assert (Lk : forall p, (forall b, inside a b -> safe k p (le a) b) -> safe k (Seq (Lock 0) p) (le a) a).
  { intros p Hp. cbn. auto. }
  assert (Un : forall b, inside a b -> safe k (block [Unlock 0]) (le a) b).
  { intros b Hb. cbn. destruct Hb as (Hb & Hb'). split; [exact Hb|]. apply inside_unlock; [split; auto|exact C2]. }
  assert (Get : forall l, Forall (fun x => x <> PThreads /\ x <> PScheduler) l -> forall p (Q : know -> Prop) b, inside a b ->
    safe k p Q b -> safe k (Seq (block (map Read l)) p) Q b).
  { intros l Fl p Q b Hb Hp. cbn [LockProofs.safe]. induction Fl as [|x l (N1 & N2) Fl IH]; cbn [map block LockProofs.safe]; [exact Hp|].
    split; [|exact IH]. destruct x; try congruence; solve [eapply perm_locked; [eassumption|reflexivity] | eapply perm_read; [eassumption|reflexivity]]. }
  unfold pool_public, pool_functions.
  assert (GetF : forall l, Forall (fun x => x <> PThreads /\ x <> PScheduler) l -> safe k (pool_getter l) (le a) a).
  { intros l Fl. apply Lk. intros b Hb. apply Get; auto. }
  assert (WaitF : forall l, Forall (fun x => x <> PThreads /\ x <> PScheduler) l -> safe k (pool_wait l) (le a) a).
  { intros l Fl. apply Lk. intros b Hb. cbn [block LockProofs.safe]. exists (inside a). split; [exact Hb|]. split.
    - intros c Hc. apply (Get l Fl (block [Wait 0])); [exact Hc|]. cbn. destruct Hc as (H1 & H2 & H3). repeat split; try tauto.
      intros f Hf. cbn. rewrite (proj2 (proj2 H3) _ Hf). reflexivity.
    - intros c Hc. apply (Get l Fl (block [Unlock 0])); auto. }
  Local Ltac fl := repeat (constructor; [split; discriminate|]); constructor.
  do 14 try destruct n as [|n]; cbn [nth]; try (apply GetF; fl); try (apply WaitF; fl).
  - (* target_workers_size *)
    apply Lk. intros b Hb. repeat pstep. cbn. destruct Hb as (B1 & B2). split; [|split].
    + intros _. split; [exact B1|]. apply inside_unlock; [|exact C2]. apply inside_fact; [split; auto|auto].
    + intros Nf _. assert (Hb' : inside a (set_fact b 0 false)).
      { apply inside_fact; [split; auto|]. intros X. exfalso. apply Nf. apply B2. exact X. }
      split; [eapply perm_locked; [eassumption|reflexivity]|].
      apply (grow_safe k a _ _ Hb' eq_refl Nk Sp). intros c Hc Fc. split; [eapply perm_locked; [eassumption|reflexivity]|].
      split; [eapply perm_read; [eassumption|reflexivity]|]. apply Un in Hc. exact Hc.
    + intros _ X. contradiction.
  - apply Lk. intros b Hb. repeat pstep. apply Un in Hb. exact Hb.
  - apply Lk. intros b Hb. repeat pstep. apply Un in Hb. exact Hb.
  - (* run_at *)
    destruct ra eqn:Er; [|cbn; repeat split; auto].
    apply Lk. intros b Hb. cbn [LockProofs.safe block]. split; [eapply perm_locked; [eassumption|reflexivity]|].
    assert (Pm : forall c w, det c = false \/ held c <> None -> perm (pool_guards true) k c PScheduler w).
    { intros c w D. split; [exact D|]. right. exact I. }
    destruct Hb as (B1 & B2 & B3). split; [auto|]. split.
    + split; [exact B1|]. split.
      { split; [right; destruct k; try discriminate; reflexivity|]. split; [discriminate|]. split; [left; exact B2|exact I]. }
      assert (after_spawn (fun _ => 0) (pool_spawns true) k (forget b) Scheduler = forget b) as -> by (destruct k; [congruence|reflexivity..]).
      split; [apply Pm; auto|]. apply inside_unlock; [repeat split; tauto|exact C2].
    + split; [eapply perm_locked with (a := a); [repeat split; tauto|reflexivity]|]. split; [exact B1|].
      apply inside_unlock; [repeat split; tauto|exact C2].
  - destruct n; repeat split; auto.
Qed.

Lemma inside_refl a b : inside a b -> inside b b.
Proof. intros (H1 & H2 & H3 & H4 & H5). repeat split; auto. Qed.
Definition out (a : know) : Prop := held a = None.

Lemma working_safe : safe Worker (pool_working Skip) out fresh.
Proof.
  cbn [pool_working LockProofs.safe block map]. split; [reflexivity|]. split; [reflexivity|].
  exists (fun b => inside b b). split; [repeat split; auto; discriminate|]. split.
  - intros b Hb. do 5 (split; [pm|]). split.
    + split; [pm|]. destruct Hb as (H1 & H2 & H3 & H4 & H5). split; [exact H1|]. split; [exact H2|].
      repeat split; auto.
    + do 3 (split; [pm|]). destruct Hb as (H1 & H2 & H3 & H4 & H5). split; [exact H1|]. split.
      { repeat split; auto. intros n. cbn. destruct (facts b n) as [[|]|]; discriminate. }
      intros c (D1 & D2 & D3 & D4 & D5 & D6). split; [exact D1|]. split; [cbn in D2; congruence|].
      assert (Hc : inside (set_held c (Some 0)) (set_held c (Some 0))). { repeat split; auto. cbn in *. congruence. }
      split; [pm|]. exact Hc.
  - intros b Hb. do 5 (split; [pm|]). split; [|split].
    + intros _. destruct Hb as (H1 & _). split; [exact H1|reflexivity].
    + intros Nf _.
      assert (Hc : inside (set_fact b 0 false) (set_fact b 0 false)). { destruct Hb as (H1 & H2 & H3 & H4 & H5). repeat split; auto. }
      destruct Hc as (H1 & H2 & H3). split; [eapply perm_read with (a := set_fact b 0 false); [repeat split; auto|reflexivity]|].
      split. { split; [auto|]. right. left. split; [exact H1|reflexivity]. }
      split; [reflexivity|]. split; [exact H1|]. split; [reflexivity|].
      split. { split; [right; cbn in *; congruence|]. right. left. split; [exact H1|right; reflexivity]. }
      split; [exact H1|]. reflexivity.
    + intros _ X. destruct Hb. congruence.
Qed.
Lemma scheduling_safe : ra = true -> safe Scheduler (pool_scheduling Skip) out fresh.
Proof.
  intros Er. cbn [pool_scheduling LockProofs.safe block map]. split; [reflexivity|]. split; [reflexivity|].
  exists (fun b => inside b b). split; [repeat split; auto; discriminate|]. split.
  - intros b Hb. do 2 (split; [pm|]). destruct Hb as (H1 & H2 & H3 & H4 & H5). split; [exact H1|]. split; [exact H2|].
    assert (Hc : inside (set_held (forget b) (Some 0)) (set_held (forget b) (Some 0))) by (repeat split; auto).
    split; [exact Hc|]. do 2 (split; [pm|]). exact Hc.
  - intros b Hb. do 2 (split; [pm|]). destruct Hb as (H1 & H2 & _). split; [|split].
    + intros _. split; [exact H1|reflexivity].
    + intros _ _. split. { split; [auto|]. right. unfold pool_guards. rewrite Er. exact I. } split; [exact H1|reflexivity].
    + intros _ X. congruence.
Qed.
Lemma body_proof dest k : k <> Main -> safe k (pool_body Skip ra dest k) out fresh.
Proof.
  intros Nk. destruct k; cbn [pool_body].
  - congruence.
  - split; [repeat split; discriminate|]. intros b (H & _). exact H.
  - apply working_safe.
  - reflexivity.
  - destruct ra eqn:Er; [|reflexivity]. rewrite <- Er. apply scheduling_safe. exact Er.
Qed.

Lemma main_with final :
  (forall b, held b = None -> det b = false -> (forall k', k' = Main \/ (ra = true /\ k' = Scheduler) \/ joined b k' = true) -> safe Main final out b) ->
  safe Main (pool_main_with final) out start.
Proof.
  intros Hd. cbn [pool_main_with pool_constructor pool_destructor pool_grow LockProofs.safe block map].
  split; [reflexivity|]. split; [reflexivity|].
  (* the constructor starts workers *)
  pose (J := fun b => forall k', k' = Worker \/ k' = Client \/ (ra = true /\ k' = Scheduler) \/ joined b k' = true).
  exists (fun b => held b = Some 0 /\ det b = false /\ facts b 0 = Some false /\ J b). split.
  { repeat split; auto. intros k'. cbn. auto. }
  split.
  { intros b (B1 & B2 & B3 & B4). do 2 (split; [split; [auto|]; right; cbn; auto|]).
    split. { split; [auto|]. split; [discriminate|]. split; [auto|exact B3]. }
    assert (F : facts (after_spawn (fun _ => 0) (pool_spawns ra) Main b Worker) 0 = Some false) by (cbn; rewrite B3, B1; reflexivity).
    split. { split; [cbn; auto|]. right. left. split; [exact B1|auto]. }
    split. { split; [cbn; auto|]. right. left. split; [exact B1|auto]. }
    split; [exact B1|]. split; [exact B2|]. split; [exact F|].
    intros k'. specialize (B4 k'). cbn. destruct k', ra; cbn; tauto. }
  intros b (B1 & B2 & B3 & B4). split; [exact B1|].
  (* any number of threads use the pool *)
  exists (fun b => held b = None /\ det b = false /\ J b). split; [repeat split; auto|]. split.
  { clear b B1 B2 B3 B4. intros b (B1 & B2 & B3). split. { split; [auto|]. split; [discriminate|]. split; [auto|exact I]. }
    split; [exact B1|]. split; [exact B2|]. intros k'. specialize (B3 k'). cbn. destruct k', ra; cbn; tauto. }
  clear b B1 B2 B3 B4. intros b (B1 & B2 & B3). split; [reflexivity|]. split; [discriminate|]. split; [exact B1|].
  (* they have ended *)
  right. split. { split; [exact I|]. intros k' N1 N2 Sp. destruct k', ra; cbn in Sp; try discriminate; congruence. }
  set (b1 := set_joined b _). split; [exact B1|]. split; [exact B2|].
  assert (Hin : inside (set_held b1 (Some 0)) (set_held b1 (Some 0))) by (repeat split; auto).
  split; [pm|]. split; [reflexivity|]. split; [exact B2|]. split; [reflexivity|].
  set (b2 := forget (set_fact (set_held b1 (Some 0)) 0 true)).
  exists (fun b => b = b2). split; [reflexivity|].
  assert (Dt : det b2 = false) by exact B2.
  split. { intros c ->. split. { split; [auto|]. right. right. split; reflexivity. }
    split. { split; [auto|]. right. right. repeat split. left. reflexivity. } reflexivity. }
  intros c ->. split; [reflexivity|]. split; [discriminate|]. split; [reflexivity|].
  (* the workers have ended *)
  right. split. { split; [reflexivity|]. intros k' N1 N2 Sp. auto. }
  set (b3 := set_joined b2 _).
  assert (Ps : forall w, perm (pool_guards ra) Main b3 PScheduler w).
  { intros w. split; [auto|]. right. cbn. destruct ra; [exact I|]. split; [reflexivity|]. left. reflexivity. }
  assert (Fin : safe Main final out b3).
  { apply Hd; [reflexivity|exact Dt|]. intros k'. specialize (B3 k'). cbn. destruct k'; cbn; auto; destruct B3 as [B3|[B3|[B3|B3]]]; try discriminate; auto. }
  split; [apply Ps|]. split; [exact Fin|]. split; [apply Ps|]. exact Fin.
Qed.
Lemma destroy_safe b : det b = false -> held b = None -> (forall k', k' = Main \/ joined b k' = true) -> safe Main pool_destroy out b.
Proof.
  intros D H J. assert (Ex : excl Main b). { split; [reflexivity|]. intros k' N. destruct (J k'); [contradiction|assumption]. }
  cbn [pool_destroy LockProofs.safe block]. do 9 (split; [split; [auto|left; exact Ex]|]). exact H.
Qed.
Lemma main_proof dest : (ra && dest = false) -> safe Main (pool_body Skip ra dest Main) out start.
Proof.
  intros Hd. apply main_with. intros b H D J. destruct dest; [|exact H]. assert (ra = false) as Er by (destruct ra; [discriminate|reflexivity]).
  apply destroy_safe; auto. intros k'. destruct (J k') as [X|[(X & _)|X]]; auto. congruence.
Qed.
Lemma joined_proof : safe Main (pool_body_joined Skip ra true Main) out start.
Proof.
  apply main_with. intros b H D J. cbn [block LockProofs.safe]. split; [reflexivity|]. split; [discriminate|]. split; [exact H|]. right. split.
  - split; [exact I|]. intros k N1 N2 _. right. destruct (J k) as [X|[(_ & X)|X]]; [contradiction..|exact X].
  - apply (safe_mono (pool_guards ra) (fun _ => 0) (pool_spawns ra) pool_users Main pool_destroy out); [auto|]. apply destroy_safe; auto.
    intros k'. cbn. destruct (J k') as [X|[(_ & X)|X]]; [auto| |]; [subst; auto|rewrite X, orb_true_r; auto].
Qed.
End Pool.

Lemma pool_discipline ra dest : ra && dest = false -> forall l s x,
  run (pool_body Skip ra dest) (pool_public Skip ra) (initial (pool_body Skip ra dest)) l = Some s -> race s x -> pool_guards ra x = Loose.
Proof.
  intros H. apply (discipline_race (pool_body Skip ra dest) (pool_public Skip ra) (pool_guards ra) (fun _ => 0) (pool_spawns ra)
    (pool_spawns_refl ra) (pool_spawns_trans ra) pool_users); [apply public_proof|intros; apply body_proof; auto|apply main_proof; exact H].
Qed.
Lemma pool_no_race_partial l s x :
  run (pool_body Skip true false) (pool_public Skip true) (initial (pool_body Skip true false)) l = Some s -> race s x -> x = PScheduler.
Proof. intros R H. pose proof (pool_discipline true false eq_refl l s x R H) as G. destruct x; cbn in G; try discriminate; reflexivity. Qed.
Lemma pool_no_race l s x :
  run (pool_body Skip false true) (pool_public Skip false) (initial (pool_body Skip false true)) l = Some s -> ~ race s x.
Proof. intros R H. pose proof (pool_discipline false true eq_refl l s x R H) as G. destruct x; discriminate. Qed.
Lemma pool_no_race_joined l s x :
  run (pool_body_joined Skip true true) (pool_public Skip true) (initial (pool_body_joined Skip true true)) l = Some s -> race s x -> x = PScheduler.
Proof.
  intros R H. assert (G : pool_guards true x = Loose).
  { revert R H. apply (discipline_race (pool_body_joined Skip true true) (pool_public Skip true) (pool_guards true) (fun _ => 0) (pool_spawns true)
    (pool_spawns_refl true) (pool_spawns_trans true) pool_users); [apply public_proof| |apply joined_proof].
    intros k N. pose proof (body_proof true true k N) as B. destruct k; [congruence|exact B..]. }
  destruct x; cbn in G; try discriminate; reflexivity.
Qed.
Lemma pool_no_misuse l s :
  run (pool_body Skip true false) (pool_public Skip true) (initial (pool_body Skip true false)) l = Some s -> ~ misuse s.
Proof.
  apply (discipline_misuse (pool_body Skip true false) (pool_public Skip true) (pool_guards true) (fun _ => 0) (pool_spawns true)
    (pool_spawns_refl true) (pool_spawns_trans true) pool_users); [apply public_proof|intros; apply body_proof; auto|apply main_proof; reflexivity].
Qed.
Lemma pool_owner_goes_on l s m i :
  run (pool_body Skip true false) (pool_public Skip true) (initial (pool_body Skip true false)) l = Some s -> holder s m = Some i ->
  exists s', step (pool_body Skip true false) (pool_public Skip true) s i 0 = Some s'.
Proof.
  apply (discipline_owner (pool_body Skip true false) (pool_public Skip true) (pool_guards true) (fun _ => 0) (pool_spawns true)
    (pool_spawns_refl true) (pool_spawns_trans true) pool_users); [apply public_proof|intros; apply body_proof; auto|apply main_proof; reflexivity].
Qed.
