(** The logger follows the discipline of LockProofs.v. *)
From Coq Require Import List Bool Arith Lia.
From Verif Require Import ListUpdate LockModel LockSpec LockProofs.
Import ListNotations.

Definition log_guards (x : gloc) : guard :=
  match x with
  | GMap | GBuf _ => Locked 0
  | GKey f => LockedUntil 0 f
  | GPath f => OwnedAfter 0 f Logging
  | GWriter | GHeader => Locked 1
  | GThread => Owned Main
  end.
Definition log_spawns (k k' : kind) : bool := kind_eqb k k'.
Definition log_users (k : kind) : bool := match k with Client | Logging | Main => true | _ => false end.
Lemma log_spawns_refl k : log_spawns k k = true.
Proof. destruct k; reflexivity. Qed.
Lemma log_spawns_trans a b c : log_spawns a b = true -> log_spawns b c = true -> log_spawns a c = true.
Proof. unfold log_spawns. rewrite !kind_eqb_eq. congruence. Qed.

Notation safe := (safe log_guards (fun _ => 0) log_spawns log_users).

(** knowledge [b], reached from [a], with mutex [m] (if any) *)
Definition at_ (m : option nat) (a b : know) : Prop :=
  held b = m /\ det b = false /\ joined b = joined a /\ begun b = begun a /\
  (forall n, facts a n = Some true -> facts b n = Some true) /\
  (m <> Some 0 -> forall n, facts b n <> Some false).

Lemma get_safe k a x (Q : know -> Prop) b : log_guards x = Locked 1 -> at_ None a b -> (forall c, at_ None a c -> Q c) ->
  safe k (log_get Skip x) Q b.
Proof.
  intros G (B1 & B2 & B3 & B4 & B5 & B6) HQ. cbn. split; [exact B1|]. split; [exact B2|].
  split. { split; [auto|]. right. rewrite G. reflexivity. }
  split; [reflexivity|]. apply HQ. repeat split; cbn; auto.
  - intros n Hn. rewrite (B5 _ Hn). reflexivity.
  - intros _ n. destruct (facts b n) as [[|]|]; discriminate.
Qed.
Lemma set_safe k a x (Q : know -> Prop) b : log_guards x = Locked 1 -> at_ None a b -> (forall c, at_ None a c -> Q c) ->
  safe k (log_set Skip x) Q b.
Proof.
  intros G (B1 & B2 & B3 & B4 & B5 & B6) HQ. cbn. split; [exact B1|]. split; [exact B2|].
  split. { split; [auto|]. right. rewrite G. reflexivity. }
  split; [reflexivity|]. apply HQ. repeat split; cbn; auto.
  - intros n Hn. rewrite (B5 _ Hn). reflexivity.
  - intros _ n. destruct (facts b n) as [[|]|]; discriminate.
Qed.
Lemma at_le a b : det a = false -> at_ None a b -> le a b.
Proof. intros D (B1 & B2 & B3 & B4 & B5 & B6). repeat split; auto; try congruence. apply B6. discriminate. Qed.
Lemma le_at a b : det a = false -> le a b -> at_ None a b.
Proof. intros D (B1 & B2 & B3 & B4 & B5 & B6). repeat split; auto. congruence. Qed.
Lemma user_safe k a (Q : know -> Prop) b : log_users k = true -> at_ None a b -> (forall c, at_ None a c -> Q c) -> safe k User Q b.
Proof.
  intros U (B1 & B2 & B3 & B4 & B5 & B6) HQ. cbn. split; [repeat split; auto; apply B6; discriminate|].
  intros c (C1 & C2 & C3 & C4 & C5 & C6). apply HQ. repeat split; auto; congruence.
Qed.
Lemma unlock_at a b : at_ (Some 0) a b -> at_ None a (forget b).
Proof.
  intros (B1 & B2 & B3 & B4 & B5 & B6). repeat split; cbn; auto.
  - intros n Hn. rewrite (B5 _ Hn). reflexivity.
  - intros _ n. destruct (facts b n) as [[|]|]; discriminate.
Qed.
Lemma lock_at a b : at_ None a b -> at_ (Some 0) a (set_held b (Some 0)).
Proof. intros (B1 & B2 & B3 & B4 & B5 & B6). repeat split; cbn; auto. Qed.
Lemma fact_at a b f v : at_ (Some 0) a b -> facts b f <> Some (negb v) -> at_ (Some 0) a (set_fact b f v).
Proof.
  intros (B1 & B2 & B3 & B4 & B5 & B6) Nv. repeat split; cbn; auto.
  - intros n Hn. unfold put. destruct (n =? f) eqn:E; [|auto]. apply Nat.eqb_eq in E. subst n. apply B5 in Hn.
    destruct v; [reflexivity|]. cbn in Nv. congruence.
Qed.
Lemma perm_map k a b x w : at_ (Some 0) a b -> log_guards x = Locked 0 -> perm log_guards k b x w.
Proof. intros (B1 & B2 & _) G. split; [auto|]. right. rewrite G. exact B1. Qed.

Lemma add_safe k a f b : det a = false -> at_ None a b -> safe k (log_add f) (at_ None a) b.
Proof.
  intros D Hb. pose proof (lock_at _ _ Hb) as Hl. destruct Hb as (B1 & B2 & _).
  cbn [log_add log_find LockProofs.safe block]. split; [exact B1|]. split; [exact B2|].
  split; [eapply perm_map; [exact Hl|reflexivity]|].
  exists (at_ (Some 0) a). split; [exact Hl|]. split.
  { intros c Hc g. pose proof Hc as (C1 & C2 & _). split; [|split].
    - intros Nf. split; [|apply fact_at; auto]. split; [auto|]. right. cbn. left. auto.
    - intros Nt _. apply fact_at; auto.
    - intros _ X. congruence. }
  clear b B1 B2 Hl. intros b Hb. pose proof Hb as (B1 & B2 & _).
  assert (Fin : forall c, at_ (Some 0) a c -> perm log_guards k c (GBuf f) false /\
    (at_ (Some 0) a c /\ perm log_guards k c (GBuf f) true)).
  { intros c Hc. split; [|split; [exact Hc|]]; (eapply perm_map; [exact Hc|reflexivity]). }
  assert (Out : forall c, at_ (Some 0) a c -> held c = Some 0 /\ at_ None a (forget c)).
  { intros c Hc. split; [apply Hc|]. apply unlock_at. exact Hc. }
  split; [|split].
  - intros Nf. pose proof (fact_at _ _ f true Hb Nf) as Hc. split; [apply Fin; auto|]. split; [apply Out; auto|]. split; [apply Fin; auto|apply Out; auto].
  - intros Nt _. pose proof (fact_at _ _ f false Hb Nt) as Hc. set (c := set_fact b f false) in *.
    assert (Ff : facts c f = Some false). { unfold c, set_fact, put. cbn. rewrite Nat.eqb_refl. reflexivity. }
    pose proof Hc as (C1 & C2 & _).
    split; [eapply perm_map; [exact Hc|reflexivity]|].
    split. { split; [auto|]. right. cbn. auto. }
    split. { split; [auto|]. right. cbn. auto. }
    split; [eapply perm_map; [exact Hc|reflexivity]|].
    split; [exact C1|]. split; [exact C2|].
    assert (Hd : at_ (Some 0) a (set_fact c f true)).
    { destruct Hc as (X1 & X2 & X3 & X4 & X5 & X6). repeat split; cbn; auto.
      intros n Hn. unfold put. destruct (n =? f) eqn:E; [reflexivity|]. rewrite ?E; apply Hb; exact Hn. }
    split; [apply Fin; auto|]. split; [apply Out; auto|]. split; [apply Fin; auto|apply Out; auto].
  - intros _ X. congruence.
Qed.

Lemma public_proof k n a : clean log_users k a -> safe k (log_public Skip n) (le a) a.
Proof.
  intros (C1 & C2 & C3 & C4). assert (Ha : at_ None a a) by (repeat split; auto).
  assert (M : forall p, safe k p (at_ None a) a -> safe k p (le a) a).
  { intros p Hp. eapply safe_mono; [|exact Hp]. intros b. apply at_le. exact C2. }
  apply M. unfold log_public, log_functions. do 5 try destruct n as [|n]; cbn [nth].
  - apply (get_safe k a); auto.
  - apply (get_safe k a); auto.
  - apply (set_safe k a); auto.
  - apply (set_safe k a); auto.
  - intros f. apply add_safe; auto.
  - destruct n; exact Ha.
Qed.

(** writing a buffer, by the logging thread or by a thread with exclusive access *)
Lemma write_safe k a f (Q : know -> Prop) b : log_users k = true -> at_ None a b ->
  (k = Logging /\ facts a f = Some true) \/ excl k a -> (forall c, at_ None a c -> Q c) -> safe k (log_write_buffer Skip f) Q b.
Proof.
  intros U Hb Hk HQ. pose proof Hb as (B1 & B2 & B3 & B4 & B5 & B6).
  assert (Pp : forall w, perm log_guards k b (GPath f) w).
  { intros w. split; [auto|]. destruct Hk as [(-> & F)|(-> & E)].
    - right. cbn. right. repeat split; auto. right. reflexivity.
    - left. split; [reflexivity|]. rewrite B3. exact E. }
  assert (Pk : perm log_guards k b (GKey f) false).
  { split; [auto|]. destruct Hk as [(-> & F)|(-> & E)].
    - right. cbn. right. auto.
    - left. split; [reflexivity|]. rewrite B3. exact E. }
  assert (Lp : exists I : know -> Prop, I b /\ (forall c, I c -> safe k (block [Choice Skip (block [(log_get Skip) GHeader; User]); (log_get Skip) GWriter; User]) I c) /\
     (forall c, I c -> Q c)).
  { exists (at_ None a). split; [exact Hb|]. split; [|auto]. intros c Hc.
    assert (W : forall d, at_ None a d -> safe k (block [(log_get Skip) GWriter; User]) (at_ None a) d).
    { intros d Hd. apply (get_safe k a); auto. intros e He. apply (user_safe k a); auto. }
    cbn [block LockProofs.safe]. split; [apply W; auto|]. apply (get_safe k a); auto. intros e He. apply (user_safe k a); auto. }
  cbn [log_write_buffer block LockProofs.safe]. split; [apply Pp|].
  assert (T1 : perm log_guards k b (GPath f) false /\ exists I : know -> Prop, I b /\ (forall c, I c -> safe k (block [Choice Skip (block [(log_get Skip) GHeader; User]); (log_get Skip) GWriter; User]) I c) /\
     (forall c, I c -> Q c)) by (split; [apply Pp|exact Lp]).
  assert (T2 := conj T1 (conj (Pp true) T1)).
  split; [exact T2|]. split; [exact Pk|]. split; [apply Pp|exact T2].
Qed.

Lemma logging_safe : safe Logging (log_logging Skip) (fun a => held a = None) fresh.
Proof.
  cbn [log_logging LockProofs.safe block]. split; [reflexivity|]. split; [reflexivity|].
  exists (at_ (Some 0) fresh). split; [repeat split; auto; discriminate|]. split.
  - intros b Hb. split.
    + pose proof Hb as (B1 & B2 & _). split; [exact B1|]. split; [exact B2|]. apply lock_at, unlock_at. exact Hb.
    + split; [eapply perm_map; [exact Hb|reflexivity]|].
      exists (at_ (Some 0) fresh). split; [exact Hb|]. split; [|auto]. clear b Hb. intros b Hb f. pose proof Hb as (B1 & B2 & _). split; [|split].
      * intros Nf. pose proof (fact_at _ _ f true Hb Nf) as Hc. set (c := set_fact b f true) in *.
        assert (Ff : facts c f = Some true). { unfold c, set_fact, put. cbn. rewrite Nat.eqb_refl. reflexivity. }
        split; [eapply perm_map; [exact Hc|reflexivity]|].
        split; [split; [eapply perm_map; [exact Hc|reflexivity]|exact Hc]|]. pose proof Hc as (C1 & C2 & C3 & C4 & C5 & C6). split; [exact C1|].
        pose proof (unlock_at _ _ Hc) as Hd.
        assert (Hd' : at_ None (forget c) (forget c)) by (destruct Hd as (D1 & D2 & D3 & D4 & D5 & D6); repeat split; auto).
        apply (write_safe Logging (forget c)); auto.
        { left. split; [reflexivity|]. unfold forget. cbn [facts]. rewrite Ff. reflexivity. }
        intros d (D1 & D2 & D3 & D4 & D5 & D6). split; [exact D1|]. split; [exact D2|].
        assert (He : at_ (Some 0) fresh (set_held d (Some 0))). { repeat split; cbn in *; auto; try congruence; try discriminate. }
        do 2 (split; [eapply perm_map; [exact He|reflexivity]|]). exact He.
      * intros Nt _. apply fact_at; auto.
      * intros _ X. congruence.
  - intros b (B1 & _). split; [exact B1|reflexivity].
Qed.
Lemma body_proof k : k <> Main -> safe k (log_body Skip k) (fun a => held a = None) fresh.
Proof.
  intros Nk. destruct k; cbn [log_body]; try congruence; try reflexivity.
  - split; [repeat split; discriminate|]. intros b (H & _). exact H.
  - apply logging_safe.
Qed.
Lemma main_proof : safe Main (log_body Skip Main) (fun a => held a = None) start.
Proof.
  cbn [log_body log_main log_constructor log_destructor LockProofs.safe block].
  split. { repeat split; auto; discriminate. }
  set (b0 := after_spawn _ _ _ _ _).
  split. { split; [auto|]. right. split; [reflexivity|]. left. reflexivity. }
  exists (fun b => held b = None /\ det b = false /\ (forall n, facts b n <> Some false) /\ joined b Worker = true /\ joined b Scheduler = true).
  split. { repeat split; cbn; auto. discriminate. }
  split.
  { intros b (B1 & B2 & B3 & B4 & B5). split; [repeat split; auto; discriminate|]. cbn. repeat split; auto.
    intros n. specialize (B3 n). destruct (facts b n) as [[|]|]; congruence. }
  clear b0. intros b (B1 & B2 & B3 & B4 & B5). split; [reflexivity|]. split; [discriminate|]. split; [exact B1|].
  right. split. { split; [exact I|]. intros k' N1 N2 Sp. apply kind_eqb_eq in Sp. congruence. }
  set (b1 := set_joined b _).
  split. { split; [auto|]. right. split; [reflexivity|]. left. reflexivity. }
  split; [reflexivity|]. split; [discriminate|]. split; [exact B1|].
  right. split. { split; [exact I|]. intros k' N1 N2 Sp. apply kind_eqb_eq in Sp. congruence. }
  set (b2 := set_joined b1 _).
  assert (Ex : excl Main b2). { split; [reflexivity|]. intros k' N. destruct k'; cbn; auto; congruence. }
  assert (H2 : at_ None b2 b2) by (repeat split; auto).
  assert (Pa : forall c x w, at_ None b2 c -> perm log_guards Main c x w).
  { intros c x w (C1 & C2 & C3 & _). split; [auto|]. left. split; [reflexivity|]. rewrite C3. apply Ex. }
  assert (Fa : forall c f, at_ None b2 c -> at_ None b2 (set_fact c f true)).
  { intros c f (C1 & C2 & C3 & C4 & C5 & C6). repeat split; auto; cbn.
    - intros n Hn. unfold put. destruct (n =? f); auto.
    - intros N n. unfold put. destruct (n =? f); [discriminate|auto]. }
  do 2 (split; [apply Pa; exact H2|]).
  exists (at_ None b2). split; [exact H2|]. split.
  { intros c Hc f. pose proof Hc as (C1 & _). split; [|split].
    - intros _. split; [apply Pa; apply Fa; exact Hc|]. split; [split; [apply Pa|]; apply Fa; exact Hc|].
      apply (write_safe Main b2); auto.
    - intros _ X. congruence.
    - intros _ _. exact Hc. }
  intros c Hc. do 2 (split; [apply Pa; exact Hc|]).
  exists (at_ None b2). split; [exact Hc|]. split.
  { clear c Hc. intros c Hc f. pose proof Hc as (C1 & _). split; [|split].
    - intros _. do 3 (split; [apply Pa; apply Fa; exact Hc|]). apply Fa; exact Hc.
    - intros _ X. congruence.
    - intros _ _. exact Hc. }
  clear c Hc. intros c Hc. do 2 (split; [apply Pa; exact Hc|]). apply Hc.
Qed.

Lemma logger_no_race l s x : run (log_body Skip) (log_public Skip) (initial (log_body Skip)) l = Some s -> ~ race s x.
Proof.
  intros R H. pose proof (discipline_race (log_body Skip) (log_public Skip) log_guards (fun _ => 0) log_spawns log_spawns_refl log_spawns_trans
    log_users public_proof body_proof main_proof l s x R H) as G. destruct x; discriminate.
Qed.
Lemma logger_no_misuse l s : run (log_body Skip) (log_public Skip) (initial (log_body Skip)) l = Some s -> ~ misuse s.
Proof.
  exact (discipline_misuse (log_body Skip) (log_public Skip) log_guards (fun _ => 0) log_spawns log_spawns_refl log_spawns_trans
    log_users public_proof body_proof main_proof l s).
Qed.
Lemma logger_owner_goes_on l s m i : run (log_body Skip) (log_public Skip) (initial (log_body Skip)) l = Some s -> holder s m = Some i ->
  exists s', step (log_body Skip) (log_public Skip) s i 0 = Some s'.
Proof.
  exact (discipline_owner (log_body Skip) (log_public Skip) log_guards (fun _ => 0) log_spawns log_spawns_refl log_spawns_trans
    log_users public_proof body_proof main_proof l s m i).
Qed.
