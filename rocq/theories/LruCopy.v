(** Copies of caches: which programs that copy are defined, and what they do. *)
From Coq Require Import List Bool Arith Lia Permutation.
From Verif Require Import Base LruApi LruModel LruSpec LruProofs LruHistory.
Import ListNotations.

Section Copy.
Context {K V : Type}.
Variable ltb : K -> K -> bool.
Hypothesis swo : strict_weak_order ltb.
Local Notation eqk := (equivb ltb).
Local Notation cache := (cache (K:=K) (V:=V)).
Local Notation st := (st (K:=K) (V:=V)).
Local Notation scache := (scache (K:=K) (V:=V)).
Local Notation entry := (K * (V * nat))%type.
Local Notation eqk_refl := (eqk_refl ltb swo).
Local Notation eqk_sym := (eqk_sym ltb).
Local Notation eqk_subst := (eqk_subst ltb swo).

Definition is_stale (ks : list K) (k : K) : bool := existsb (eqk k) ks.
Lemma stale_subst ks k k' : eqk k k' = true -> is_stale ks k = is_stale ks k'.
Proof.
  intros E. unfold is_stale. induction ks as [|x ks IH]; [reflexivity|]. cbn [existsb].
  rewrite IH, (eqk_subst _ _ x E). reflexivity.
Qed.

(** two entries of maps that agree but for a stale iterator *)
Definition same (ks : list K) (e e' : entry) : Prop :=
  fst e = fst e' /\ fst (snd e) = fst (snd e') /\ (is_stale ks (fst e) = false -> snd (snd e) = snd (snd e')).

(** [s] is like [si], which has no stale iterators *)
Record D (ks : list K) (s si : st) : Prop := {
  d_nxt : nxt s = nxt si;
  d_cap : m_capacity (obj s) = m_capacity (obj si);
  d_list : m_list (obj s) = m_list (obj si);
  d_map : Forall2 (same ks) (m_map (obj s)) (m_map (obj si));
  d_fresh : forall x, In x (map fst (m_list (obj s))) -> x < nxt s;
  d_dangling : forall e, In e (m_map (obj s)) -> is_stale ks (fst e) = true ->
    snd (snd e) < nxt s /\ ~ In (snd (snd e)) (map fst (m_list (obj s)))
}.

Definition simr {A} (ks : list K) (x y : outcome (st * exn A)) : Prop :=
  match x, y with
  | Ret (s, Val a), Ret (si, Val a') => a = a' /\ D ks s si
  | Ub, Ub => True
  | OutOfFuel, OutOfFuel => True
  | _, _ => False
  end.
Lemma simr_bind {A B} ks (m mi : M A) (f fi : A -> M B) s si :
  simr ks (m s) (mi si) -> (forall a s' si', D ks s' si' -> simr ks (f a s') (fi a si')) ->
  simr ks (bind m f s) (bind mi fi si).
Proof.
  unfold simr, bind. destruct (m s) as [[s' [a|]]| | |], (mi si) as [[si' [a'|]]| | |]; try tauto.
  intros [-> H] F. apply F. exact H.
Qed.
Lemma simr_ret {A} ks (a : A) s si : D ks s si -> simr ks (ret a s) (ret a si).
Proof. intros H. split; [reflexivity|exact H]. Qed.

Lemma same_length ks (m mi : list entry) : Forall2 (same ks) m mi -> length m = length mi.
Proof. induction 1; cbn; congruence. Qed.
Lemma same_find ks k (m mi : list entry) : Forall2 (same ks) m mi ->
  match map_find ltb k m, map_find ltb k mi with
  | Some e, Some e' => same ks e e' /\ In e m /\ eqk k (fst e) = true
  | None, None => True
  | _, _ => False
  end.
Proof.
  unfold map_find. induction 1 as [|e e' m mi (S1 & S2 & S3) H IH]; [exact I|]. cbn [find]. rewrite <- S1.
  destruct (eqk k (fst e)) eqn:E; [unfold same; cbn; auto 6|].
  destruct (find _ m), (find _ mi); try exact IH. cbn. tauto.
Qed.
Lemma same_erase ks k (m mi : list entry) : Forall2 (same ks) m mi -> Forall2 (same ks) (map_erase ltb k m) (map_erase ltb k mi).
Proof.
  unfold map_erase. induction 1 as [|e e' m mi S H IH]; [constructor|]. cbn [filter]. destruct S as (S1 & S2 & S3). rewrite <- S1.
  destruct (negb _); [constructor; [unfold same; auto|]|]; exact IH.
Qed.
Lemma same_set ks k x (m mi : list entry) : Forall2 (same ks) m mi -> Forall2 (same ks) (map_set ltb k x m) (map_set ltb k x mi).
Proof.
  unfold map_set. induction 1 as [|e e' m mi S H IH]; [constructor|]. cbn [map]. constructor; [|exact IH].
  destruct S as (S1 & S2 & S3). rewrite <- S1. destruct (eqk k (fst e)); unfold same; cbn; auto.
Qed.
Lemma same_emplace ks k x (m mi : list entry) : Forall2 (same ks) m mi -> Forall2 (same ks) (map_emplace ltb k x m) (map_emplace ltb k x mi).
Proof.
  intros H. unfold map_emplace. pose proof (same_find ks k m mi H) as F.
  destruct (map_find ltb k m), (map_find ltb k mi); try contradiction; [exact H|].
  constructor; [unfold same; auto|exact H].
Qed.
Lemma in_erase k (m : list entry) e : In e (map_erase ltb k m) -> In e m.
Proof. unfold map_erase. rewrite filter_In. tauto. Qed.
Lemma in_set k x (m : list entry) e : In e (map_set ltb k x m) -> In e m \/ (eqk k (fst e) = true /\ snd e = x).
Proof.
  unfold map_set. rewrite in_map_iff. intros (y & E & Hy). destruct (eqk k (fst y)) eqn:F; subst; auto.
Qed.
Lemma in_emplace k x (m : list entry) e : In e (map_emplace ltb k x m) -> In e m \/ e = (k, x).
Proof. unfold map_emplace. destruct (map_find ltb k m); cbn; intuition. Qed.

(** the primitive changes *)
Lemma D_list ks s si (p : nat * K -> bool) : D ks s si ->
  D ks (mkSt (nxt s) (mkCache (m_capacity (obj s)) (filter p (m_list (obj s))) (m_map (obj s))))
       (mkSt (nxt si) (mkCache (m_capacity (obj si)) (filter p (m_list (obj si))) (m_map (obj si)))).
Proof.
  intros []. constructor; cbn; auto.
  - now rewrite d_list0.
  - intros x Hx. apply in_map_iff in Hx as (y & <- & Hy). apply filter_In in Hy as [Hy _]. apply d_fresh0, in_map, Hy.
  - intros e He Hs. destruct (d_dangling0 e He Hs) as [L N]. split; [exact L|]. intros Hx. apply N.
    apply in_map_iff in Hx as (y & <- & Hy). apply filter_In in Hy as [Hy _]. apply in_map, Hy.
Qed.
Lemma D_push ks s si k : D ks s si ->
  D ks (mkSt (S (nxt s)) (mkCache (m_capacity (obj s)) ((nxt s, k) :: m_list (obj s)) (m_map (obj s))))
       (mkSt (S (nxt si)) (mkCache (m_capacity (obj si)) ((nxt si, k) :: m_list (obj si)) (m_map (obj si)))).
Proof.
  intros []. constructor; cbn; auto.
  - now rewrite d_list0, d_nxt0.
  - intros x [<-|Hx]; [lia|]. apply d_fresh0 in Hx. lia.
  - intros e He Hs. destruct (d_dangling0 e He Hs) as [L N]. split; [lia|]. intros [E|Hx]; [lia|tauto].
Qed.
Lemma D_map ks s si m mi : D ks s si -> Forall2 (same ks) m mi ->
  (forall e, In e m -> In e (m_map (obj s)) \/ is_stale ks (fst e) = false) ->
  D ks (mkSt (nxt s) (mkCache (m_capacity (obj s)) (m_list (obj s)) m))
       (mkSt (nxt si) (mkCache (m_capacity (obj si)) (m_list (obj si)) mi)).
Proof.
  intros [] F H. constructor; cbn; auto. intros e He Hs. destruct (H e He) as [X|X]; [auto|congruence].
Qed.

Lemma get_bind {A} (f : cache -> M A) (s : st) : bind get_obj f s = f (obj s) s.
Proof. reflexivity. Qed.
Lemma list_erase_sim ks x s si : D ks s si -> simr ks (list_erase x s) (list_erase x si).
Proof.
  intros H. unfold list_erase, bind, get_obj. rewrite (d_list _ _ _ H).
  destruct (existsb _ (m_list (obj si))); [|exact I]. split; [reflexivity|].
  pose proof (D_list ks s si (fun z => negb (fst z =? x)) H) as H1. rewrite (d_list _ _ _ H) in H1 at 1. exact H1.
Qed.
Lemma evict_sim ks s si : D ks s si -> simr ks (evict_lru ltb s) (evict_lru ltb si).
Proof.
  intros H. unfold evict_lru. rewrite !get_bind. rewrite (d_list _ _ _ H).
  destruct (list_last (m_list (obj si))) as [[x k]|]; [|exact I].
  apply simr_bind; [|intros _ s' si'; apply list_erase_sim].
  split; [reflexivity|]. apply D_map; [exact H|apply same_erase, (d_map _ _ _ H)|].
  intros e He. left. eapply in_erase, He.
Qed.
Lemma evict_while_sim ks : forall fuel s si, D ks s si -> simr ks (evict_while ltb fuel s) (evict_while ltb fuel si).
Proof.
  induction fuel as [|fuel IH]; intros s si H; cbn [evict_while]; rewrite !get_bind;
    rewrite (d_cap _ _ _ H), (same_length _ _ _ (d_map _ _ _ H)); destruct (_ <? _); try exact I; try (apply simr_ret; exact H).
  apply simr_bind; [apply evict_sim; exact H|]. intros _ s' si'. apply IH.
Qed.
Lemma move_sim ks e s si : D ks s si -> is_stale ks (fst e) = false ->
  simr ks (move_to_front ltb no_fault e s) (move_to_front ltb no_fault e si).
Proof.
  intros H NS. unfold move_to_front. rewrite !get_bind. rewrite (d_list _ _ _ H).
  destruct (match list_begin _ with Some _ => _ | None => _ end); [apply simr_ret; exact H|].
  apply simr_bind; [apply list_erase_sim; exact H|]. intros _ s1 si1 H1.
  apply simr_bind; [split; [reflexivity|exact H1]|]. intros _ s2 si2 H2.
  apply simr_bind; [split; [reflexivity|apply D_push; exact H2]|]. intros _ s3 si3 H3.
  unfold bind, get_obj. rewrite (d_list _ _ _ H3). destruct (list_begin (m_list (obj si3))); [|exact I].
  split; [reflexivity|]. apply D_map; [exact H3|apply same_set, (d_map _ _ _ H3)|].
  intros e' He. apply in_set in He as [He|[E _]]; [auto|]. right. rewrite <- (stale_subst ks _ _ E). exact NS.
Qed.
Lemma no_throw {A} p (f : unit -> M A) (s : st) : bind (may_throw no_fault p) f s = f tt s.
Proof. reflexivity. Qed.
Lemma cap_bind {A} m (f : unit -> M A) (s : st) :
  bind (put_capacity m) f s = f tt (mkSt (nxt s) (mkCache m (m_list (obj s)) (m_map (obj s)))).
Proof. reflexivity. Qed.
Lemma erase_bind {A} x (f : unit -> M A) (s : st) : bind (list_erase x) f s =
  if existsb (fun z => fst z =? x) (m_list (obj s))
  then f tt (mkSt (nxt s) (mkCache (m_capacity (obj s)) (filter (fun z => negb (fst z =? x)) (m_list (obj s))) (m_map (obj s)))) else Ub.
Proof. unfold list_erase, bind, get_obj. destruct (existsb _ _); reflexivity. Qed.
Lemma insert_sim ks k v b s si : D ks s si -> (b = true -> is_stale ks k = false) ->
  (map_find ltb k (m_map (obj s)) = None -> is_stale ks k = false) ->
  simr ks (insert_impl ltb no_fault k v b s) (insert_impl ltb no_fault k v b si).
Proof.
  intros H NS NA. unfold insert_impl. rewrite !get_bind.
  pose proof (same_find ks k _ _ (d_map _ _ _ H)) as F.
  destruct (map_find ltb k (m_map (obj s))) as [e|] eqn:E1, (map_find ltb k (m_map (obj si))) as [e'|] eqn:E2; try contradiction.
  - destruct F as ((S1 & S2 & S3) & Hin & Ek). destruct b; [|apply simr_ret; exact H].
    assert (N : is_stale ks (fst e) = false) by (rewrite <- (stale_subst ks _ _ Ek); auto).
    rewrite <- S1, <- (S3 N). rewrite !no_throw.
    apply simr_bind.
    + split; [reflexivity|]. apply D_map; [exact H|apply same_set, (d_map _ _ _ H)|].
      intros z Hz. apply in_set in Hz as [Hz|[X _]]; [auto|]. right. rewrite <- (stale_subst ks _ _ X). exact N.
    + intros _ s2 si2 H2. apply simr_bind; [|intros _ s3 si3; apply simr_ret].
      apply move_sim; [exact H2|exact N].
  - rewrite (d_cap _ _ _ H), (same_length _ _ _ (d_map _ _ _ H)). destruct (negb _); [|apply simr_ret; exact H].
    apply simr_bind; [destruct (_ <=? _); [apply evict_sim|apply simr_ret]; exact H|]. intros _ s1 si1 H1. rewrite !no_throw.
    apply simr_bind; [split; [reflexivity|apply D_push; exact H1]|]. intros _ s2 si2 H2. rewrite !no_throw.
    unfold bind, get_obj. rewrite (d_list _ _ _ H2). destruct (list_begin (m_list (obj si2))); [|exact I].
    split; [reflexivity|]. apply D_map; [exact H2|apply same_emplace, (d_map _ _ _ H2)|].
    intros z Hz. apply in_emplace in Hz as [Hz|X]; [auto|]. right. rewrite X. cbn. auto.
Qed.
Lemma call_sim ks o s si : D ks s si -> (forall k, follows o = Some k -> is_stale ks k = false) ->
  (forall k, map_find ltb k (m_map (obj s)) = None -> is_stale ks k = false) ->
  simr ks (call ltb no_fault o s) (call ltb no_fault o si).
Proof.
  intros H NF NA. pose proof (d_map _ _ _ H) as DM.
  destruct o as [ | | |k| |m|k v|k v|k v0|k]; unfold call.
  - split; [|exact H]. f_equal. apply (same_length ks), DM.
  - split; [|exact H]. f_equal. apply (d_cap _ _ _ H).
  - split; [|exact H]. destruct DM; reflexivity.
  - split; [|exact H]. pose proof (same_find ks k _ _ DM) as F. unfold contains.
    destruct (map_find ltb k (m_map (obj s))), (map_find ltb k (m_map (obj si))); try contradiction; reflexivity.
  - split; [reflexivity|]. constructor; cbn; try apply H; try constructor; contradiction.
  - apply simr_bind; [|intros _ s1 si1; apply simr_ret]. unfold set_capacity.
    assert (H1 : D ks (mkSt (nxt s) (mkCache m (m_list (obj s)) (m_map (obj s)))) (mkSt (nxt si) (mkCache m (m_list (obj si)) (m_map (obj si))))).
    { constructor; cbn; try apply H. reflexivity. }
    rewrite !cap_bind, !get_bind. cbn [obj m_capacity m_list].
    rewrite (d_list _ _ _ H). rewrite (d_list _ _ _ H) in H1. destruct (m =? 0); [|apply evict_while_sim; exact H1].
    split; [reflexivity|]. constructor; cbn; try apply H; try constructor; contradiction.
  - apply simr_bind; [|intros a s1 si1; apply simr_ret]. apply insert_sim; [exact H|discriminate|apply NA].
  - apply simr_bind; [|intros a s1 si1; apply simr_ret]. apply insert_sim; [exact H|intros _; apply NF; reflexivity|apply NA].
  - apply simr_bind; [|intros a s1 si1; apply simr_ret]. unfold get. rewrite !get_bind.
    pose proof (same_find ks k _ _ DM) as F.
    destruct (map_find ltb k (m_map (obj s))) as [e|], (map_find ltb k (m_map (obj si))) as [e'|]; try contradiction; [|apply simr_ret; exact H].
    destruct F as ((S1 & S2 & S3) & Hin & Ek).
    assert (N : is_stale ks (fst e) = false) by (rewrite <- (stale_subst ks _ _ Ek); apply NF; reflexivity).
    assert (e' = e) as ->. { destruct e as [? [? ?]], e' as [? [? ?]]. cbn in *. rewrite S1, S2, (S3 N). reflexivity. }
    rewrite !no_throw. apply simr_bind; [apply move_sim; assumption|]. intros _ s1 si1. apply simr_ret.
  - apply simr_bind; [|intros a s1 si1; apply simr_ret]. unfold remove. rewrite !get_bind.
    pose proof (same_find ks k _ _ DM) as F.
    destruct (map_find ltb k (m_map (obj s))) as [e|], (map_find ltb k (m_map (obj si))) as [e'|]; try contradiction; [|apply simr_ret; exact H].
    destruct F as ((S1 & S2 & S3) & Hin & Ek).
    assert (N : is_stale ks (fst e) = false) by (rewrite <- (stale_subst ks _ _ Ek); apply NF; reflexivity).
    rewrite <- S1, <- (S3 N). rewrite !erase_bind, (d_list _ _ _ H).
    destruct (existsb _ (m_list (obj si))); [|exact I].
    apply simr_bind; [|intros _ s1 si1; apply simr_ret]. split; [reflexivity|].
    pose proof (D_list ks s si (fun z => negb (fst z =? snd (snd e))) H) as H1. rewrite (d_list _ _ _ H) in H1 at 1.
    apply (D_map ks _ _ _ _ H1); cbn; [apply same_erase, DM|]. intros z Hz. left. eapply in_erase, Hz.
Qed.

(** * Refinement *)
(** [c] stands for the cache [a] of the specification; the iterators of the keys [ks], all in the cache, are stale *)
Definition RC (n : nat) (c : cache) (a : scache) (ks : list K) : Prop :=
  (exists ci, R ltb n ci a /\ D ks (mkSt n c) (mkSt n ci)) /\
  (forall k, In k ks -> s_find ltb k (s_items a) <> None).

Lemma R_find n (c : cache) (a : scache) k : R ltb n c a -> map_find ltb k (m_map c) = None <-> s_find ltb k (s_items a) = None.
Proof.
  intros [l H]. rewrite (map_find_repr ltb swo _ _ _ _ k H), (s_find_repr ltb _ _ _ _ k H). destruct (find _ l); cbn; split; congruence.
Qed.
Lemma s_find_subst k k' (l : list (K * V)) : eqk k k' = true -> s_find ltb k l = s_find ltb k' l.
Proof.
  intros E. unfold s_find. induction l as [|x l IH]; [reflexivity|]. cbn. rewrite (eqk_subst _ _ _ E), IH. reflexivity.
Qed.
Lemma D_find ks s si k : D ks s si -> map_find ltb k (m_map (obj s)) = None <-> map_find ltb k (m_map (obj si)) = None.
Proof.
  intros H. pose proof (same_find ks k _ _ (d_map _ _ _ H)) as F.
  destruct (map_find ltb k (m_map (obj s))), (map_find ltb k (m_map (obj si))); try contradiction; split; congruence.
Qed.
Lemma D_weaken ks ks' s si : D ks s si -> (forall k, is_stale ks' k = true -> is_stale ks k = true) ->
  (forall e, In e (m_map (obj s)) -> is_stale ks (fst e) = true -> is_stale ks' (fst e) = true) -> D ks' s si.
Proof.
  intros [] H1 H2. constructor; auto. clear - d_map0 H2. induction d_map0 as [|e e' m mi (S1 & S2 & S3) F IH]; constructor.
  - split; [exact S1|]. split; [exact S2|]. intros N. apply S3. destruct (is_stale ks (fst e)) eqn:X; [|reflexivity].
    rewrite H2 in N; [discriminate|cbn; auto|exact X].
  - apply IH. intros z Hz. apply H2. cbn; auto.
Qed.
Definition still (a : scache) (k : K) : bool := if s_find ltb k (s_items a) then true else false.

(** a call that follows no stale iterator *)
Lemma call_good n (c : cache) (a : scache) ks o : RC n c a ks -> (forall k, follows o = Some k -> is_stale ks k = false) ->
  exists n' c', call ltb no_fault o (mkSt n c) = Ret (mkSt n' c', Val (snd (s_call ltb a o))) /\
    RC n' c' (fst (s_call ltb a o)) (filter (still (fst (s_call ltb a o))) ks) /\ n <= n'.
Proof.
  intros [(ci & HR & HD) HK] NF. destruct (call_refines ltb swo n ci a o HR) as (n' & ci' & r & E & -> & HR' & Ln).
  assert (NA : forall k, map_find ltb k (m_map (obj (mkSt n c))) = None -> is_stale ks k = false).
  { intros k Hk. apply (D_find _ _ _ _ HD) in Hk. apply (R_find _ _ _ _ HR) in Hk. destruct (is_stale ks k) eqn:X; [|reflexivity].
    apply existsb_exists in X as (k' & Hk' & Ek). rewrite (s_find_subst _ _ _ Ek) in Hk. exfalso. exact (HK _ Hk' Hk). }
  pose proof (call_sim ks o _ _ HD NF NA) as S. rewrite E in S. unfold simr in S.
  destruct (call ltb no_fault o (mkSt n c)) as [[[n1 c1] [r|]]| | |]; try contradiction. destruct S as [-> HD'].
  pose proof (d_nxt _ _ _ HD') as X. cbn in X. subst n1.
  exists n', c1. split; [reflexivity|]. split; [|exact Ln]. split.
  - exists ci'. split; [exact HR'|]. apply (D_weaken ks); [exact HD'| |].
    + intros k Hk. apply existsb_exists in Hk as (k' & Hk' & Ek). apply filter_In in Hk' as [Hk' _]. apply existsb_exists. eauto.
    + intros e He Hs. apply existsb_exists in Hs as (k' & Hk' & Ek). apply existsb_exists. exists k'. split; [|exact Ek].
      apply filter_In. split; [exact Hk'|]. unfold still. destruct (s_find ltb k' _) eqn:F; [reflexivity|]. exfalso.
      apply (R_find _ _ _ _ HR'), (D_find _ _ _ _ HD') in F. unfold map_find in F.
      pose proof (find_none _ _ F e He) as G. cbn in G. rewrite eqk_sym in G. congruence.
  - intros k Hk. apply filter_In in Hk as [_ Hk]. unfold still in Hk. destruct (s_find _ _ _); congruence.
Qed.

(** a call that follows a stale iterator *)
Lemma call_bad n (c : cache) (a : scache) ks o k : RC n c a ks -> follows o = Some k -> is_stale ks k = true ->
  call ltb no_fault o (mkSt n c) = Ub.
Proof.
  intros [(ci & HR & HD) HK] HF HS.
  assert (exists e, map_find ltb k (m_map c) = Some e) as (e & Ee).
  { destruct (map_find ltb k (m_map c)) as [e|] eqn:F; [eauto|]. exfalso.
    apply (D_find _ _ _ k HD), (R_find _ _ _ _ HR) in F. apply existsb_exists in HS as (k' & Hk' & Ek).
    rewrite (s_find_subst _ _ _ Ek) in F. exact (HK _ Hk' F). }
  assert (He := Ee). apply find_some in He as [He Ek].
  destruct (d_dangling _ _ _ HD e He) as [_ N]; [rewrite <- (stale_subst ks _ _ Ek); exact HS|]. cbn in N.
  assert (NE : existsb (fun z : nat * K => fst z =? snd (snd e)) (m_list c) = false).
  { destruct (existsb _ _) eqn:EX; [|reflexivity]. apply existsb_exists in EX as (z & Hz & Ez). apply Nat.eqb_eq in Ez.
    exfalso. apply N. rewrite <- Ez. apply in_map, Hz. }
  assert (MF : forall mm (e0 : entry), snd (snd e0) = snd (snd e) -> move_to_front ltb no_fault e0 (mkSt n (mkCache (m_capacity c) (m_list c) mm)) = Ub).
  { intros mm e0 E0. unfold move_to_front. rewrite get_bind. cbn [obj m_list]. rewrite E0.
    assert (NB : match list_begin (m_list c) with Some b => b =? snd (snd e) | None => false end = false).
    { destruct (m_list c); cbn in *; [reflexivity|]. apply orb_false_elim in NE as [NE _]. exact NE. }
    rewrite NB. unfold bind at 1. rewrite list_erase_ub; [reflexivity|]. exact NE. }
  assert (EC : c = mkCache (m_capacity c) (m_list c) (m_map c)) by (destruct c; reflexivity).
  destruct o; cbn in HF; try discriminate; injection HF as ->; unfold call; unfold bind at 1.
  - unfold insert_or_assign, insert_impl. rewrite get_bind. cbn [obj]. rewrite Ee, no_throw.
    unfold bind at 1. unfold put_map. unfold bind at 1. rewrite MF; reflexivity.
  - unfold get. rewrite get_bind. cbn [obj]. rewrite Ee, no_throw. unfold bind at 1. rewrite EC, MF; reflexivity.
  - unfold remove. rewrite get_bind. cbn [obj]. rewrite Ee. unfold bind at 1. rewrite list_erase_ub; [reflexivity|exact NE].
Qed.

(** * Copying *)
Fixpoint renumber (n : nat) (l : list (nat * (K * V))) : list (nat * (K * V)) :=
  match l with [] => [] | x :: l' => (n, snd x) :: renumber (S n) l' end.
Lemma renumber_nodes n l : map to_node (renumber n l) = fresh_nodes n (map to_node l).
Proof. revert n. induction l as [|x l IH]; intros n; [reflexivity|]. cbn. rewrite IH. reflexivity. Qed.
Lemma renumber_snd n l : map snd (renumber n l) = map snd l.
Proof. revert n. induction l as [|x l IH]; intros n; [reflexivity|]. cbn. rewrite IH. reflexivity. Qed.
Lemma renumber_ids n l : NoDup (map fst (renumber n l)) /\ Forall (fun x => n <= fst x < n + length l) (renumber n l).
Proof.
  revert n. induction l as [|x l IH]; intros n; [split; constructor|]. cbn. destruct (IH (S n)) as [I1 I2]. split.
  - constructor; [|exact I1]. intros H. apply in_map_iff in H as (y & E & Hy). rewrite Forall_forall in I2. specialize (I2 y Hy). lia.
  - constructor; [cbn; lia|]. eapply Forall_impl; [|exact I2]. cbn. intros; lia.
Qed.
Lemma renumber_apart n l : apart ltb l -> apart ltb (renumber n l).
Proof.
  intros A. unfold apart in *. revert n. induction A as [|x l F A IH]; intros n; [constructor|]. cbn. constructor; [|apply IH].
  clear - F. generalize (S n). induction F as [|y l Hy F IH]; intros m; [constructor|]. cbn. constructor; [exact Hy|apply IH].
Qed.
Definition like (e e' : entry) : Prop := fst e = fst e' /\ fst (snd e) = fst (snd e').
Lemma renumber_entries n l : Forall2 like (map to_entry l) (map to_entry (renumber n l)).
Proof. revert n. induction l as [|x l IH]; intros n; [constructor|]. cbn. constructor; [split; reflexivity|apply IH]. Qed.

Lemma RC_bound n (c : cache) (a : scache) ks e : RC n c a ks -> In e (m_map c) -> snd (snd e) < n.
Proof.
  intros [(ci & [l H] & HD) _] He. destruct (is_stale ks (fst e)) eqn:S; [apply (d_dangling _ _ _ HD e He S)|].
  pose proof (d_map _ _ _ HD) as F. cbn in F.
  assert (exists e', In e' (m_map ci) /\ same ks e e') as (e' & He' & S1 & S2 & S3).
  { clear - F He. induction F as [|x y m mi S F IH]; [contradiction|]. destruct He as [<-|He]; [exists y; cbn; auto|].
    destruct (IH He) as (e' & H1 & H2). exists e'. cbn; auto. }
  rewrite (S3 S). eapply Permutation_in in He'; [|apply (rep_map _ _ _ _ _ H)]. apply in_map_iff in He' as (x & <- & Hx).
  pose proof (rep_fresh _ _ _ _ _ H) as Fr. rewrite Forall_forall in Fr. apply Fr, Hx.
Qed.
Lemma RC_copy n (c : cache) (a : scache) ks : RC n c a ks ->
  RC (n + length (m_list c)) (copy_cache n c) a (map fst (s_items a)).
Proof.
  intros HC. assert (HC' := HC). destruct HC' as [(ci & [l H] & HD) HK].
  assert (EL : m_list c = map to_node l) by (rewrite <- (rep_list _ _ _ _ _ H); apply (d_list _ _ _ HD)).
  destruct (renumber_ids n l) as [I1 I2]. rewrite Forall_forall in I2.
  destruct (Permutation_Forall2 (Permutation_sym (rep_map _ _ _ _ _ H)) (renumber_entries n l)) as (mi & P & F).
  assert (AL : forall e, In e (m_map c) -> is_stale (map fst (s_items a)) (fst e) = true).
  { intros e He. destruct (D_find ks _ _ (fst e) HD) as [_ X]. cbn in X.
    destruct (s_find ltb (fst e) (s_items a)) as [y|] eqn:Y.
    - apply find_some in Y as [Y1 Y2]. apply existsb_exists. exists (fst y). split; [apply in_map, Y1|exact Y2].
    - exfalso. apply (R_find n ci a) in Y; [|exists l; exact H]. apply X in Y. pose proof (find_none _ _ Y e He) as G. cbn in G.
      rewrite eqk_refl in G. discriminate. }
  split.
  - exists (mkCache (m_capacity c) (map to_node (renumber n l)) mi). split.
    + exists (renumber n l). destruct H. constructor; cbn; auto.
      * apply Permutation_sym, P.
      * rewrite renumber_snd. exact rep_items.
      * pose proof (d_cap _ _ _ HD) as X. cbn in X. congruence.
      * apply renumber_apart, rep_keys.
      * rewrite EL, map_length. rewrite Forall_forall. intros x Hx. specialize (I2 x Hx). lia.
      * rewrite <- (map_length snd), renumber_snd, map_length. exact rep_bound.
    + constructor; cbn; auto.
      * rewrite renumber_nodes, EL. reflexivity.
      * pose proof (d_map _ _ _ HD) as F1. cbn in F1. revert AL. clear - F F1.
        revert mi F. induction F1 as [|x y m m' (S1 & S2 & _) F1 IH]; intros mi F AL; inversion F as [|? z ? mi' (T1 & T2) F' E1 E2]; subst; constructor.
        -- split; [congruence|]. split; [congruence|]. intros N. rewrite AL in N; [discriminate|cbn; auto].
        -- apply IH; [exact F'|]. intros e He. apply AL. cbn; auto.
      * rewrite EL, <- renumber_nodes, map_map, map_length. intros x Hx. apply in_map_iff in Hx as (y & <- & Hy). cbn. specialize (I2 y Hy). lia.
      * intros e He _. pose proof (RC_bound _ _ _ _ _ HC He) as B. split; [lia|].
        rewrite EL, <- renumber_nodes, map_map. intros Hx. apply in_map_iff in Hx as (y & E & Hy). cbn in E. specialize (I2 y Hy). lia.
  - intros k Hk. apply in_map_iff in Hk as (y & <- & Hy). intros N. pose proof (find_none _ _ N y Hy) as G. cbn in G. rewrite eqk_refl in G. discriminate.
Qed.

(** * Programs *)
Lemma D_mono ks n m c ci : n <= m -> D ks (mkSt n c) (mkSt n ci) -> D ks (mkSt m c) (mkSt m ci).
Proof.
  intros L []. cbn in *. constructor; cbn; auto.
  - intros x Hx. apply d_fresh0 in Hx. lia.
  - intros e He Hs. destruct (d_dangling0 e He Hs). split; [lia|assumption].
Qed.
Lemma RC_mono n m (c : cache) (a : scache) ks : n <= m -> RC n c a ks -> RC m c a ks.
Proof.
  intros L [(ci & HR & HD) HK]. split; [|exact HK]. exists ci. split; [eapply R_mono; eassumption|eapply D_mono; eassumption].
Qed.
Lemma RC_plain n (c : cache) (a : scache) : R ltb n c a -> RC n c a [].
Proof.
  intros H. split; [|intros k []]. exists c. split; [exact H|]. constructor; cbn; auto; [|  |discriminate].
  - clear H. induction (m_map c); constructor; [split; auto|assumption].
  - destruct H as [l H]. rewrite (rep_list _ _ _ _ _ H), map_map. intros x Hx. apply in_map_iff in Hx as (y & <- & Hy).
    pose proof (rep_fresh _ _ _ _ _ H) as F. rewrite Forall_forall in F. apply F, Hy.
Qed.
Lemma RC_moved n (c : cache) (a : scache) ks : RC n c a ks -> RC n (moved_from c) (mkS (s_cap a) []) [].
Proof.
  intros [(ci & HR & HD) _]. apply RC_plain. pose proof (R_moved ltb _ _ _ HR) as X.
  unfold moved_from in *. pose proof (d_cap _ _ _ HD) as C. cbn in C. rewrite C. exact X.
Qed.

Definition RWC (w : world (K:=K) (V:=V)) (sw : list (nat * scache)) (t : stales) : Prop :=
  Forall2 (fun x y => fst x = fst y /\ RC (w_nxt w) (snd x) (snd y) (t (fst y))) (w_objs w) sw.

Lemma RWC_get w sw t h : RWC w sw t ->
  match w_get h w, sw_get h sw with
  | Some c, Some a => RC (w_nxt w) c a (t h)
  | None, None => True
  | _, _ => False
  end.
Proof.
  unfold RWC, w_get, sw_get. destruct w as [n objs]. cbn. intros H.
  induction H as [|x y l1 l2 [E HR] H IH]; cbn; [exact I|].
  rewrite E. destruct (fst y =? h) eqn:X; [apply Nat.eqb_eq in X; subst h; exact HR|exact IH].
Qed.
Lemma RWC_del w sw t h n t' : w_nxt w <= n -> RWC w sw t -> (forall x, x <> h -> t' x = t x) ->
  Forall2 (fun x y => fst x = fst y /\ RC n (snd x) (snd y) (t' (fst y))) (w_del h (w_objs w))
          (filter (fun x => negb (fst x =? h)) sw).
Proof.
  unfold RWC, w_del. destruct w as [m objs]. cbn. intros L H T.
  induction H as [|x y l1 l2 [E HR] H IH]; cbn; [constructor|].
  rewrite E. destruct (fst y =? h) eqn:X; cbn; [exact IH|].
  constructor; [|exact IH]. split; [exact E|]. apply Nat.eqb_neq in X. rewrite (T _ X). eapply RC_mono; eassumption.
Qed.
Lemma RWC_set w sw t h n c a ks : w_nxt w <= n -> RWC w sw t -> RC n c a ks ->
  RWC (mkWorld n (w_objs (w_set h c w))) (sw_set h a sw) (st_upd h ks t).
Proof.
  intros L H HR. unfold RWC, w_set, sw_set. cbn. constructor.
  - cbn. split; [reflexivity|]. unfold st_upd. rewrite Nat.eqb_refl. exact HR.
  - apply (RWC_del w sw t); try assumption. intros x N. unfold st_upd. apply Nat.eqb_neq in N. rewrite N. reflexivity.
Qed.

Lemma wstep_good w sw t o : RWC w sw t -> misuse ltb sw t o = false ->
  exists w', wstep ltb w o = Ret (w', snd (sw_step ltb sw o)) /\ RWC w' (fst (sw_step ltb sw o)) (st_step ltb sw t o).
Proof.
  intros H NC. destruct o as [h cap|h o|h src|h src|h src|h src|h]; cbn.
  - pose proof (RWC_get w sw t h H) as G. destruct (w_get h w), (sw_get h sw); try contradiction; [eauto|].
    eexists. split; [reflexivity|]. cbn. apply (RWC_set w sw t h (w_nxt w)); auto. apply RC_plain, R_new.
  - pose proof (RWC_get w sw t h H) as G. cbn in NC. destruct (w_get h w) as [c|], (sw_get h sw) as [a|]; try contradiction; [|eauto].
    destruct (call_good (w_nxt w) c a (t h) o G) as (n1 & c1 & E & H1 & Ln).
    { intros k Hk. rewrite Hk in NC. exact NC. }
    rewrite E. eexists. split; [reflexivity|]. cbn. apply (RWC_set w sw t h n1); assumption.
  - pose proof (RWC_get w sw t h H) as G1. pose proof (RWC_get w sw t src H) as G2.
    destruct (w_get h w) as [c0|], (sw_get h sw) as [a0|], (w_get src w) as [c|], (sw_get src sw) as [a|];
      try contradiction; try (eexists; split; [reflexivity|]; assumption).
    eexists. split; [reflexivity|]. cbn.
    pose proof (RWC_set w sw t src (w_nxt w) _ _ _ (le_n _) H (RC_moved _ _ _ _ G2)) as H2.
    apply (RWC_set (w_set src (moved_from c) w) _ _ h (w_nxt w) _ _ _ (le_n _) H2). exact G2.
  - pose proof (RWC_get w sw t h H) as G1. pose proof (RWC_get w sw t src H) as G2.
    destruct (w_get h w) as [c0|], (sw_get h sw) as [a0|], (w_get src w) as [c|], (sw_get src sw) as [a|];
      try contradiction; try (eexists; split; [reflexivity|]; assumption).
    destruct (h =? src); [eexists; split; [reflexivity|]; assumption|].
    eexists. split; [reflexivity|]. cbn.
    pose proof (RWC_set w sw t src (w_nxt w) _ _ _ (le_n _) H (RC_moved _ _ _ _ G2)) as H2.
    apply (RWC_set (w_set src (moved_from c) w) _ _ h (w_nxt w) _ _ _ (le_n _) H2). exact G2.
  - pose proof (RWC_get w sw t h H) as G1. pose proof (RWC_get w sw t src H) as G2.
    destruct (w_get h w) as [c0|], (sw_get h sw) as [a0|], (w_get src w) as [c|], (sw_get src sw) as [a|];
      try contradiction; try (eexists; split; [reflexivity|]; assumption).
    eexists. split; [reflexivity|]. cbn.
    apply (RWC_set w sw t h (w_nxt w + length (m_list c))); [lia|exact H|]. eapply RC_copy, G2.
  - pose proof (RWC_get w sw t h H) as G1. pose proof (RWC_get w sw t src H) as G2.
    destruct (w_get h w) as [c0|] eqn:Eh, (sw_get h sw) as [a0|] eqn:Sh, (w_get src w) as [c|], (sw_get src sw) as [a|] eqn:Ss;
      try contradiction; try (eexists; split; [reflexivity|]; assumption).
    destruct (h =? src); [eexists; split; [reflexivity|]; assumption|].
    eexists. split; [reflexivity|]. cbn.
    apply (RWC_set w sw t h (w_nxt w + length (m_list c))); [lia|exact H|]. eapply RC_copy, G2.
  - eexists. split; [reflexivity|]. unfold RWC. cbn. apply (RWC_del w sw t); auto.
Qed.

Lemma wstep_bad w sw t o : RWC w sw t -> misuse ltb sw t o = true -> wstep ltb w o = Ub.
Proof.
  intros H M. destruct o as [h cap|h o|h src|h src|h src|h src|h]; cbn in M; try discriminate.
  cbn. pose proof (RWC_get w sw t h H) as G. destruct (w_get h w) as [c|], (sw_get h sw) as [a|]; try contradiction; try discriminate.
  destruct (follows o) as [k|] eqn:F; [|discriminate]. rewrite (call_bad _ _ _ _ _ _ G F M). reflexivity.
Qed.

Lemma wrun_copies : forall ops w sw t, RWC w sw t ->
  (misuses ltb sw t ops = false -> exists w', wrun ltb w ops = Ret (w', snd (sw_run ltb sw ops))) /\
  (misuses ltb sw t ops = true -> wrun ltb w ops = Ub).
Proof.
  induction ops as [|o ops IH]; intros w sw t H; cbn; [split; [eauto|discriminate]|].
  destruct (misuse ltb sw t o) eqn:M; cbn.
  - split; [discriminate|]. intros _. rewrite (wstep_bad _ _ _ _ H M). reflexivity.
  - destruct (wstep_good _ _ _ _ H M) as (w1 & E & H1). rewrite E. specialize (IH w1 _ _ H1).
    destruct (sw_step ltb sw o) as [sw1 r]. cbn in *. destruct (sw_run ltb sw1 ops) as [sw2 rs]. cbn in *. destruct IH as [IH1 IH2]. split; intros X.
    + destruct (IH1 X) as (w2 & ->). eauto.
    + rewrite (IH2 X). reflexivity.
Qed.
Lemma world_with_copies (ops : list (lru_wop K V)) :
  (misuses ltb [] (fun _ => []) ops = false -> exists w, wrun ltb empty_world ops = Ret (w, snd (sw_run ltb [] ops))) /\
  (misuses ltb [] (fun _ => []) ops = true -> wrun ltb empty_world ops = Ub).
Proof. apply wrun_copies. constructor. Qed.
End Copy.
