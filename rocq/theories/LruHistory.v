(** History-level facts about the LRU specification, and programs with several caches. *)
From Coq Require Import List Bool Arith Lia Permutation.
From Verif Require Import Base LruApi LruModel LruSpec LruProofs.
Import ListNotations.

Section History.
Context {K V : Type}.
Variable ltb : K -> K -> bool.
Hypothesis swo : strict_weak_order ltb.
Local Notation eqk := (equivb ltb).
Local Notation op := (lru_op K V).
Local Notation res := (lru_res V).
Local Notation eqk_refl := (eqk_refl ltb swo).
Local Notation eqk_sym := (eqk_sym ltb).
Local Notation eqk_subst := (eqk_subst ltb swo).

Lemma s_run_app : forall ops1 ops2 (a : scache (K:=K) (V:=V)),
  s_run ltb a (ops1 ++ ops2) =
  (fst (s_run ltb (fst (s_run ltb a ops1)) ops2),
   snd (s_run ltb a ops1) ++ snd (s_run ltb (fst (s_run ltb a ops1)) ops2)).
Proof.
  induction ops1 as [|o ops1 IH]; intros ops2 a; simpl.
  - destruct (s_run ltb a ops2); reflexivity.
  - destruct (s_call ltb a o) as [a' r].
    rewrite IH. destruct (s_run ltb a' ops1) as [a1 r1]. simpl.
    destruct (s_run ltb a1 ops2); reflexivity.
Qed.

Lemma s_run_length : forall ops (a : scache (K:=K) (V:=V)), length (snd (s_run ltb a ops)) = length ops.
Proof.
  induction ops as [|o ops IH]; intros a; simpl; [reflexivity|].
  destruct (s_call ltb a o) as [a' r]. specialize (IH a').
  destruct (s_run ltb a' ops); simpl in *. congruence.
Qed.

(** Specification-level invariant: keys apart, bounded by the capacity. *)
Definition s_apart (l : list (K * V)) : Prop :=
  ForallOrdPairs (fun x y => eqk (fst x) (fst y) = false) l.
Definition s_inv (a : scache (K:=K) (V:=V)) : Prop :=
  s_apart (s_items a) /\ length (s_items a) <= s_cap a.

Lemma R_inv n c a : R ltb n c a -> s_inv a.
Proof.
  intros [l H]. split.
  - rewrite (rep_items _ _ _ _ _ H). pose proof (rep_keys _ _ _ _ _ H) as A.
    unfold s_apart, apart in *. clear H. induction A; simpl; [constructor|].
    constructor; auto. rewrite Forall_forall in *. intros y Hy.
    apply in_map_iff in Hy as (z & <- & Hz). apply (H z Hz).
  - rewrite (rep_items _ _ _ _ _ H), map_length. apply (rep_bound _ _ _ _ _ H).
Qed.

Lemma s_inv_run cap ops : s_inv (fst (s_run ltb (mkS cap []) ops)).
Proof.
  destruct (run_new_refines ltb swo cap ops) as (n & c & _ & H). eapply R_inv; eassumption.
Qed.

Lemma s_inv_step a o : s_inv a -> s_inv (fst (s_call ltb a o)).
Proof.
  intros [A B].
  assert (SW : forall k l, s_apart l -> s_apart (s_without ltb k l)).
  { intros k l H. unfold s_without, s_apart in *. induction H; simpl; [constructor|].
    destruct (negb _); auto. constructor; auto.
    rewrite Forall_forall in *. intros y Hy. apply filter_In in Hy as [Hy _]. auto. }
  assert (FN : forall m l, s_apart l -> s_apart (firstn m l)).
  { intros m l H. unfold s_apart in *. revert m. induction H; intros [|m]; simpl; try constructor; auto.
    rewrite Forall_forall in *. intros y Hy. apply H.
    rewrite <- (firstn_skipn m l). apply in_or_app; auto. }
  assert (MF : forall k k' v l, s_apart l -> eqk k k' = true -> s_apart ((k', v) :: s_without ltb k l)).
  { intros k k' v l H E. constructor; [|apply SW; assumption].
    rewrite Forall_forall. intros y Hy. unfold s_without in Hy. apply filter_In in Hy as [_ Hy].
    apply negb_true_iff in Hy. simpl. rewrite <- (eqk_subst k) by assumption. assumption. }
  assert (LW : forall k l, length (s_without ltb k l) <= length (l : list (K*V))).
  { intros k l. unfold s_without. induction l; simpl; [lia|]. destruct (negb _); simpl; lia. }
  assert (LT : forall k l e, find (fun e => eqk k (fst e)) l = Some e ->
             length (s_without ltb k l) < length (l : list (K*V))).
  { intros k l e. unfold s_without. induction l as [|x l IH]; simpl; [discriminate|].
    destruct (eqk k (fst x)); simpl; intros H.
    - pose proof (LW k l). unfold s_without in *. lia.
    - apply IH in H. lia. }
  destruct o as [ | | |k| |m|k v|k v|k v0|k]; simpl; try (split; assumption).
  - split; simpl; [constructor|lia].
  - split; simpl; [apply FN; assumption|]. apply firstn_le_length.
  - destruct (s_find ltb k (s_items a)) eqn:F; [split; assumption|].
    split; cbn [fst s_items s_cap].
    + apply FN. constructor; [|assumption]. rewrite Forall_forall. intros y Hy.
      exact (find_none _ _ F y Hy).
    + apply firstn_le_length.
  - destruct (s_find ltb k (s_items a)) as [[k' v']|] eqn:F.
    + split; simpl.
      * apply MF; [assumption|]. apply find_some in F. apply F.
      * apply LT in F. lia.
    + split; cbn [fst s_items s_cap].
      * apply FN. constructor; [|assumption]. rewrite Forall_forall. intros y Hy.
        exact (find_none _ _ F y Hy).
      * apply firstn_le_length.
  - destruct (s_find ltb k (s_items a)) as [[k' v']|] eqn:F; [|split; assumption].
    split; simpl.
    * apply MF; [assumption|]. apply find_some in F. apply F.
    * apply LT in F. lia.
  - destruct (s_find ltb k (s_items a)) eqn:F; [|split; assumption].
    split; simpl; [apply SW; assumption|]. pose proof (LW k (s_items a)). lia.
Qed.

(** *** Latest stored value *)
Definition upd (k : K) (acc : option V) (h : op * res) : option V :=
  if discards ltb k (fst h) then None
  else match stores ltb k (fst h) (snd h) with Some v => Some v | None => acc end.

Lemma s_find_without k k' (l : list (K * V)) : eqk k k' = false ->
  s_find ltb k (s_without ltb k' l) = s_find ltb k l.
Proof.
  intros N. unfold s_find, s_without. induction l as [|x l IH]; simpl; [reflexivity|].
  destruct (eqk k' (fst x)) eqn:E; simpl.
  - destruct (eqk k (fst x)) eqn:E2; [|apply IH].
    exfalso. rewrite (eqk_sym k' (fst x)) in E. rewrite (eqk_subst _ _ _ E2), E in N. discriminate.
  - destruct (eqk k (fst x)); [reflexivity|apply IH].
Qed.

Lemma s_find_firstn k m (l : list (K * V)) e :
  s_find ltb k (firstn m l) = Some e -> s_find ltb k l = Some e.
Proof.
  unfold s_find. revert m. induction l as [|x l IH]; intros [|m]; simpl; try discriminate.
  destruct (eqk k (fst x)); [auto|apply IH].
Qed.

Lemma s_find_without_self k k' (l : list (K * V)) : eqk k k' = true ->
  s_find ltb k (s_without ltb k' l) = None.
Proof.
  intros E. unfold s_find, s_without. induction l as [|x l IH]; simpl; [reflexivity|].
  destruct (eqk k' (fst x)) eqn:E2; simpl; [apply IH|].
  rewrite (eqk_subst _ _ _ E), E2. apply IH.
Qed.

Lemma s_call_latest (a : scache (K:=K) (V:=V)) o k acc :
  (forall k' v, s_find ltb k (s_items a) = Some (k', v) -> acc = Some v) ->
  (forall k' v, s_find ltb k (s_items (fst (s_call ltb a o))) = Some (k', v) ->
                upd k acc (o, snd (s_call ltb a o)) = Some v).
Proof.
  intros H k' v. unfold upd.
  destruct o as [ | | |j| |m|j w|j w|j w|j]; simpl; try apply H.
  - discriminate.
  - intros F. destruct m as [|m]; [simpl in F; discriminate|]. simpl. apply s_find_firstn in F. eauto.
  - destruct (s_find ltb j (s_items a)) as [e|] eqn:F; cbn [fst snd s_items].
    + apply H.
    + intros G. apply s_find_firstn in G. unfold s_find in G. simpl in G.
      destruct (eqk k j).
      * congruence.
      * eapply H. exact G.
  - destruct (s_find ltb j (s_items a)) as [[j' w']|] eqn:F; cbn [fst snd s_items].
    + intros G. unfold s_find in G. simpl in G.
      apply find_some in F as [_ E]. simpl in E.
      rewrite eqk_sym, <- (eqk_subst j j') in G by assumption.
      rewrite (eqk_sym k j). destruct (eqk j k) eqn:EE; [congruence|].
      fold (s_find ltb k (s_without ltb j (s_items a))) in G.
      rewrite s_find_without in G by (rewrite eqk_sym; exact EE). eauto.
    + intros G. apply s_find_firstn in G. unfold s_find in G. simpl in G.
      destruct (eqk k j).
      * congruence.
      * eapply H. exact G.
  - destruct (s_find ltb j (s_items a)) as [[j' w']|] eqn:F; cbn [fst snd s_items]; [|apply H].
    intros G. unfold s_find in G. simpl in G. assert (F' := F).
    apply find_some in F as [_ E]. simpl in E.
    rewrite eqk_sym, <- (eqk_subst j j') in G by assumption.
    destruct (eqk j k) eqn:EE.
    + injection G as <- <-. apply (H j'). rewrite <- F'. unfold s_find.
      clear - EE swo. induction (s_items a); simpl; [reflexivity|].
      rewrite (eqk_subst _ _ _ EE). destruct (eqk k (fst a0)); auto.
    + fold (s_find ltb k (s_without ltb j (s_items a))) in G.
      rewrite s_find_without in G by (rewrite eqk_sym; exact EE). eauto.
  - destruct (s_find ltb j (s_items a)) as [e|] eqn:F; cbn [fst snd s_items].
    + intros G. destruct (eqk k j) eqn:E.
      * rewrite s_find_without_self in G by exact E. discriminate.
      * rewrite s_find_without in G by exact E. eauto.
    + intros G. destruct (eqk k j) eqn:E; [|eauto].
      exfalso. unfold s_find in *. apply find_some in G as [G1 G2].
      pose proof (find_none _ _ F _ G1) as N. cbv beta in N.
      rewrite <- (eqk_subst _ _ _ E) in N. congruence.
Qed.

Lemma s_run_latest : forall ops (a : scache (K:=K) (V:=V)) k acc,
  (forall k' v, s_find ltb k (s_items a) = Some (k', v) -> acc = Some v) ->
  (forall k' v, s_find ltb k (s_items (fst (s_run ltb a ops))) = Some (k', v) ->
     fold_left (upd k) (combine ops (snd (s_run ltb a ops))) acc = Some v).
Proof.
  induction ops as [|o ops IH]; intros a k acc H k' v; simpl; [apply H|].
  pose proof (s_call_latest a o k acc H) as H1.
  destruct (s_call ltb a o) as [a1 r]. simpl in H1.
  pose proof (IH a1 k _ H1 k' v) as H2.
  destruct (s_run ltb a1 ops) as [a2 rs]. simpl in *. exact H2.
Qed.

(** The accumulated value comes from one store after which nothing happened to the key. *)
Lemma fold_upd_inv k v : forall h, fold_left (upd k) h None = Some v ->
  exists pre o r post, h = pre ++ (o, r) :: post /\ stores ltb k o r = Some v /\
    (forall (o' : op) r', In (o', r') post -> stores ltb k o' r' = None /\ discards ltb k o' = false).
Proof.
  intros h. induction h as [|[o r] h IH] using rev_ind; simpl; [discriminate|].
  rewrite fold_left_app. simpl. unfold upd at 1. simpl.
  destruct (discards ltb k o) eqn:D; [discriminate|].
  destruct (stores ltb k o r) as [w|] eqn:S.
  - intros E. injection E as ->. exists h, o, r, []. split; [reflexivity|]. split; [exact S|].
    intros ? ? [].
  - intros E. destruct (IH E) as (pre & o1 & r1 & post & -> & S1 & P).
    exists pre, o1, r1, (post ++ [(o, r)]). split; [now rewrite <- app_assoc|].
    split; [exact S1|]. intros o' r' Hin. apply in_app_iff in Hin as [Hin|[[= <- <-]|[]]]; auto.
Qed.

Theorem get_latest cap ops k v0 v rs :
  snd (s_run ltb (mkS cap []) (ops ++ [Get k v0])) = rs ++ [RGet true v] ->
  exists pre (o : op) r post, combine ops rs = pre ++ (o, r) :: post /\ stores ltb k o r = Some v /\
    (forall (o' : op) r', In (o', r') post -> stores ltb k o' r' = None /\ discards ltb k o' = false).
Proof.
  rewrite s_run_app. cbn [snd]. intros E. simpl in E.
  set (a := fst (s_run ltb (mkS cap []) ops)) in *.
  destruct (s_find ltb k (s_items a)) as [[k' v']|] eqn:F; simpl in E;
    apply app_inj_tail in E as [E1 E2]; [|discriminate].
  injection E2 as <-. apply fold_upd_inv. rewrite <- E1.
  eapply s_run_latest; [|exact F]. simpl. discriminate.
Qed.

(** *** Survival of recently used keys *)
Lemma pigeon : forall (l : list (K * V)) (D : list K), s_apart l ->
  (forall x, In x l -> existsb (eqk (fst x)) D = true) -> length l <= length D.
Proof.
  induction l as [|x l IH]; intros D A H; simpl; [lia|].
  inversion A as [|? ? A1 A2]; subst.
  pose proof (H x (or_introl eq_refl)) as Hx. apply existsb_exists in Hx as (d & Hd & Ed).
  apply in_split in Hd as (D1 & D2 & ->).
  rewrite app_length. simpl.
  assert (length l <= length (D1 ++ D2)); [|rewrite app_length in *; lia].
  apply IH; [assumption|]. intros y Hy.
  pose proof (H y (or_intror Hy)) as Hy'. rewrite existsb_app in *. simpl in Hy'.
  rewrite Forall_forall in A1. specialize (A1 y Hy).
  destruct (eqk (fst y) d) eqn:E; [|exact Hy'].
  exfalso. rewrite (eqk_sym (fst y)) in E. rewrite (eqk_subst _ _ _ Ed), E in A1. discriminate.
Qed.

Definition split_at (k : K) (D : list K) (a : scache (K:=K) (V:=V)) : Prop :=
  exists l1 k' v l2, s_items a = l1 ++ (k', v) :: l2 /\ eqk k k' = true /\
    (forall x, In x l1 -> existsb (eqk (fst x)) D = true).

Lemma s_apart_app (l1 l2 : list (K * V)) : s_apart (l1 ++ l2) ->
  s_apart l1 /\ s_apart l2 /\ (forall x y, In x l1 -> In y l2 -> eqk (fst x) (fst y) = false).
Proof.
  unfold s_apart. induction l1 as [|a l1 IH]; simpl; intros H.
  - repeat split; auto; [constructor|contradiction].
  - inversion H as [|? ? H1 H2]; subst. apply IH in H2 as (A1 & A2 & A3).
    rewrite Forall_app in H1. destruct H1 as [H1 H1']. rewrite Forall_forall in H1'.
    repeat split; auto; [constructor; auto|]. intros x y [->|Hx] Hy; auto.
Qed.

Lemma s_find_some k (l : list (K * V)) e : s_find ltb k l = Some e -> In e l /\ eqk k (fst e) = true.
Proof. apply find_some. Qed.

Lemma existsb_eqk_subst a b D : eqk a b = true -> existsb (eqk a) D = existsb (eqk b) D.
Proof. intros E. induction D; simpl; [reflexivity|]. rewrite (eqk_subst _ _ _ E). congruence. Qed.

Lemma survive_step a o k D : s_inv a -> length D < s_cap a -> split_at k D a ->
  discards ltb k o = false -> resizes o = false ->
  (forall j, used_key o = Some j -> eqk k j = true \/ existsb (eqk j) D = true) ->
  split_at k D (fst (s_call ltb a o)) /\ s_cap (fst (s_call ltb a o)) = s_cap a.
Proof.
  intros [A B] LD (l1 & k' & v & l2 & EI & Ek & HD) Hd Hr Hu.
  assert (L1 : length l1 <= length D).
  { apply pigeon; auto. rewrite EI in A. apply s_apart_app in A. tauto. }
  assert (SELF : split_at k D a) by (exists l1, k', v, l2; auto).
  assert (FR : forall j w, (eqk k j = true \/ existsb (eqk j) D = true) ->
     forall j' w', s_find ltb j (s_items a) = Some (j', w') ->
     split_at k D (mkS (s_cap a) ((j', w) :: s_without ltb j (s_items a)))).
  { intros j w Hj j' w' F. apply s_find_some in F as [_ E]. simpl in E.
    destruct (eqk k j) eqn:Ekj.
    - exists [], j', w, (s_without ltb j (s_items a)). split; [reflexivity|]. split.
      + rewrite (eqk_subst _ _ _ Ekj). exact E.
      + intros ? [].
    - destruct Hj as [Hj|Hj]; [discriminate|].
      exists ((j', w) :: s_without ltb j l1), k', v, (s_without ltb j l2). simpl. split; [|split].
      + rewrite EI. unfold s_without at 1. rewrite filter_app. simpl.
        assert (E1 : eqk j k' = false).
        { rewrite eqk_sym, <- (eqk_subst k k') by assumption. exact Ekj. }
        rewrite E1. reflexivity.
      + exact Ek.
      + intros x [<-|Hx]; simpl.
        * rewrite <- (existsb_eqk_subst j j') by assumption. exact Hj.
        * unfold s_without in Hx. apply filter_In in Hx as [Hx _]. auto. }
  assert (NEW : forall j w, (eqk k j = true \/ existsb (eqk j) D = true) ->
     s_find ltb j (s_items a) = None ->
     split_at k D (mkS (s_cap a) (firstn (s_cap a) ((j, w) :: s_items a)))).
  { intros j w Hj F.
    destruct Hj as [Hj|Hj].
    { exfalso. unfold s_find in F. pose proof (find_none _ _ F (k', v)) as N. simpl in N.
      rewrite <- (eqk_subst _ _ _ Hj), Ek in N. rewrite EI in N.
      assert (true = false) by (apply N, in_or_app; simpl; auto). discriminate. }
    assert (L2 : length ((j, w) :: l1) <= length D).
    { apply pigeon.
      - rewrite EI in A. apply s_apart_app in A as (A1 & _ & _). constructor; [|exact A1].
        rewrite Forall_forall. intros y Hy. apply (find_none _ _ F y). rewrite EI.
        apply in_or_app; auto.
      - intros x [<-|Hx]; auto. }
    simpl in L2.
    destruct (s_cap a) as [|c] eqn:EC; [lia|]. simpl.
    exists ((j, w) :: l1), k', v, (firstn (c - length l1 - 1) l2). simpl. split; [|split].
    - f_equal. rewrite EI, firstn_app. rewrite firstn_all2 by lia. f_equal.
      destruct (c - length l1) as [|d] eqn:Ed; [lia|]. simpl. now rewrite Nat.sub_0_r.
    - exact Ek.
    - intros x [<-|Hx]; auto. }
  destruct o as [ | | |j| |m|j w|j w|j w|j]; simpl in *; try (split; [exact SELF|reflexivity]); try discriminate.
  - destruct (s_find ltb j (s_items a)) eqn:F; [split; [exact SELF|reflexivity]|].
    split; [apply NEW; auto|reflexivity].
  - destruct (s_find ltb j (s_items a)) as [[j' w']|] eqn:F; (split; [|reflexivity]).
    + eapply FR; eauto.
    + apply NEW; auto.
  - destruct (s_find ltb j (s_items a)) as [[j' w']|] eqn:F; [|split; [exact SELF|reflexivity]].
    split; [eapply FR; eauto|reflexivity].
  - destruct (s_find ltb j (s_items a)) eqn:F; [|split; [exact SELF|reflexivity]].
    split; [|reflexivity]. exists (s_without ltb j l1), k', v, (s_without ltb j l2). simpl. split; [|split].
    + rewrite EI. unfold s_without at 1. rewrite filter_app. simpl.
      assert (E1 : eqk j k' = false).
      { rewrite eqk_sym, <- (eqk_subst k k') by assumption. exact Hd. }
      rewrite E1. reflexivity.
    + exact Ek.
    + intros x Hx. unfold s_without in Hx. apply filter_In in Hx as [Hx _]. auto.
Qed.

Lemma survive_run : forall ops a k D, s_inv a -> length D < s_cap a -> split_at k D a ->
  (forall (o : op), In o ops -> discards ltb k o = false /\ resizes o = false /\
     (forall j, used_key o = Some j -> eqk k j = true \/ existsb (eqk j) D = true)) ->
  split_at k D (fst (s_run ltb a ops)).
Proof.
  induction ops as [|o ops IH]; intros a k D I L S H; simpl; [exact S|].
  destruct (H o (or_introl eq_refl)) as (H1 & H2 & H3).
  destruct (survive_step a o k D I L S H1 H2 H3) as [S1 C1].
  pose proof (s_inv_step a o I) as I1.
  destruct (s_call ltb a o) as [a1 r]. simpl in *.
  assert (split_at k D (fst (s_run ltb a1 ops))).
  { apply IH; auto. now rewrite C1. }
  destruct (s_run ltb a1 ops); assumption.
Qed.

Lemma split_at_contains k D a : split_at k D a -> snd (s_call ltb a (Contains k)) = RBool true.
Proof.
  intros (l1 & k' & v & l2 & EI & Ek & _). simpl. destruct (s_find ltb k (s_items a)) eqn:F; [reflexivity|].
  exfalso. unfold s_find in F. pose proof (find_none _ _ F (k', v)) as N. simpl in N.
  rewrite N in Ek; [discriminate|]. rewrite EI. apply in_or_app; simpl; auto.
Qed.

Lemma refreshes_front a o k : s_inv a -> s_cap a <> 0 -> refreshes ltb k o (snd (s_call ltb a o)) = true ->
  split_at k [] (fst (s_call ltb a o)).
Proof.
  intros I C H. destruct o as [ | | |j| |m|j w|j w|j w|j]; simpl in *; try discriminate.
  - destruct (s_find ltb j (s_items a)); simpl in *; [discriminate|].
    destruct (s_cap a) as [|c]; [lia|]. simpl.
    exists [], j, w, (firstn c (s_items a)). (split; [reflexivity|split; [assumption|intros ? []]]).
  - destruct (s_find ltb j (s_items a)) as [[j' w']|] eqn:F; simpl.
    + apply s_find_some in F as [_ E]. simpl in E.
      exists [], j', w, (s_without ltb j (s_items a)). (split; [reflexivity|split; [|intros ? []]]).
      rewrite (eqk_subst _ _ _ H). exact E.
    + destruct (s_cap a) as [|c]; [lia|]. simpl.
      exists [], j, w, (firstn c (s_items a)). (split; [reflexivity|split; [assumption|intros ? []]]).
  - destruct (s_find ltb j (s_items a)) as [[j' w']|] eqn:F; simpl in *; [|discriminate].
    apply s_find_some in F as [_ E]. simpl in E.
    exists [], j', w', (s_without ltb j (s_items a)). (split; [reflexivity|split; [|intros ? []]]).
    rewrite (eqk_subst _ _ _ H). exact E.
Qed.

Lemma split_at_weaken k D a : split_at k [] a -> split_at k D a.
Proof.
  intros (l1 & k' & v & l2 & EI & Ek & H). exists l1, k', v, l2. repeat split; auto.
  intros x Hx. specialize (H x Hx). discriminate.
Qed.

(** A key that was just used survives. *)
Theorem survive a o k D ops : s_inv a -> length D < s_cap a ->
  refreshes ltb k o (snd (s_call ltb a o)) = true ->
  (forall (o : op), In o ops -> discards ltb k o = false /\ resizes o = false /\
     (forall j, used_key o = Some j -> eqk k j = true \/ existsb (eqk j) D = true)) ->
  snd (s_call ltb (fst (s_run ltb (fst (s_call ltb a o)) ops)) (Contains k)) = RBool true.
Proof.
  intros I L Rf H. apply split_at_contains with (D := D).
  assert (EC : s_cap (fst (s_call ltb a o)) = s_cap a).
  { destruct o; simpl in *; try discriminate; destruct (s_find ltb k0 (s_items a)) as [[? ?]|]; reflexivity. }
  apply survive_run; auto.
  - apply s_inv_step; assumption.
  - now rewrite EC.
  - apply split_at_weaken, refreshes_front; auto. lia.
Qed.

(** *** Eviction of keys not used recently *)
Definition behind (k : K) (U : list K) (a : scache (K:=K) (V:=V)) : Prop :=
  forall l1 k' v l2, s_items a = l1 ++ (k', v) :: l2 -> eqk k k' = true ->
    forall u, In u U -> exists x, In x l1 /\ eqk u (fst x) = true.

Lemma firstn_split_prefix {A} m (l : list A) l1 x l2 :
  firstn m l = l1 ++ x :: l2 -> exists l2', l = l1 ++ x :: l2'.
Proof.
  intros H. exists (l2 ++ skipn m l). rewrite <- (firstn_skipn m l), H at 1.
  rewrite <- app_assoc. reflexivity.
Qed.

Lemma without_split j (l : list (K * V)) l1 x l2 :
  s_without ltb j l = l1 ++ x :: l2 -> exists m1 m2, l = m1 ++ x :: m2 /\ l1 = s_without ltb j m1.
Proof.
  revert l1. induction l as [|y l IH]; intros l1; unfold s_without; simpl.
  - destruct l1; discriminate.
  - destruct (eqk j (fst y)) eqn:E; simpl.
    + intros H. destruct (IH l1 H) as (m1 & m2 & -> & ->).
      exists (y :: m1), m2. split; [reflexivity|]. unfold s_without; simpl. now rewrite E.
    + destruct l1 as [|z l1]; simpl; intros H; injection H as -> H.
      * exists [], l. auto.
      * destruct (IH l1 H) as (m1 & m2 & -> & ->).
        exists (z :: m1), m2. split; [reflexivity|]. unfold s_without; simpl. now rewrite E.
Qed.

(** The key that the call certainly brings to the front. *)
Definition assigned (o : op) : list K := match o with InsertOrAssign j _ => [j] | _ => [] end.

Lemma behind_step a o k U : behind k U a -> removes o = false ->
  (forall j, used_key o = Some j -> eqk k j = false) ->
  behind k (U ++ assigned o) (fst (s_call ltb a o)).
Proof.
  intros HB Hr Hu.
  assert (FR : forall j w U', eqk k j = false -> (U' = [] \/ U' = [j]) ->
     forall j' w', s_find ltb j (s_items a) = Some (j', w') ->
     behind k (U ++ U') (mkS (s_cap a) ((j', w) :: s_without ltb j (s_items a)))).
  { intros j w U' N HU' j' w' F l1 k' v l2 EI Ek u Hu'. simpl in EI.
    apply s_find_some in F as [_ E]. simpl in E.
    destruct l1 as [|x l1]; simpl in EI; injection EI as EI0 EI.
    - exfalso. subst. rewrite eqk_sym in Ek.
      rewrite eqk_sym, (eqk_subst j k') in N by assumption. congruence.
    - apply without_split in EI as (m1 & m2 & E1 & E2).
      apply in_app_iff in Hu' as [Hu'|Hu'].
      + destruct (HB _ _ _ _ E1 Ek u Hu') as (y & Hy & Ey).
        destruct (eqk j (fst y)) eqn:Ejy.
        * exists x. split; [simpl; auto|]. subst x. simpl.
          rewrite eqk_sym in Ey. rewrite eqk_sym, <- (eqk_subst j j') by assumption.
          rewrite (eqk_subst _ _ _ Ejy). exact Ey.
        * exists y. split; [|assumption]. simpl. right. subst l1. unfold s_without.
          apply filter_In. split; [assumption|]. now rewrite Ejy.
      + destruct HU' as [->| ->]; [contradiction|]. destruct Hu' as [->|[]].
        exists x. split; [simpl; auto|]. subst x. exact E. }
  assert (NEW : forall j w U', eqk k j = false -> (U' = [] \/ U' = [j]) ->
     s_find ltb j (s_items a) = None ->
     behind k (U ++ U') (mkS (s_cap a) (firstn (s_cap a) ((j, w) :: s_items a)))).
  { intros j w U' N HU' F l1 k' v l2 EI Ek u Hu'. simpl in EI.
    apply firstn_split_prefix in EI as (l2' & EI).
    destruct l1 as [|x l1]; simpl in EI; injection EI as EI0 EI.
    - exfalso. subst. congruence.
    - apply in_app_iff in Hu' as [Hu'|Hu'].
      + destruct (HB _ _ _ _ EI Ek u Hu') as (y & Hy & Ey). exists y. simpl; auto.
      + destruct HU' as [->| ->]; [contradiction|]. destruct Hu' as [->|[]].
        exists x. split; [simpl; auto|]. subst x. apply eqk_refl. }
  destruct o as [ | | |j| |m|j w|j w|j w|j]; simpl in *; try discriminate;
    try (rewrite app_nil_r; exact HB).
  - destruct (s_find ltb j (s_items a)) eqn:F; [rewrite app_nil_r; exact HB|].
    apply NEW; auto.
  - destruct (s_find ltb j (s_items a)) as [[j' w']|] eqn:F.
    + eapply FR; eauto.
    + apply NEW; auto.
  - destruct (s_find ltb j (s_items a)) as [[j' w']|] eqn:F; [|rewrite app_nil_r; exact HB].
    eapply FR; eauto.
Qed.

Lemma behind_run : forall ops a k U, behind k U a ->
  (forall (o : op), In o ops -> removes o = false /\ (forall j, used_key o = Some j -> eqk k j = false)) ->
  behind k (U ++ flat_map assigned ops) (fst (s_run ltb a ops)) /\
  s_cap (fst (s_run ltb a ops)) = s_cap a.
Proof.
  induction ops as [|o ops IH]; intros a k U HB H; simpl.
  - rewrite app_nil_r. auto.
  - destruct (H o (or_introl eq_refl)) as [H1 H2].
    pose proof (behind_step a o k U HB H1 H2) as HB1.
    assert (C1 : s_cap (fst (s_call ltb a o)) = s_cap a).
    { destruct o; simpl in *; try discriminate; try reflexivity;
        destruct (s_find ltb _ (s_items a)) as [[? ?]|]; reflexivity. }
    destruct (s_call ltb a o) as [a1 r]. simpl in *.
    destruct (IH a1 k (U ++ assigned o) HB1) as [HB2 C2]; [auto|].
    destruct (s_run ltb a1 ops). simpl in *. rewrite app_assoc. split; [assumption|congruence].
Qed.

Lemma pigeon_keys : forall (D : list K) (l : list (K * V)),
  ForallOrdPairs (fun x y => eqk x y = false) D ->
  (forall d, In d D -> exists x, In x l /\ eqk d (fst x) = true) -> length D <= length l.
Proof.
  induction D as [|d D IH]; intros l A H; simpl; [lia|].
  inversion A as [|? ? A1 A2]; subst. rewrite Forall_forall in A1.
  destruct (H d (or_introl eq_refl)) as (x & Hx & Ex).
  apply in_split in Hx as (l1 & l2 & ->). rewrite app_length. simpl.
  assert (length D <= length (l1 ++ l2)); [|rewrite app_length in *; lia].
  apply IH; [assumption|]. intros e He. destruct (H e (or_intror He)) as (y & Hy & Ey).
  exists y. split; [|assumption]. apply in_app_iff in Hy as [Hy|[Hy|Hy]]; apply in_or_app; auto.
  exfalso. subst y. specialize (A1 e He). rewrite (eqk_subst _ _ _ Ex), eqk_sym, Ey in A1. discriminate.
Qed.

Theorem evicted a k D ops : s_inv a -> s_cap a <= length D ->
  ForallOrdPairs (fun x y => eqk x y = false) D ->
  (forall d, In d D -> exists d' v, In (InsertOrAssign d' v) ops /\ eqk d d' = true) ->
  (forall (o : op), In o ops -> removes o = false /\ (forall j, used_key o = Some j -> eqk k j = false)) ->
  snd (s_call ltb (fst (s_run ltb a ops)) (Contains k)) = RBool false.
Proof.
  intros I L A HD H.
  assert (HB : behind k [] a) by (intros ? ? ? ? ? ? ? []).
  destruct (behind_run ops a k [] HB H) as [HB2 C2]. simpl in HB2.
  assert (I2 : s_inv (fst (s_run ltb a ops))).
  { clear - I swo. revert a I. induction ops as [|o ops IH]; intros a I; simpl; [assumption|].
    pose proof (s_inv_step a o I) as I1. destruct (s_call ltb a o) as [a1 r]. simpl in I1.
    specialize (IH a1 I1). destruct (s_run ltb a1 ops); assumption. }
  simpl. destruct (s_find ltb k _) as [[k' v]|] eqn:F; [|reflexivity].
  exfalso. apply s_find_some in F as [F E]. apply in_split in F as (l1 & l2 & F). simpl in E.
  assert (length D <= length l1).
  { apply pigeon_keys; [assumption|]. intros d Hd.
    destruct (HD d Hd) as (d' & w & Hin & Ed).
    assert (Hf : In d' (flat_map assigned ops)).
    { apply in_flat_map. exists (InsertOrAssign d' w). simpl; auto. }
    destruct (HB2 _ _ _ _ F E d' Hf) as (x & Hx & Ex). exists x. split; [assumption|].
    rewrite (eqk_subst _ _ _ Ed). exact Ex. }
  destruct I2 as [_ B]. rewrite F, app_length in B. simpl in B. lia.
Qed.

(** *** Capacity 0 *)
Lemma zero_run : forall ops, (forall o, In o ops -> resizes o = false) ->
  s_run ltb (mkS 0 ([] : list (K * V))) ops = (mkS 0 [], map zero_result ops).
Proof.
  induction ops as [|o ops IH]; intros H; simpl; [reflexivity|].
  assert (E : s_call ltb (mkS 0 []) o = (mkS 0 [], zero_result o)).
  { specialize (H o (or_introl eq_refl)). destruct o; simpl in *; try reflexivity. discriminate. }
  rewrite E, IH; auto. intros o' Ho; apply H; simpl; auto.
Qed.

End History.

(** *** Several caches *)
Section World.
Context {K V : Type}.
Variable ltb : K -> K -> bool.
Hypothesis swo : strict_weak_order ltb.

Lemma R_mono n m c (a : scache (K:=K) (V:=V)) : n <= m -> R ltb n c a -> R ltb m c a.
Proof. intros L [l H]. exists l. destruct H. constructor; auto. eapply forall_weaken; eassumption. Qed.

Definition RW (w : world (K:=K) (V:=V)) (sw : list (nat * scache)) : Prop :=
  Forall2 (fun x y => fst x = fst y /\ R ltb (w_nxt w) (snd x) (snd y)) (w_objs w) sw.

Lemma RW_get w sw h : RW w sw ->
  match w_get h w, sw_get h sw with
  | Some c, Some a => R ltb (w_nxt w) c a
  | None, None => True
  | _, _ => False
  end.
Proof.
  unfold RW, w_get, sw_get. destruct w as [n objs]. simpl. intros H.
  induction H as [|x y l1 l2 [E HR] H IH]; simpl; [exact I|].
  rewrite E. destruct (fst y =? h); [exact HR|exact IH].
Qed.

Lemma RW_del w sw h n : w_nxt w <= n -> RW w sw ->
  Forall2 (fun x y => fst x = fst y /\ R ltb n (snd x) (snd y)) (w_del h (w_objs w))
          (filter (fun x => negb (fst x =? h)) sw).
Proof.
  unfold RW, w_del. destruct w as [m objs]. simpl. intros L H.
  induction H as [|x y l1 l2 [E HR] H IH]; simpl; [constructor|].
  rewrite E. destruct (fst y =? h); simpl; [exact IH|].
  constructor; [|exact IH]. split; [exact E|]. eapply R_mono; eassumption.
Qed.

Lemma RW_set w sw h n c a : w_nxt w <= n -> RW w sw -> R ltb n c a ->
  RW (mkWorld n (w_objs (w_set h c w))) (sw_set h a sw).
Proof.
  intros L H HR. unfold RW, w_set, sw_set. simpl. constructor; [auto|].
  apply (RW_del w); assumption.
Qed.

Lemma R_moved n c (a : scache (K:=K) (V:=V)) : R ltb n c a -> R ltb n (moved_from c) (mkS (s_cap a) []).
Proof. intros [l H]. exists []. destruct H. constructor; simpl; auto; try constructor. lia. Qed.

Lemma wstep_refines w sw o : RW w sw -> copies o = false ->
  exists w', wstep ltb w o = Ret (w', snd (sw_step ltb sw o)) /\ RW w' (fst (sw_step ltb sw o)).
Proof.
  intros H NC. destruct o as [h cap|h o|h src|h src|h src|h src|h]; simpl; try discriminate.
  - pose proof (RW_get w sw h H) as G. destruct (w_get h w), (sw_get h sw); try contradiction.
    + eauto.
    + eexists. split; [reflexivity|]. simpl. apply (RW_set w sw h (w_nxt w)); auto. apply R_new.
  - pose proof (RW_get w sw h H) as G. destruct (w_get h w) as [c|], (sw_get h sw) as [a|]; try contradiction.
    + destruct (call_refines ltb swo (w_nxt w) c a o G) as (n1 & c1 & r & E & Er & H1 & Ln).
      rewrite E. subst r. eexists. split; [reflexivity|]. simpl.
      apply (RW_set w sw h n1); assumption.
    + eauto.
  - pose proof (RW_get w sw h H) as G1. pose proof (RW_get w sw src H) as G2.
    destruct (w_get h w) as [c0|], (sw_get h sw) as [a0|], (w_get src w) as [c|], (sw_get src sw) as [a|];
      try contradiction; try (eexists; split; [reflexivity|]; assumption).
    eexists. split; [reflexivity|]. simpl.
    pose proof (RW_set w sw src (w_nxt w) _ _ (le_n _) H (R_moved _ _ _ G2)) as H2.
    apply (RW_set (w_set src (moved_from c) w) _ h (w_nxt w) _ _ (le_n _) H2). exact G2.
  - pose proof (RW_get w sw h H) as G1. pose proof (RW_get w sw src H) as G2.
    destruct (w_get h w) as [c0|], (sw_get h sw) as [a0|], (w_get src w) as [c|], (sw_get src sw) as [a|];
      try contradiction; try (eexists; split; [reflexivity|]; assumption).
    destruct (h =? src); [eexists; split; [reflexivity|]; assumption|].
    eexists. split; [reflexivity|]. simpl.
    pose proof (RW_set w sw src (w_nxt w) _ _ (le_n _) H (R_moved _ _ _ G2)) as H2.
    apply (RW_set (w_set src (moved_from c) w) _ h (w_nxt w) _ _ (le_n _) H2). exact G2.
  - eexists. split; [reflexivity|]. unfold RW. simpl. apply (RW_del w); auto.
Qed.

Theorem wrun_refines : forall ops w sw, RW w sw -> (forall o, In o ops -> copies o = false) ->
  exists w', wrun ltb w ops = Ret (w', snd (sw_run ltb sw ops)) /\ RW w' (fst (sw_run ltb sw ops)).
Proof.
  induction ops as [|o ops IH]; intros w sw H NC; simpl; [eauto|].
  destruct (wstep_refines w sw o H) as (w1 & E & H1); [apply NC; simpl; auto|].
  rewrite E. destruct (sw_step ltb sw o) as [sw1 r]. simpl in *.
  destruct (IH w1 sw1 H1) as (w2 & E2 & H2); [auto|].
  rewrite E2. destruct (sw_run ltb sw1 ops). simpl in *. eauto.
Qed.

(** Copies: using a key through the copy of a non-empty cache is undefined. *)
Lemma fresh_nodes_ids n (l : list (nat * K)) : Forall (fun x => n <= fst x) (fresh_nodes n l).
Proof.
  revert n. induction l as [|x l IH]; intros n; simpl; constructor; [simpl; lia|].
  eapply Forall_impl; [|apply IH]. simpl; intros; lia.
Qed.

Lemma list_erase_ub n (s : st (K:=K) (V:=V)) :
  existsb (fun x => fst x =? n) (m_list (obj s)) = false -> list_erase n s = Ub.
Proof. intros H. unfold list_erase, bind, get_obj. rewrite H. reflexivity. Qed.

Lemma copy_use_ub n c (a : scache (K:=K) (V:=V)) k m o :
  R ltb n c a -> n <= m -> s_find ltb k (s_items a) <> None ->
  (o = Remove k \/ (exists v0, o = Get k v0) \/ (exists v, o = InsertOrAssign k v)) ->
  call ltb no_fault o (mkSt m (copy_cache n c)) = Ub.
Proof.
  intros [l H] Lm F Ho.
  rewrite (s_find_repr _ _ _ _ _ _ H) in F.
  destruct (find (fun x => equivb ltb k (kf x)) l) as [x|] eqn:Fx; [|exfalso; apply F; reflexivity].
  assert (Hx := find_in ltb l k x Fx). destruct Hx as [Hx Ex].
  assert (Fi : fst x < n). { pose proof (rep_fresh _ _ _ _ _ H) as Fr. rewrite Forall_forall in Fr. auto. }
  assert (NE : existsb (fun z : nat * K => fst z =? fst x) (fresh_nodes n (m_list c)) = false).
  { pose proof (fresh_nodes_ids n (m_list c)) as FI. rewrite Forall_forall in FI.
    destruct (existsb _ _) eqn:EX; [|reflexivity]. apply existsb_exists in EX as (z & Hz & Ez).
    apply FI in Hz. apply Nat.eqb_eq in Ez. lia. }
  assert (EF : map_find ltb k (m_map c) = Some (to_entry x)).
  { rewrite (map_find_repr ltb swo _ _ _ _ k H), Fx. reflexivity. }
  assert (MF : forall mm (e : K * (V * nat)), snd (snd e) = fst x ->
     move_to_front ltb no_fault e (mkSt m (mkCache (m_capacity c) (fresh_nodes n (m_list c)) mm)) = Ub).
  { intros mm e Ee. unfold move_to_front. erewrite bind_val by reflexivity. cbn [obj m_list].
    assert (NB : match list_begin (fresh_nodes n (m_list c)) with Some b => b =? snd (snd e) | None => false end = false).
    { destruct (m_list c); simpl; [reflexivity|]. rewrite Ee. apply Nat.eqb_neq. lia. }
    rewrite NB. unfold bind at 1. rewrite list_erase_ub; [reflexivity|]. cbn [obj m_list]. rewrite Ee. exact NE. }
  destruct Ho as [->|[[v0 ->]|[v ->]]]; unfold call.
  - unfold bind at 1. unfold remove. erewrite bind_val by reflexivity. cbn [obj copy_cache m_map].
    rewrite EF. unfold bind at 1. rewrite list_erase_ub; [reflexivity|]. exact NE.
  - unfold bind at 1. unfold get. erewrite bind_val by reflexivity. cbn [obj copy_cache m_map].
    rewrite EF. erewrite bind_val by reflexivity. unfold bind at 1. unfold copy_cache. rewrite MF; reflexivity.
  - unfold bind at 1. unfold insert_or_assign, insert_impl. erewrite bind_val by reflexivity.
    cbn [obj copy_cache m_map]. rewrite EF. erewrite bind_val by reflexivity.
    erewrite bind_val by reflexivity. unfold bind at 1. cbn [obj nxt m_capacity m_list copy_cache]. rewrite MF; reflexivity.
Qed.

End World.
