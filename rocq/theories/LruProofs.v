(** Representation invariant of the lru_cache model and its refinement to [LruSpec]. *)
From Coq Require Import List Bool Arith Lia Permutation.
From Verif Require Import Base LruApi LruModel LruSpec.
Import ListNotations.

(** Generic list facts. *)
Lemma find_unique_some {A} (p : A -> bool) (l : list A) x :
  (forall a b, In a l -> In b l -> p a = true -> p b = true -> a = b) ->
  In x l -> p x = true -> find p l = Some x.
Proof.
  intros U Hin Hp. destruct (find p l) as [y|] eqn:E.
  - apply find_some in E as [Hy Hpy]. f_equal. apply U; assumption.
  - exfalso. pose proof (find_none _ _ E x Hin). congruence.
Qed.

Lemma find_perm {A} (p : A -> bool) (l l' : list A) :
  (forall a b, In a l -> In b l -> p a = true -> p b = true -> a = b) ->
  Permutation l l' -> find p l = find p l'.
Proof.
  intros U HP. destruct (find p l) as [x|] eqn:E.
  - apply find_some in E as [Hx Hpx]. symmetry. apply find_unique_some.
    + intros a b Ha Hb. apply U; eapply Permutation_in; try eassumption; now apply Permutation_sym.
    + eapply Permutation_in; eassumption.
    + assumption.
  - symmetry. destruct (find p l') as [y|] eqn:E'; [|reflexivity].
    apply find_some in E' as [Hy Hpy].
    rewrite (find_none _ _ E y) in Hpy; [discriminate|].
    eapply Permutation_in; [apply Permutation_sym|]; eassumption.
Qed.

Lemma filter_perm {A} (p : A -> bool) (l l' : list A) :
  Permutation l l' -> Permutation (filter p l) (filter p l').
Proof.
  induction 1; simpl.
  - constructor.
  - destruct (p x); [constructor|]; assumption.
  - destruct (p x), (p y); try apply Permutation_refl; constructor.
  - eapply perm_trans; eassumption.
Qed.

Lemma find_map {A B} (f : A -> B) (p : B -> bool) (l : list A) :
  find p (map f l) = option_map f (find (fun x => p (f x)) l).
Proof. induction l; simpl; [reflexivity|]. destruct (p (f a)); auto. Qed.

Lemma filter_map {A B} (f : A -> B) (p : B -> bool) (l : list A) :
  filter p (map f l) = map f (filter (fun x => p (f x)) l).
Proof. induction l; simpl; [reflexivity|]. destruct (p (f a)); simpl; congruence. Qed.

Lemma filter_all {A} (p : A -> bool) (l : list A) :
  (forall x, In x l -> p x = true) -> filter p l = l.
Proof.
  induction l; simpl; intros H; [reflexivity|].
  rewrite (H a) by auto. f_equal. apply IHl. auto.
Qed.

Lemma existsb_map {A B} (f : A -> B) (p : B -> bool) (l : list A) :
  existsb p (map f l) = existsb (fun x => p (f x)) l.
Proof. induction l; simpl; congruence. Qed.

Lemma last_snoc_case {A} (l : list A) : l = [] \/ exists l0 x, l = l0 ++ [x].
Proof.
  induction l as [|a l] using rev_ind; [auto|]. right. eauto.
Qed.

Section Refinement.
Context {K V : Type}.
Variable ltb : K -> K -> bool.
Hypothesis swo : strict_weak_order ltb.
Local Notation eqk := (equivb ltb).

Lemma eqk_refl k : eqk k k = true.
Proof. unfold equivb. now rewrite (swo_irrefl _ swo). Qed.
Lemma eqk_sym a b : eqk a b = eqk b a.
Proof. unfold equivb. apply andb_comm. Qed.
Lemma eqk_trans a b c : eqk a b = true -> eqk b c = true -> eqk a c = true.
Proof.
  unfold equivb. rewrite !andb_true_iff, !negb_true_iff. intros [? ?] [? ?].
  eapply (swo_incomp _ swo); eauto.
Qed.
Lemma eqk_subst a b c : eqk a b = true -> eqk a c = eqk b c.
Proof.
  intros H. apply eq_true_iff_eq. split; intros H1.
  - eapply eqk_trans; [|exact H1]. now rewrite eqk_sym.
  - eapply eqk_trans; eassumption.
Qed.

(** A list node together with its pair: (identity, (key, value)). *)
Notation item := (nat * (K * V))%type.
Definition kf (x : item) : K := fst (snd x).
Definition to_node (x : item) : nat * K := (fst x, fst (snd x)).
Definition to_entry (x : item) : K * (V * nat) := (fst (snd x), (snd (snd x), fst x)).

Definition apart (l : list item) : Prop := ForallOrdPairs (fun x y => eqk (kf x) (kf y) = false) l.

Record repr (n : nat) (c : cache (K:=K) (V:=V)) (a : scache (K:=K) (V:=V)) (l : list item) : Prop := {
  rep_list : m_list c = map to_node l;
  rep_map : Permutation (m_map c) (map to_entry l);
  rep_items : s_items a = map snd l;
  rep_cap : m_capacity c = s_cap a;
  rep_ids : NoDup (map fst l);
  rep_keys : apart l;
  rep_fresh : Forall (fun x => fst x < n) l;
  rep_bound : length l <= s_cap a
}.

Definition R (n : nat) (c : cache) (a : scache) : Prop := exists l, repr n c a l.

Lemma apart_unique l k : apart l -> forall x y, In x l -> In y l ->
  eqk k (kf x) = true -> eqk k (kf y) = true -> x = y.
Proof.
  intros H. induction H as [|a l Ha Hl IH]; intros x y Hx Hy Ex Ey; [contradiction|].
  rewrite Forall_forall in Ha.
  destruct Hx as [->|Hx], Hy as [->|Hy]; auto.
  - specialize (Ha _ Hy). rewrite <- (eqk_subst k) in Ha by assumption. congruence.
  - specialize (Ha _ Hx). rewrite <- (eqk_subst k) in Ha by assumption. congruence.
Qed.

Lemma apart_app l1 l2 : apart (l1 ++ l2) <->
  apart l1 /\ apart l2 /\ (forall x y, In x l1 -> In y l2 -> eqk (kf x) (kf y) = false).
Proof.
  unfold apart. induction l1 as [|a l1 IH]; simpl.
  - split; [intros H; repeat split; auto; try constructor; contradiction|tauto].
  - split.
    + intros H. inversion H as [|? ? H1 H2]; subst. apply IH in H2 as (A1 & A2 & A3).
      rewrite Forall_app in H1. destruct H1 as [H1 H1']. rewrite Forall_forall in H1'.
      repeat split; auto; [constructor; auto|].
      intros x y [->|Hx] Hy; auto.
    + intros (A1 & A2 & A3). inversion A1; subst. constructor.
      * rewrite Forall_app. split; auto. rewrite Forall_forall. auto.
      * apply IH. auto.
Qed.

Lemma apart_filter p l : apart l -> apart (filter p l).
Proof.
  intros H. induction H as [|a l Ha Hl IH]; simpl; [constructor|].
  destruct (p a); auto. constructor; auto.
  rewrite Forall_forall in *. intros x Hx. apply filter_In in Hx as [Hx _]. auto.
Qed.

Lemma nodup_fst_filter p (l : list item) : NoDup (map fst l) -> NoDup (map fst (filter p l)).
Proof.
  induction l as [|a l IH]; simpl; intros H; [constructor|].
  inversion H; subst. destruct (p a); auto. simpl. constructor; auto.
  intros Hin. apply in_map_iff in Hin as (y & E & Hy). apply filter_In in Hy as [Hy _].
  apply H2. rewrite <- E. now apply in_map.
Qed.

Lemma fst_unique (l : list item) : NoDup (map fst l) -> forall x y, In x l -> In y l ->
  fst x = fst y -> x = y.
Proof.
  induction l as [|a l IH]; simpl; intros H x y Hx Hy E; [contradiction|].
  inversion H; subst. destruct Hx as [->|Hx], Hy as [->|Hy]; auto.
  - exfalso. apply H2. rewrite E. now apply in_map.
  - exfalso. apply H2. rewrite <- E. now apply in_map.
Qed.

Definition without (k : K) (l : list item) : list item :=
  filter (fun x => negb (eqk k (kf x))) l.
Arguments without k l : simpl never.

Lemma erase_is_without l k x : NoDup (map fst l) -> apart l -> In x l -> eqk k (kf x) = true ->
  filter (fun y : item => negb (fst y =? fst x)) l = without k l.
Proof.
  intros N A Hx E. apply filter_ext_in. intros y Hy. f_equal.
  apply eq_true_iff_eq. rewrite Nat.eqb_eq. split; intros H.
  - rewrite (fst_unique l N y x Hy Hx H). assumption.
  - f_equal. eapply apart_unique; eassumption.
Qed.

Lemma map_find_repr n c a l k : repr n c a l ->
  map_find ltb k (m_map c) = option_map to_entry (find (fun x => eqk k (kf x)) l).
Proof.
  intros H. unfold map_find. rewrite (find_perm _ _ (map to_entry l)).
  - rewrite find_map. reflexivity.
  - intros e1 e2 H1 H2 P1 P2.
    eapply Permutation_in in H1; [|apply (rep_map _ _ _ _ H)].
    eapply Permutation_in in H2; [|apply (rep_map _ _ _ _ H)].
    apply in_map_iff in H1 as (x1 & <- & H1). apply in_map_iff in H2 as (x2 & <- & H2).
    f_equal. eapply (apart_unique l k); eauto using rep_keys.
  - apply (rep_map _ _ _ _ H).
Qed.

Lemma s_find_repr n c a l k : repr n c a l ->
  s_find ltb k (s_items a) = option_map snd (find (fun x => eqk k (kf x)) l).
Proof.
  intros H. unfold s_find. rewrite (rep_items _ _ _ _ H), find_map. reflexivity.
Qed.

Lemma s_without_repr k (l : list item) : s_without ltb k (map snd l) = map snd (without k l).
Proof. unfold s_without, without. rewrite filter_map. reflexivity. Qed.

Lemma map_erase_repr m (l : list item) k : Permutation m (map to_entry l) ->
  Permutation (map_erase ltb k m) (map to_entry (without k l)).
Proof.
  intros H. unfold map_erase. apply (filter_perm (fun e => negb (eqk k (fst e)))) in H.
  rewrite filter_map in H. exact H.
Qed.

Lemma length_map_repr n c a l : repr n c a l -> length (m_map c) = length l.
Proof. intros H. rewrite (Permutation_length (rep_map _ _ _ _ H)). apply map_length. Qed.

Lemma without_length_le k l : length (without k l) <= length l.
Proof. unfold without. induction l; simpl; [lia|]. destruct (negb _); simpl; lia. Qed.

Lemma without_length_lt l k x : In x l -> eqk k (kf x) = true -> length (without k l) < length l.
Proof.
  unfold without. induction l; simpl; [contradiction|].
  intros [->|H] E.
  - rewrite E. simpl. pose proof (without_length_le k l). unfold without in *. lia.
  - specialize (IHl H E). destruct (negb _); simpl; lia.
Qed.

Lemma in_without y k l : In y (without k l) <-> In y l /\ eqk k (kf y) = false.
Proof. unfold without. rewrite filter_In, negb_true_iff. tauto. Qed.

Lemma without_nop k l : (forall x, In x l -> eqk k (kf x) = false) -> without k l = l.
Proof. intros H. apply filter_all. intros x Hx. rewrite H; auto. Qed.

Lemma find_in l k x : find (fun x => eqk k (kf x)) l = Some x -> In x l /\ eqk k (kf x) = true.
Proof. apply find_some. Qed.

Lemma find_not l k : find (fun x : item => eqk k (kf x)) l = None ->
  forall x, In x l -> eqk k (kf x) = false.
Proof. intros H x. apply (find_none _ _ H). Qed.

(** evict_lru removes the last pair. *)
Lemma evict_spec n c a l x : repr n c a (l ++ [x]) ->
  exists c', evict_lru ltb (mkSt n c) = Ret (mkSt n c', Val tt) /\
             repr n c' (mkS (s_cap a) (map snd l)) l.
Proof.
  intros H. unfold evict_lru, bind, get_obj. cbn [obj].
  assert (EL : list_last (m_list c) = Some (to_node x)).
  { rewrite (rep_list _ _ _ _ H), map_app. simpl.
    destruct (map to_node l) as [|z t]; [reflexivity|]. simpl. now rewrite last_last. }
  rewrite EL. unfold to_node at 1.
  unfold put_map, list_erase, bind, get_obj; simpl.
  rewrite (rep_list _ _ _ _ H), existsb_map.
  assert (EX : existsb (fun y : item => fst (to_node y) =? fst x) (l ++ [x]) = true).
  { apply existsb_exists. exists x. split; [apply in_or_app; simpl; auto|].
    unfold to_node; simpl. apply Nat.eqb_refl. }
  rewrite EX. unfold put_list; simpl.
  assert (HA := rep_keys _ _ _ _ H). assert (HN := rep_ids _ _ _ _ H).
  assert (EW : without (kf x) (l ++ [x]) = l).
  { unfold without. rewrite filter_app. simpl. rewrite eqk_refl. simpl. rewrite app_nil_r.
    apply apart_app in HA as (_ & _ & HA). apply filter_all. intros y Hy.
    rewrite eqk_sym, (HA y x); simpl; auto. }
  eexists. split; [reflexivity|].
  constructor; simpl.
  - rewrite filter_map. f_equal.
    unfold to_node; simpl.
    rewrite (erase_is_without (l ++ [x]) (kf x) x HN HA).
    + apply EW.
    + apply in_or_app; simpl; auto.
    + apply eqk_refl.
  - pose proof (map_erase_repr _ _ (kf x) (rep_map _ _ _ _ H)) as P.
    rewrite EW in P. exact P.
  - reflexivity.
  - apply (rep_cap _ _ _ _ H).
  - rewrite map_app in HN. apply NoDup_remove_1 with (l' := []) (a := fst x) in HN.
    now rewrite app_nil_r in HN.
  - apply apart_app in HA. tauto.
  - pose proof (rep_fresh _ _ _ _ H) as F. apply Forall_app in F. tauto.
  - pose proof (rep_bound _ _ _ _ H) as B. rewrite app_length in B. simpl in B. lia.
Qed.

(** A weaker representation without the capacity bound, used inside capacity(n). *)
Lemma repr_recap n c a l m : repr n c a l -> length l <= m ->
  repr n (mkCache m (m_list c) (m_map c)) (mkS m (s_items a)) l.
Proof. intros [] B. constructor; simpl; auto. Qed.

Record repr' (n : nat) (c : cache (K:=K) (V:=V)) (m : nat) (l : list item) : Prop := {
  rep'_repr : repr n (mkCache (length l) (m_list c) (m_map c)) (mkS (length l) (map snd l)) l;
  rep'_cap : m_capacity c = m
}.

Lemma evict_spec' n c m l x : repr' n c m (l ++ [x]) ->
  exists c', evict_lru ltb (mkSt n c) = Ret (mkSt n c', Val tt) /\ repr' n c' m l.
Proof.
  intros [H Hc].
  assert (H2 := evict_spec _ _ _ _ _ H). destruct H2 as (c' & E & H2).
  exists (mkCache m (m_list c') (m_map c')). split.
  - revert E. unfold evict_lru, bind, get_obj, put_map, list_erase, bind, get_obj, put_list. simpl.
    destruct (list_last (m_list c)) as [[nn k]|]; [|discriminate].
    simpl. destruct (existsb _ _); [|discriminate].
    intros E. injection E as <-. simpl. rewrite Hc. reflexivity.
  - split; [|reflexivity]. simpl. destruct H2. constructor; simpl in *; auto.
Qed.

Lemma evict_while_spec : forall fuel n c m l, repr' n c m l -> m <> 0 -> length l <= fuel ->
  exists c', evict_while ltb fuel (mkSt n c) = Ret (mkSt n c', Val tt) /\ repr' n c' m (firstn m l).
Proof.
  induction fuel as [|fuel IH]; intros n c m l H Hm Hf.
  - destruct l; [|simpl in Hf; lia].
    simpl. unfold bind, get_obj. simpl.
    assert (length (m_map c) = 0).
    { destruct H as [H _]. apply length_map_repr in H. simpl in H. exact H. }
    rewrite H0. destruct (m_capacity c <? 0) eqn:E; [apply Nat.ltb_lt in E; lia|].
    rewrite firstn_nil. eexists; split; [reflexivity|assumption].
  - simpl. unfold bind at 1, get_obj at 1. simpl.
    assert (EL : length (m_map c) = length l).
    { destruct H as [H _]. apply length_map_repr in H. simpl in H. exact H. }
    rewrite EL, (rep'_cap _ _ _ _ H).
    destruct (m <? length l) eqn:E.
    + apply Nat.ltb_lt in E.
      destruct (last_snoc_case l) as [->|(l0 & x & ->)]; [simpl in E; lia|].
      destruct (evict_spec' _ _ _ _ _ H) as (c1 & E1 & H1).
      unfold bind. rewrite E1.
      rewrite app_length in Hf. simpl in Hf.
      destruct (IH n c1 m l0 H1 Hm) as (c2 & E2 & H2); [lia|].
      rewrite E2. exists c2. split; [reflexivity|].
      rewrite app_length in E. simpl in E.
      rewrite firstn_app. replace (m - length l0) with 0 by lia. simpl. rewrite app_nil_r. exact H2.
    + apply Nat.ltb_ge in E. unfold ret. eexists. split; [reflexivity|].
      rewrite firstn_all2 by lia. assumption.
Qed.

Lemma push_fresh n (l : list item) (kv : K * V) :
  Forall (fun x => fst x < n) l -> NoDup (map fst l) -> NoDup (map fst ((n, kv) :: l)).
Proof.
  intros F N. simpl. constructor; auto. intros Hin.
  apply in_map_iff in Hin as (y & E & Hy). rewrite Forall_forall in F. apply F in Hy. lia.
Qed.

Lemma forall_weaken n m (l : list item) : n <= m ->
  Forall (fun x => fst x < n) l -> Forall (fun x => fst x < m) l.
Proof. intros L. apply Forall_impl. intros; lia. Qed.

(** Updating the value of one key. *)
Lemma map_set_repr m (l : list item) x v b (k : K) :
  Permutation m (map to_entry l) -> apart l -> In x l -> eqk k (kf x) = true ->
  Permutation (map_set ltb k (v, b) m)
              ((kf x, (v, b)) :: map to_entry (without k l)).
Proof.
  intros P A Hx E.
  assert (P2 : Permutation (map_set ltb k (v, b) m) (map_set ltb k (v, b) (map to_entry l))).
  { unfold map_set. apply Permutation_map. exact P. }
  eapply perm_trans; [exact P2|]. clear P P2 m.
  apply in_split in Hx as (l1 & l2 & ->).
  apply apart_app in A as (A1 & A2 & A3). inversion A2; subst.
  assert (N1 : forall y, In y l1 -> eqk k (kf y) = false).
  { intros y Hy. rewrite (eqk_subst k (kf x)) by assumption. rewrite eqk_sym. apply A3; simpl; auto. }
  assert (N2 : forall y, In y l2 -> eqk k (kf y) = false).
  { intros y Hy. rewrite (eqk_subst k (kf x)) by assumption. rewrite Forall_forall in H1. auto. }
  assert (I : forall t, (forall y, In y t -> eqk k (kf y) = false) ->
             map_set ltb k (v, b) (map to_entry t) = map to_entry t).
  { intros t Ht. unfold map_set. rewrite map_map. apply map_ext_in. intros y Hy.
    unfold to_entry at 1. simpl. unfold kf in Ht. now rewrite Ht. }
  unfold map_set. rewrite map_app, map_app. simpl map.
  fold (map_set ltb k (v, b) (map to_entry l1)). fold (map_set ltb k (v, b) (map to_entry l2)).
  rewrite (I l1 N1), (I l2 N2). unfold kf in E. unfold to_entry at 2. simpl. rewrite E.
  unfold without. rewrite filter_app. simpl. unfold kf at 3. rewrite E. simpl.
  fold (without k l1). fold (without k l2).
  rewrite (without_nop k l1 N1), (without_nop k l2 N2), map_app.
  apply Permutation_sym, Permutation_middle.
Qed.

Lemma without_head k x l : apart (x :: l) -> eqk k (kf x) = true -> without k (x :: l) = l.
Proof.
  intros A E. unfold without. simpl. rewrite E. simpl. apply filter_all.
  intros y Hy. inversion A; subst. rewrite Forall_forall in H1.
  rewrite (eqk_subst k (kf x)) by assumption. now rewrite H1.
Qed.

Lemma apart_cons_without k x l : apart l -> eqk k (kf x) = true ->
  apart (x :: without k l).
Proof.
  intros A E. constructor.
  - rewrite Forall_forall. intros y Hy. apply in_without in Hy as [_ Hy].
    rewrite <- (eqk_subst k) by assumption. assumption.
  - now apply apart_filter.
Qed.

(** move_to_front makes the pair the first one. *)
Lemma move_to_front_spec n c a l x k : repr n c a l -> In x l -> eqk k (kf x) = true ->
  exists n' c' x', move_to_front ltb no_fault (to_entry x) (mkSt n c) = Ret (mkSt n' c', Val tt) /\
    repr n' c' (mkS (s_cap a) (map snd (x' :: without k l))) (x' :: without k l) /\ snd x' = snd x /\ n <= n'.
Proof.
  intros H Hx E. unfold move_to_front, bind, get_obj. cbn [obj].
  rewrite (rep_list _ _ _ _ H). simpl snd.
  destruct l as [|y l]; [contradiction|]. simpl list_begin. simpl.
  destruct (fst y =? fst x) eqn:Ey.
  - apply Nat.eqb_eq in Ey. assert (y = x).
    { eapply fst_unique; eauto using rep_ids. simpl; auto. }
    subst y. exists n, c, x. unfold ret. split; [reflexivity|].
    rewrite (without_head k x l (rep_keys _ _ _ _ H) E). split; [|auto].
    destruct H. constructor; simpl in *; auto.
  - unfold list_erase, bind, get_obj. cbn [obj]. rewrite (rep_list _ _ _ _ H).
    remember (y :: l) as L eqn:EqL; clear EqL.
    assert (EX : existsb (fun z => fst z =? fst x) (map to_node L) = true).
    { rewrite existsb_map. apply existsb_exists. exists x. split; auto.
      unfold to_node; simpl. apply Nat.eqb_refl. }
    rewrite EX. unfold put_list, may_throw, no_fault, list_push_front; simpl.
    exists (S n). eexists. exists (n, snd x). split; [reflexivity|].
    assert (EF : filter (fun z => negb (fst z =? fst x)) (map to_node L) = map to_node (without k L)).
    { rewrite filter_map. f_equal. unfold to_node; simpl.
      apply erase_is_without; eauto using rep_ids, rep_keys. }
    split; [|split; [reflexivity|lia]].
    constructor; simpl.
    + f_equal. exact EF.
    + unfold to_entry at 1. simpl.
      pose proof (map_set_repr _ _ _ (snd (snd x)) n (fst (snd x))
                   (rep_map _ _ _ _ H) (rep_keys _ _ _ _ H) Hx (eqk_refl _)) as P.
      eapply perm_trans; [exact P|]. unfold kf. constructor.
      replace (without (fst (snd x)) L) with (without k L); [reflexivity|].
      apply filter_ext_in. intros z Hz. f_equal. apply eqk_subst. exact E.
    + reflexivity.
    + apply (rep_cap _ _ _ _ H).
    + apply (push_fresh n (without k L) (snd x)).
      * pose proof (rep_fresh _ _ _ _ H) as F. rewrite Forall_forall in *.
        intros z Hz. apply in_without in Hz as [Hz _]. auto.
      * apply nodup_fst_filter. apply (rep_ids _ _ _ _ H).
    + apply (apart_cons_without k (n, snd x)); [apply (rep_keys _ _ _ _ H)|exact E].
    + constructor; [simpl; lia|].
      pose proof (rep_fresh _ _ _ _ H) as F. rewrite Forall_forall in *.
      intros z Hz. apply in_without in Hz as [Hz _]. specialize (F z Hz). lia.
    + pose proof (without_length_lt L k x Hx E). pose proof (rep_bound _ _ _ _ H). lia.
Qed.

(** Changing the stored value through the map only. *)
Lemma set_value_repr n c a l x k v : repr n c a l -> In x l -> eqk k (kf x) = true ->
  exists l', repr n (mkCache (m_capacity c) (m_list c) (map_set ltb (kf x) (v, fst x) (m_map c)))
                    (mkS (s_cap a) (map snd l')) l' /\
             In (fst x, (kf x, v)) l' /\ without k l' = without k l.
Proof.
  intros H Hx E.
  assert (Hx' := Hx). apply in_split in Hx' as (l1 & l2 & El).
  exists (l1 ++ (fst x, (kf x, v)) :: l2).
  assert (HA := rep_keys _ _ _ _ H). assert (HA' := HA). rewrite El in HA'.
  apply apart_app in HA' as (A1 & A2 & A3). inversion A2; subst.
  assert (N1 : forall y, In y l1 -> eqk k (kf y) = false).
  { intros y Hy. rewrite (eqk_subst k (kf x)) by assumption. rewrite eqk_sym. apply A3; simpl; auto. }
  assert (N2 : forall y, In y l2 -> eqk k (kf y) = false).
  { intros y Hy. rewrite (eqk_subst k (kf x)) by assumption. rewrite Forall_forall in H2. auto. }
  assert (EW : forall x0, eqk k (kf x0) = true -> without k (l1 ++ x0 :: l2) = l1 ++ l2).
  { intros x0 E0. unfold without. rewrite filter_app. simpl. rewrite E0. simpl.
    fold (without k l1) (without k l2). now rewrite (without_nop k l1), (without_nop k l2). }
  split; [|split].
  - destruct H. constructor; simpl.
    + rewrite rep_list0, !map_app. reflexivity.
    + eapply perm_trans.
      { apply (map_set_repr _ _ x v (fst x) (kf x) rep_map0 HA Hx (eqk_refl _)). }
      replace (without (kf x) (l1 ++ x :: l2)) with (without k (l1 ++ x :: l2)).
      2:{ apply filter_ext_in. intros z Hz. f_equal. now apply eqk_subst. }
      rewrite EW by assumption. rewrite !map_app. simpl map.
      unfold to_entry at 4. simpl. apply Permutation_middle.
    + reflexivity.
    + assumption.
    + rewrite map_app in *. exact rep_ids0.
    + apply apart_app. split; [assumption|]. split.
      * constructor; [|assumption]. exact H2.
      * intros z w Hz [<-|Hw]; [|apply A3; simpl; auto]. apply (A3 z x); simpl; auto.
    + rewrite Forall_app in *. destruct rep_fresh0 as [F1 F2]. inversion F2; subst. auto.
    + rewrite app_length in *. exact rep_bound0.
  - apply in_or_app; simpl; auto.
  - rewrite !EW; auto.
Qed.

Lemma bind_val {A B} (m : M A) (f : A -> M B) (s s' : st (K:=K) (V:=V)) a :
  m s = Ret (s', Val a) -> bind m f s = f a s'.
Proof. intros E. unfold bind. now rewrite E. Qed.

(** Inserting a key that is not present. *)
Lemma insert_absent n c a l k v b : repr n c a l -> find (fun x => eqk k (kf x)) l = None ->
  exists n' c', insert_impl ltb no_fault k v b (mkSt n c) = Ret (mkSt n' c', Val true) /\
    R n' c' (mkS (s_cap a) (firstn (s_cap a) ((k, v) :: s_items a))) /\ n <= n'.
Proof.
  intros H F. assert (HN := find_not _ _ F).
  unfold insert_impl. erewrite bind_val by reflexivity. cbn [obj].
  rewrite (map_find_repr _ _ _ _ k H), F. cbn [option_map].
  destruct (m_capacity c =? 0) eqn:E0; cbn [negb].
  - apply Nat.eqb_eq in E0. unfold ret. do 2 eexists. split; [reflexivity|].
    split; [|lia].
    exists []. pose proof (rep_cap _ _ _ _ H) as EC. rewrite E0 in EC.
    pose proof (rep_bound _ _ _ _ H) as B. rewrite <- EC in *. destruct l; [|simpl in B; lia].
    destruct H. constructor; simpl; auto.
  - apply Nat.eqb_neq in E0.
    assert (EV : exists c1 l1, (if m_capacity c <=? length (m_map c) then evict_lru ltb else ret tt) (mkSt n c)
             = Ret (mkSt n c1, Val tt) /\ repr n c1 (mkS (s_cap a) (map snd l1)) l1 /\
             S (length l1) <= s_cap a /\ l1 = firstn (pred (s_cap a)) l).
    { rewrite (length_map_repr _ _ _ _ H), (rep_cap _ _ _ _ H).
      pose proof (rep_bound _ _ _ _ H) as B.
      rewrite (rep_cap _ _ _ _ H) in E0.
      destruct (s_cap a <=? length l) eqn:EL.
      - apply Nat.leb_le in EL.
        destruct (last_snoc_case l) as [->|(l0 & x & ->)]; [simpl in *; lia|].
        destruct (evict_spec _ _ _ _ _ H) as (c1 & E1 & H1).
        exists c1, l0. split; [exact E1|]. split; [exact H1|].
        rewrite app_length in *. simpl in *. split; [lia|].
        rewrite firstn_app. replace (pred (s_cap a) - length l0) with 0 by lia.
        rewrite firstn_all2 by lia. simpl. now rewrite app_nil_r.
      - apply Nat.leb_gt in EL. exists c, l. split; [reflexivity|].
        split; [destruct H; constructor; simpl; auto|]. split; [lia|]. now rewrite firstn_all2 by lia. }
    destruct EV as (c1 & l1 & EV & H1 & B1 & EL1).
    erewrite bind_val by exact EV.
    unfold bind, may_throw, no_fault, list_push_front, get_obj, put_map, ret. simpl.
    assert (F1 : find (fun x => eqk k (kf x)) l1 = None).
    { destruct (find _ l1) as [z|] eqn:Fz; [|reflexivity]. apply find_some in Fz as [Hz Ez].
      subst l1. rewrite HN in Ez; [discriminate|]. rewrite <- (firstn_skipn (pred (s_cap a)) l). apply in_or_app; auto. }
    assert (EM : map_emplace ltb k (v, n) (m_map c1) = (k, (v, n)) :: m_map c1).
    { unfold map_emplace. rewrite (map_find_repr _ _ _ _ k H1), F1. reflexivity. }
    rewrite EM. do 2 eexists. split; [reflexivity|]. split; [|lia].
    exists ((n, (k, v)) :: l1).
    assert (H1' := H1). destruct H1'. constructor; simpl in *.
    + now rewrite rep_list0.
    + unfold to_entry at 1. simpl. constructor. assumption.
    + assert (EC : s_cap a = S (pred (s_cap a))) by lia.
      rewrite EC. simpl. f_equal. rewrite (rep_items _ _ _ _ H), EL1, firstn_map. reflexivity.
    + assumption.
    + apply push_fresh with (kv := (k, v)); assumption.
    + constructor; [|assumption]. rewrite Forall_forall. intros z Hz. unfold kf at 1; simpl.
      exact (find_not _ _ F1 z Hz).
    + constructor; [simpl; lia|]. eapply forall_weaken; [|eassumption]. lia.
    + lia.
Qed.

(** Every call refines the specification. *)
Theorem call_refines n c a o : R n c a ->
  exists n' c' r, call ltb no_fault o (mkSt n c) = Ret (mkSt n' c', Val r) /\
    r = snd (s_call ltb a o) /\ R n' c' (fst (s_call ltb a o)) /\ n <= n'.
Proof.
  intros [l H]. destruct o as [ | | |k| |m|k v|k v|k v0|k]; unfold call.
  - (* size *)
    unfold size, bind, get_obj, ret. simpl. do 3 eexists. split; [reflexivity|].
    split; [|split; [exists l; exact H|lia]]. simpl. rewrite (length_map_repr _ _ _ _ H), (rep_items _ _ _ _ H), map_length. reflexivity.
  - (* capacity *)
    unfold capacity, bind, get_obj, ret. simpl. do 3 eexists. split; [reflexivity|].
    split; [|split; [exists l; exact H|lia]]. simpl. now rewrite (rep_cap _ _ _ _ H).
  - (* empty *)
    unfold empty, bind, get_obj, ret. simpl. do 3 eexists. split; [reflexivity|].
    split; [|split; [exists l; exact H|lia]].
    rewrite (rep_items _ _ _ _ H), map_length.
    pose proof (length_map_repr _ _ _ _ H) as EL.
    destruct (m_map c); simpl in EL; rewrite <- EL; reflexivity.
  - (* contains *)
    unfold contains, bind, get_obj, ret. simpl. do 3 eexists. split; [reflexivity|].
    split; [|split; [exists l; exact H|lia]].
    rewrite (map_find_repr _ _ _ _ k H), (s_find_repr _ _ _ _ k H).
    destruct (find _ l); reflexivity.
  - (* clear *)
    unfold clear, bind, put_map, put_list, ret. simpl. do 3 eexists. split; [reflexivity|].
    split; [reflexivity|]. split; [|lia]. exists []. destruct H. constructor; simpl; auto; try constructor. lia.
  - (* capacity(m) *)
    unfold set_capacity, bind, put_capacity, get_obj. simpl.
    destruct m as [|m]; simpl.
    + unfold clear, bind, put_map, put_list, ret. simpl. do 3 eexists. split; [reflexivity|].
      split; [reflexivity|]. split; [|lia]. exists []. destruct H. constructor; simpl; auto; constructor.
    + rewrite (rep_list _ _ _ _ H), map_length.
      assert (H' : repr' n (mkCache (S m) (map to_node l) (m_map c)) (S m) l).
      { split; [|reflexivity]. simpl. destruct H. constructor; simpl; auto. }
      destruct (evict_while_spec (S (length l)) _ _ _ _ H') as (c' & E & H2); [lia|lia|].
      simpl in E. rewrite E. unfold ret. do 3 eexists. split; [reflexivity|].
      split; [reflexivity|]. split; [|lia]. exists (firstn (S m) l).
      destruct H2 as [H2 Hc]. destruct H2. constructor; simpl in *; auto.
      * rewrite (rep_items _ _ _ _ H). destruct l; [reflexivity|]. simpl. now rewrite firstn_map.
      * pose proof (firstn_le_length (S m) l). simpl in H0. exact (firstn_le_length (S m) l).
  - (* insert *)
    unfold insert. simpl s_call. rewrite (s_find_repr _ _ _ _ k H).
    destruct (find _ l) as [x|] eqn:F; cbn [option_map].
    + unfold insert_impl, bind, get_obj. cbn [obj].
      rewrite (map_find_repr _ _ _ _ k H), F. simpl.
      unfold ret. simpl. do 3 eexists. split; [reflexivity|]. split; [reflexivity|].
      split; [exists l; exact H|lia].
    + destruct (insert_absent n c a l k v false H F) as (n1 & c1 & E & H1 & Ln).
      erewrite bind_val by exact E. unfold ret. do 3 eexists. split; [reflexivity|].
      split; [reflexivity|]. split; [exact H1|exact Ln].
  - (* insert_or_assign *)
    unfold insert_or_assign. simpl s_call. rewrite (s_find_repr _ _ _ _ k H).
    destruct (find _ l) as [x|] eqn:F; cbn [option_map].
    + assert (F' := F). apply find_in in F as [Hx E].
      destruct (set_value_repr n c a l x k v H Hx E) as (l' & H' & Hx' & EW).
      destruct (move_to_front_spec n _ _ l' (fst x, (kf x, v)) k H' Hx' E) as (n2 & c2 & x2 & EM & H2 & Es & Ln).
      assert (EI : insert_impl ltb no_fault k v true (mkSt n c) = Ret (mkSt n2 c2, Val false)).
      { unfold insert_impl. erewrite bind_val by reflexivity. cbn [obj].
        rewrite (map_find_repr _ _ _ _ k H), F'. cbn [option_map].
        erewrite bind_val by reflexivity. erewrite bind_val by reflexivity.
        erewrite bind_val by exact EM. reflexivity. }
      erewrite bind_val by exact EI. unfold ret.
      destruct x as [nx [kx vx]]. simpl.
      do 3 eexists. split; [reflexivity|]. split; [reflexivity|]. split; [|exact Ln].
      exists (x2 :: without k l'). simpl in *. rewrite (rep_items _ _ _ _ H), s_without_repr.
      rewrite <- EW. rewrite Es in H2. exact H2.
    + destruct (insert_absent n c a l k v true H F) as (n1 & c1 & E & H1 & Ln).
      erewrite bind_val by exact E. unfold ret. do 3 eexists. split; [reflexivity|].
      split; [reflexivity|]. split; [exact H1|exact Ln].
  - (* get *)
    simpl s_call. rewrite (s_find_repr _ _ _ _ k H).
    destruct (find _ l) as [x|] eqn:F; cbn [option_map].
    + assert (F' := F). apply find_in in F as [Hx E].
      destruct (move_to_front_spec n c a l x k H Hx E) as (n2 & c2 & x2 & EM & H2 & Es & Ln).
      assert (EI : get ltb no_fault k v0 (mkSt n c) = Ret (mkSt n2 c2, Val (true, snd (snd x)))).
      { unfold get. erewrite bind_val by reflexivity. cbn [obj].
        rewrite (map_find_repr _ _ _ _ k H), F'. cbn [option_map].
        erewrite bind_val by reflexivity. erewrite bind_val by exact EM. reflexivity. }
      erewrite bind_val by exact EI. unfold ret.
      destruct x as [nx [kx vx]]. simpl. do 3 eexists. split; [reflexivity|]. split; [reflexivity|].
      split; [|exact Ln]. exists (x2 :: without k l). simpl in *.
      rewrite (rep_items _ _ _ _ H), s_without_repr. rewrite Es in H2. exact H2.
    + unfold get, bind, get_obj. cbn [obj].
      rewrite (map_find_repr _ _ _ _ k H), F. simpl.
      unfold ret. simpl. do 3 eexists. split; [reflexivity|]. split; [reflexivity|].
      split; [exists l; exact H|lia].
  - (* remove *)
    simpl s_call. rewrite (s_find_repr _ _ _ _ k H).
    destruct (find _ l) as [x|] eqn:F; cbn [option_map].
    + assert (F' := F). apply find_in in F as [Hx E].
      assert (EX : existsb (fun z => fst z =? snd (snd (to_entry x))) (map to_node l) = true).
      { rewrite existsb_map. apply existsb_exists. exists x. split; auto.
        unfold to_node; simpl. apply Nat.eqb_refl. }
      assert (EI : remove ltb k (mkSt n c) =
        Ret (mkSt n (mkCache (m_capacity c) (map to_node (without k l))
                             (map_erase ltb (kf x) (m_map c))), Val true)).
      { unfold remove. erewrite bind_val by reflexivity. cbn [obj].
        rewrite (map_find_repr _ _ _ _ k H), F'. cbn [option_map].
        unfold list_erase, bind, get_obj. cbn [obj]. rewrite (rep_list _ _ _ _ H), EX.
        unfold put_list, put_map, ret; cbn [obj nxt m_capacity m_list m_map].
        do 5 f_equal.
        rewrite filter_map. f_equal. unfold to_node; simpl.
        apply erase_is_without; eauto using rep_ids, rep_keys. }
      erewrite bind_val by exact EI. unfold ret; simpl.
      do 3 eexists. split; [reflexivity|]. split; [reflexivity|]. split; [|lia].
      exists (without k l). constructor; simpl.
      * reflexivity.
      * pose proof (map_erase_repr _ _ (kf x) (rep_map _ _ _ _ H)) as P.
        replace (without k l) with (without (kf x) l); [exact P|].
        apply filter_ext_in. intros z Hz. f_equal. symmetry. now apply eqk_subst.
      * rewrite (rep_items _ _ _ _ H). apply s_without_repr.
      * apply (rep_cap _ _ _ _ H).
      * apply nodup_fst_filter. apply (rep_ids _ _ _ _ H).
      * apply apart_filter. apply (rep_keys _ _ _ _ H).
      * pose proof (rep_fresh _ _ _ _ H) as FF. rewrite Forall_forall in *.
        intros z Hz. apply in_without in Hz as [Hz _]. auto.
      * pose proof (without_length_le k l). pose proof (rep_bound _ _ _ _ H). lia.
    + unfold remove, bind, get_obj. cbn [obj].
      rewrite (map_find_repr _ _ _ _ k H), F. simpl.
      unfold ret. simpl. do 3 eexists. split; [reflexivity|]. split; [reflexivity|].
      split; [exists l; exact H|lia].
Qed.

Lemma R_new n cap : R n (new_cache cap) (mkS cap []).
Proof. exists []. constructor; simpl; auto; try constructor. lia. Qed.

(** Any sequence of calls refines the specification. *)
Theorem run_refines : forall ops n c a, R n c a ->
  exists n' c', run_ops ltb (mkSt n c) ops = Ret (mkSt n' c', snd (s_run ltb a ops)) /\
    R n' c' (fst (s_run ltb a ops)).
Proof.
  induction ops as [|o ops IH]; intros n c a H; simpl.
  - eauto.
  - destruct (call_refines n c a o H) as (n1 & c1 & r & E & Er & H1 & _).
    rewrite E. destruct (s_call ltb a o) as [a1 r1] eqn:Es. simpl in *. subst r1.
    destruct (IH n1 c1 a1 H1) as (n2 & c2 & E2 & H2). rewrite E2.
    destruct (s_run ltb a1 ops) as [a2 rs] eqn:Er2. simpl in *. eauto.
Qed.

Theorem run_new_refines cap ops :
  exists n' c', run_new ltb cap ops = Ret (mkSt n' c', snd (s_run ltb (mkS cap []) ops)) /\
    R n' c' (fst (s_run ltb (mkS cap []) ops)).
Proof. apply run_refines, R_new. Qed.

End Refinement.
