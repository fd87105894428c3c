(** Exceptions inside lru_cache calls. *)
From Coq Require Import List Bool Arith Lia Permutation.
From Verif Require Import Base LruApi LruModel LruSpec LruProofs LruHistory.
Import ListNotations.

Section Faults.
Context {K V : Type}.
Variable ltb : K -> K -> bool.
Hypothesis swo : strict_weak_order ltb.
Local Notation eqk := (equivb ltb).

(** The two program points after which the object is inconsistent do not throw. *)
Definition harmless (f : faults) : Prop := f PEmplace = false /\ f PMovePush = false.

Lemma move_to_front_nofault f e (s : st (K:=K) (V:=V)) : f PMovePush = false ->
  move_to_front ltb f e s = move_to_front ltb no_fault e s.
Proof.
  intros H. unfold move_to_front, bind, get_obj. cbn [obj].
  destruct (match list_begin (m_list (obj s)) with Some b => b =? snd (snd e) | None => false end); [reflexivity|].
  destruct (list_erase (snd (snd e)) s) as [[s1 [[]|]]| | |]; try reflexivity.
  unfold may_throw, no_fault. rewrite H. reflexivity.
Qed.

Lemma bind_same {A B} (m1 m2 : M A) (g : A -> M B) (s : st (K:=K) (V:=V)) :
  m1 s = m2 s -> bind m1 g s = bind m2 g s.
Proof. intros E. unfold bind. now rewrite E. Qed.

Lemma evict_before n c (a : scache (K:=K) (V:=V)) l k : repr ltb n c a l -> find (fun x => eqk k (kf x)) l = None ->
  m_capacity c <> 0 ->
  exists c1, (if m_capacity c <=? length (m_map c) then evict_lru ltb else ret tt) (mkSt n c)
           = Ret (mkSt n c1, Val tt) /\ R ltb n c1 (mkS (s_cap a) (firstn (s_cap a - 1) (s_items a))).
Proof.
  intros H F E0.
  rewrite (length_map_repr _ _ _ _ _ H), (rep_cap _ _ _ _ _ H).
  pose proof (rep_bound _ _ _ _ _ H) as B.
  rewrite (rep_cap _ _ _ _ _ H) in E0. rewrite (rep_items _ _ _ _ _ H).
  destruct (s_cap a <=? length l) eqn:EL.
  - apply Nat.leb_le in EL.
    destruct (last_snoc_case l) as [->|(l0 & x & ->)]; [simpl in *; lia|].
    destruct (evict_spec ltb swo _ _ _ _ _ H) as (c1 & E1 & H1).
    exists c1. split; [exact E1|]. exists l0.
    rewrite app_length in *. simpl in *.
    rewrite firstn_map, firstn_app. replace (s_cap a - 1 - length l0) with 0 by lia.
    rewrite firstn_all2 by lia. simpl. rewrite app_nil_r. exact H1.
  - apply Nat.leb_gt in EL. exists c. split; [reflexivity|]. exists l.
    rewrite firstn_all2 by (rewrite map_length; lia).
    destruct H; constructor; simpl; auto.
Qed.

Theorem call_faulty n c (a : scache (K:=K) (V:=V)) f o : R ltb n c a -> harmless f ->
  exists n' c', n <= n' /\
    match s_throw ltb (f PPushFront) (f PAssign) (f PGetAssign) a o with
    | Some a' => call ltb f o (mkSt n c) = Ret (mkSt n' c', Thrown) /\ R ltb n' c' a'
    | None => call ltb f o (mkSt n c) = Ret (mkSt n' c', Val (snd (s_call ltb a o))) /\
              R ltb n' c' (fst (s_call ltb a o))
    end.
Proof.
  intros HR [HE HM].
  destruct (call_refines ltb swo n c a o HR) as (n1 & c1 & r & E & Er & H1 & Ln). subst r.
  assert (SAME : call ltb f o (mkSt n c) = call ltb no_fault o (mkSt n c) ->
    exists n' c', n <= n' /\ (call ltb f o (mkSt n c) = Ret (mkSt n' c', Val (snd (s_call ltb a o))) /\
              R ltb n' c' (fst (s_call ltb a o)))).
  { intros ES. exists n1, c1. rewrite ES. auto. }
  destruct HR as [l H].
  assert (INS : forall k v b, 
     find (fun x => eqk k (kf x)) l = None ->
     (f PPushFront = true -> s_cap a <> 0 ->
       exists n' c', n <= n' /\ insert_impl ltb f k v b (mkSt n c) = Ret (mkSt n' c', Thrown) /\
         R ltb n' c' (mkS (s_cap a) (firstn (s_cap a - 1) (s_items a)))) /\
     ((f PPushFront = false \/ s_cap a = 0) ->
       insert_impl ltb f k v b (mkSt n c) = insert_impl ltb no_fault k v b (mkSt n c))).
  { intros k v b F. split.
    - intros HP HC. assert (HC' : m_capacity c <> 0) by (rewrite (rep_cap _ _ _ _ _ H); exact HC).
      destruct (evict_before n c a l k H F HC') as (c2 & E2 & H2).
      exists n, c2. split; [lia|]. split; [|exact H2].
      unfold insert_impl. erewrite bind_val by reflexivity. cbn [obj].
      rewrite (map_find_repr ltb swo _ _ _ _ k H), F. cbn [option_map].
      apply Nat.eqb_neq in HC'. rewrite HC'. cbn [negb].
      erewrite bind_val by exact E2. unfold bind, may_throw. rewrite HP. reflexivity.
    - intros HP. unfold insert_impl. erewrite bind_val by reflexivity.
      erewrite (bind_val _ _ (mkSt n c)) by reflexivity. cbn [obj].
      rewrite (map_find_repr ltb swo _ _ _ _ k H), F. cbn [option_map].
      rewrite (rep_cap _ _ _ _ _ H). destruct (s_cap a =? 0) eqn:E0; [reflexivity|]. cbn [negb].
      destruct HP as [HP|HP]; [|apply Nat.eqb_neq in E0; lia].
      unfold bind, may_throw, no_fault. rewrite HP, HE. reflexivity. }
  destruct o as [ | | |k| |m|k v|k v|k v0|k]; cbn [s_throw]; try (apply SAME; reflexivity).
  - rewrite (s_find_repr _ _ _ _ _ k H).
    destruct (find (fun x => eqk k (kf x)) l) as [x|] eqn:F; cbn [option_map].
    + apply SAME. unfold call, insert. apply bind_same. unfold insert_impl.
      erewrite bind_val by reflexivity. erewrite (bind_val _ _ (mkSt n c)) by reflexivity. cbn [obj].
      rewrite (map_find_repr ltb swo _ _ _ _ k H), F. reflexivity.
    + destruct (INS k v false F) as [I1 I2].
      destruct (f PPushFront) eqn:HP; [|apply SAME; unfold call, insert; apply bind_same, I2; auto].
      destruct (s_cap a =? 0) eqn:E0; cbn [andb negb].
      * apply SAME. apply Nat.eqb_eq in E0. unfold call, insert; apply bind_same, I2; auto.
      * apply Nat.eqb_neq in E0. destruct (I1 eq_refl E0) as (n2 & c2 & L2 & E2 & H2).
        exists n2, c2. split; [exact L2|]. split; [|exact H2].
        unfold call, insert, bind. rewrite E2. reflexivity.
  - rewrite (s_find_repr _ _ _ _ _ k H).
    destruct (find (fun x => eqk k (kf x)) l) as [x|] eqn:F; cbn [option_map].
    + destruct (f PAssign) eqn:HA.
      * exists n, c. split; [lia|]. split; [|exists l; exact H].
        unfold call, insert_or_assign, bind at 1, insert_impl. erewrite bind_val by reflexivity.
        cbn [obj]. rewrite (map_find_repr ltb swo _ _ _ _ k H), F. cbn [option_map].
        unfold bind, may_throw. rewrite HA. reflexivity.
      * apply SAME. unfold call, insert_or_assign. apply bind_same. unfold insert_impl.
        erewrite bind_val by reflexivity. erewrite (bind_val _ _ (mkSt n c)) by reflexivity. cbn [obj].
        rewrite (map_find_repr ltb swo _ _ _ _ k H), F. cbn [option_map].
        unfold bind, may_throw, put_map. rewrite HA. cbv beta iota.
        rewrite (move_to_front_nofault f) by exact HM. reflexivity.
    + destruct (INS k v true F) as [I1 I2].
      destruct (f PPushFront) eqn:HP; [|apply SAME; unfold call, insert_or_assign; apply bind_same, I2; auto].
      destruct (s_cap a =? 0) eqn:E0; cbn [andb negb].
      * apply SAME. apply Nat.eqb_eq in E0. unfold call, insert_or_assign; apply bind_same, I2; auto.
      * apply Nat.eqb_neq in E0. destruct (I1 eq_refl E0) as (n2 & c2 & L2 & E2 & H2).
        exists n2, c2. split; [exact L2|]. split; [|exact H2].
        unfold call, insert_or_assign, bind. rewrite E2. reflexivity.
  - rewrite (s_find_repr _ _ _ _ _ k H).
    destruct (find (fun x => eqk k (kf x)) l) as [x|] eqn:F; cbn [option_map].
    + destruct (f PGetAssign) eqn:HA.
      * exists n, c. split; [lia|]. split; [|exists l; exact H].
        unfold call, get, bind at 1. erewrite bind_val by reflexivity.
        cbn [obj]. rewrite (map_find_repr ltb swo _ _ _ _ k H), F. cbn [option_map].
        unfold bind, may_throw. rewrite HA. reflexivity.
      * apply SAME. unfold call. apply bind_same. unfold get.
        erewrite bind_val by reflexivity. erewrite (bind_val _ _ (mkSt n c)) by reflexivity. cbn [obj].
        rewrite (map_find_repr ltb swo _ _ _ _ k H), F. cbn [option_map].
        unfold bind, may_throw. rewrite HA. cbv beta iota.
        rewrite (move_to_front_nofault f) by exact HM. reflexivity.
    + apply SAME. unfold call. apply bind_same. unfold get.
      erewrite bind_val by reflexivity. erewrite (bind_val _ _ (mkSt n c)) by reflexivity. cbn [obj].
      rewrite (map_find_repr ltb swo _ _ _ _ k H), F. reflexivity.
Qed.

Lemma s_throw_inv p1 p2 p3 (a a' : scache (K:=K) (V:=V)) o : s_throw ltb p1 p2 p3 a o = Some a' ->
  s_cap a' = s_cap a /\ (s_items a' = s_items a \/ s_items a' = firstn (s_cap a - 1) (s_items a)).
Proof.
  destruct o; cbn [s_throw]; try discriminate;
    destruct (s_find ltb k (s_items a)); try discriminate;
    repeat match goal with |- context [if ?b then _ else _] => destruct b end; try discriminate;
    intros [= <-]; auto.
Qed.

(** Any history with exceptions only at harmless points keeps a consistent cache. *)
Theorem run_faulty_consistent : forall ops n c (a : scache (K:=K) (V:=V)), R ltb n c a ->
  (forall o f, In (o, f) ops -> harmless f) ->
  exists n' c' rs a', run_faulty ltb (mkSt n c) ops = Ret (mkSt n' c', rs) /\ R ltb n' c' a'.
Proof.
  induction ops as [|[o f] ops IH]; intros n c a H HF; simpl.
  - eauto 6.
  - destruct (call_faulty n c a f o H) as (n1 & c1 & _ & HC); [eapply HF; simpl; eauto|].
    destruct (s_throw ltb (f PPushFront) (f PAssign) (f PGetAssign) a o) as [a1|].
    + destruct HC as [E H1]. rewrite E.
      destruct (IH n1 c1 a1 H1) as (n2 & c2 & rs & a2 & E2 & H2); [intros; eapply HF; simpl; eauto|].
      rewrite E2. eauto 8.
    + destruct HC as [E H1]. rewrite E.
      destruct (IH n1 c1 _ H1) as (n2 & c2 & rs & a2 & E2 & H2); [intros; eapply HF; simpl; eauto|].
      rewrite E2. eauto 8.
Qed.

End Faults.
