(** Whatever throws, a get that succeeds returns the value of the latest call that stored the
    key and did not throw: no call changes the value of a map entry except by storing. *)
From Coq Require Import List Bool Arith Lia.
From Verif Require Import Base LruApi LruModel LruSpec LruProofs LruCompareModel LruCompareSpec LruDefined.
Import ListNotations.

Section Latest.
Context {K V : Type}.
Variable ltb : K -> K -> bool.
Hypothesis swo : strict_weak_order ltb.
Local Notation eqk := (equivb ltb).
Notation st := (st (K:=K) (V:=V)).
Notation entries := (list (K * (V * nat))).

(** Every entry of [b] has the value of an entry of [a] with an equivalent key. *)
Definition from (a b : entries) : Prop :=
  forall e, In e b -> exists e0, In e0 a /\ eqk (fst e0) (fst e) = true /\ fst (snd e0) = fst (snd e).

Lemma from_refl a : from a a.
Proof. intros e H. exists e. split; [assumption|]. split; [apply (eqk_refl ltb swo)|reflexivity]. Qed.
Lemma from_trans a b c : from a b -> from b c -> from a c.
Proof.
  intros A B e H. destruct (B e H) as (e1 & H1 & E1 & V1). destruct (A e1 H1) as (e0 & H0 & E0 & V0).
  exists e0. split; [assumption|]. split; [eapply (eqk_trans ltb swo); eassumption|congruence].
Qed.
Lemma from_filter p a : from a (filter p a).
Proof. intros e H. apply filter_In in H as [H _]. exact (from_refl a e H). Qed.
Lemma from_nil a : from a [].
Proof. intros e []. Qed.

Definition keep {A} (m : M A) : Prop := forall s s' x, m s = Ret (s', x) -> from (m_map (obj s)) (m_map (obj s')).

Lemma keep_bind {A B} (m : M A) (f : A -> M B) : keep m -> (forall x, keep (f x)) -> keep (bind m f).
Proof.
  intros Hm Hf s s' x. unfold bind. destruct (m s) as [[s1 [y|]]| | |] eqn:E; try discriminate.
  - intros E'. eapply from_trans; [eapply Hm|eapply Hf]; eassumption.
  - intros E'. injection E' as <- <-. eapply Hm; eassumption.
Qed.
Lemma keep_same {A} (m : M A) : (forall s s' x, m s = Ret (s', x) -> m_map (obj s') = m_map (obj s)) -> keep m.
Proof. intros H s s' x E. rewrite (H _ _ _ E). apply from_refl. Qed.
Lemma keep_ret {A} (x : A) : keep (ret x).
Proof. apply keep_same. intros s s' y E. injection E as <- _. reflexivity. Qed.
Lemma keep_may f p : keep (may_throw f p).
Proof. apply keep_same. unfold may_throw. intros s s' y E. destruct (f p); injection E as <- _; reflexivity. Qed.
Lemma keep_throw_if b : keep (throw_if b).
Proof. apply keep_same. unfold throw_if. intros s s' y E. destruct b; injection E as <- _; reflexivity. Qed.
Lemma keep_push k : keep (list_push_front k).
Proof. apply keep_same. intros s s' y E. injection E as <- _. reflexivity. Qed.
Lemma keep_erase n : keep (list_erase n).
Proof.
  apply keep_same. intros s s' y. unfold list_erase, bind, get_obj. destruct (existsb _ _); [|discriminate].
  intros E. injection E as <- _. reflexivity.
Qed.
Lemma keep_put_capacity n : keep (put_capacity n).
Proof. apply keep_same. intros s s' y E. injection E as <- _. reflexivity. Qed.
Lemma keep_clear : keep clear.
Proof. intros s s' y E. injection E as <- _. apply from_nil. Qed.

Lemma keep_evict_c b : keep (evict_lru_c ltb b).
Proof.
  intros s s' x. unfold evict_lru_c. unfold bind at 1, get_obj at 1. destruct (list_last _) as [[n k]|]; [|discriminate].
  unfold bind at 1, throw_if. destruct b.
  - intros E. injection E as <- _. apply from_refl.
  - unfold bind, put_map. intros E. apply keep_erase in E. simpl in E. eapply from_trans; [|exact E]. apply from_filter.
Qed.
Lemma evict_is_c (s : st) : evict_lru ltb s = evict_lru_c ltb false s.
Proof. unfold evict_lru_c, evict_lru, bind, get_obj, throw_if. destruct (list_last _) as [[? ?]|]; reflexivity. Qed.
Lemma keep_evict : keep (evict_lru ltb).
Proof. intros s s' x E. rewrite evict_is_c in E. eapply keep_evict_c; eassumption. Qed.
Lemma keep_while_c : forall fuel e, keep (evict_while_c ltb e fuel).
Proof.
  induction fuel as [|fuel IH]; intros e s s' x; cbn [evict_while_c]; unfold bind at 1, get_obj; destruct (_ <? _).
  - discriminate.
  - apply keep_ret.
  - apply keep_bind; [apply keep_evict_c|intros _; apply IH].
  - apply keep_ret.
Qed.
Lemma keep_set_capacity_c cf n : keep (set_capacity_c ltb cf n).
Proof.
  apply keep_bind; [apply keep_put_capacity|intros _]. intros s s' x. unfold bind, get_obj. destruct (_ =? 0).
  - apply keep_clear.
  - apply keep_while_c.
Qed.
Lemma keep_set_capacity n : keep (set_capacity ltb n).
Proof.
  apply keep_bind; [apply keep_put_capacity|intros _]. intros s s' x. unfold bind, get_obj. destruct (_ =? 0).
  - apply keep_clear.
  - rewrite (evict_while_is_c ltb). apply keep_while_c.
Qed.

(** move_to_front with an entry whose value an equivalent entry of the map has. *)
Lemma keep_move f e s s' x : In (fst e, fst (snd e)) (map (fun e => (fst e, fst (snd e))) (m_map (obj s))) ->
  move_to_front ltb f e s = Ret (s', x) -> from (m_map (obj s)) (m_map (obj s')).
Proof.
  intros Hin. unfold move_to_front. unfold bind at 1, get_obj at 1.
  destruct (match list_begin _ with Some b => _ | None => false end); [apply keep_ret|].
  unfold bind at 1. destruct (list_erase (snd (snd e)) s) as [[s1 [y|]]| | |] eqn:E1; try discriminate.
  - assert (M1 : m_map (obj s1) = m_map (obj s)).
    { revert E1. unfold list_erase, bind, get_obj. destruct (existsb _ _); [|discriminate]. intros E. injection E as <- _. reflexivity. }
    unfold bind at 1, may_throw at 1. destruct (f PMovePush).
    + intros E. injection E as <- _. rewrite M1. apply from_refl.
    + unfold bind, list_push_front, get_obj, put_map. simpl. intros E. injection E as <- _. simpl. rewrite M1.
      intros e' He'. apply in_map_iff in He' as (e0 & E0 & H0).
      destruct (eqk (fst e) (fst e0)) eqn:Q; subst e'; [|exact (from_refl _ e0 H0)].
      apply in_map_iff in Hin as (e2 & E2 & H2). injection E2 as K2 V2.
      exists e2. simpl. split; [assumption|]. rewrite K2. auto.
  - intros E. injection E as <- _. eapply keep_erase; eassumption.
Qed.

Lemma find_in_map k (s : st) e : map_find ltb k (m_map (obj s)) = Some e ->
  In (fst e, fst (snd e)) (map (fun e => (fst e, fst (snd e))) (m_map (obj s))) /\ eqk k (fst e) = true.
Proof.
  intros E. apply find_some in E as [E Q]. split; [|exact Q]. apply in_map_iff. exists e. auto.
Qed.

(** What a call that stores does to the entries of other keys and to its own. *)
Definition stored (k : K) (v : V) (a b : entries) : Prop :=
  forall e, In e b -> (eqk (fst e) k = true /\ fst (snd e) = v) \/
    (eqk (fst e) k = false /\ exists e0, In e0 a /\ eqk (fst e0) (fst e) = true /\ fst (snd e0) = fst (snd e)).
Definition after_insert (orAssign : bool) (k : K) (v : V) (a : entries) (x : exn bool) (b : entries) : Prop :=
  match x with
  | Thrown => from a b
  | Val true => stored k v a b
  | Val false => if orAssign then stored k v a b else from a b
  end.

Lemma from_stored k v a b c : from a b -> stored k v b c -> stored k v a c.
Proof.
  intros F S e H. destruct (S e H) as [L|(N & e1 & H1 & E1 & V1)]; [left; exact L|]. right. split; [exact N|].
  destruct (F e1 H1) as (e0 & H0 & E0 & V0). exists e0. split; [assumption|].
  split; [eapply (eqk_trans ltb swo); eassumption|congruence].
Qed.
Lemma stored_from k v a b c : stored k v a b -> from b c -> stored k v a c.
Proof.
  intros S F e H. destruct (F e H) as (e1 & H1 & E1 & V1).
  pose proof (eqk_subst ltb swo _ _ k E1) as Q.
  destruct (S e1 H1) as [[L1 L2]|(N & e0 & H0 & E0 & V0)].
  - left. split; congruence.
  - right. split; [congruence|]. exists e0. split; [assumption|].
    split; [eapply (eqk_trans ltb swo); eassumption|congruence].
Qed.

Lemma stored_set k v (s : st) e : map_find ltb k (m_map (obj s)) = Some e ->
  stored k v (m_map (obj s)) (map_set ltb (fst e) (v, snd (snd e)) (m_map (obj s))).
Proof.
  intros E e' He'. apply find_in_map in E as [_ Q]. apply in_map_iff in He' as (e0 & E0 & H0).
  pose proof (eqk_subst ltb swo k (fst e) (fst e0) Q) as Q2.
  destruct (eqk (fst e) (fst e0)) eqn:Q1; subst e'.
  - left. simpl. split; [|reflexivity]. rewrite (eqk_sym ltb). congruence.
  - right. rewrite (eqk_sym ltb). split; [congruence|]. exists e0. split; [assumption|].
    split; [apply (eqk_refl ltb swo)|reflexivity].
Qed.

Lemma absent_from k a b : map_find ltb k a = None -> from a b -> forall e, In e b -> eqk (fst e) k = false.
Proof.
  intros N F e H. destruct (F e H) as (e0 & H0 & E0 & _). pose proof (find_none _ _ N e0 H0) as Q. simpl in Q.
  rewrite (eqk_sym ltb) in Q. now rewrite <- (eqk_subst ltb swo _ _ k E0).
Qed.

Lemma emplace_stored k v b a m : map_find ltb k a = None -> from a m -> stored k v a (map_emplace ltb k (v, b) m).
Proof.
  intros N F. unfold map_emplace.
  assert (OLD : forall e, In e m -> eqk (fst e) k = false /\ exists e0, In e0 a /\ eqk (fst e0) (fst e) = true /\ fst (snd e0) = fst (snd e)).
  { intros e H. split; [exact (absent_from k a m N F e H)|exact (F e H)]. }
  destruct (map_find ltb k m).
  - intros e H. right. auto.
  - intros e [<-|H]; [left; split; [apply (eqk_refl ltb swo)|reflexivity]|right; auto].
Qed.

(** push_front and emplace *)
Lemma tail_after orAssign k v (t : M unit) a s s' x :
  (forall s, t s = Ret (s, Thrown) \/ t s = Ret (s, Val tt)) ->
  map_find ltb k a = None -> from a (m_map (obj s)) ->
  bind (list_push_front k) (fun _ => bind t (fun _ => bind get_obj (fun c =>
    match list_begin (m_list c) with
    | Some b => bind (put_map (map_emplace ltb k (v, b) (m_map c))) (fun _ => ret true)
    | None => ub
    end))) s = Ret (s', x) ->
  after_insert orAssign k v a x (m_map (obj s')).
Proof.
  intros T N F. unfold bind at 1, list_push_front. unfold bind at 1.
  match goal with |- match t ?y with _ => _ end = _ -> _ => destruct (T y) as [-> | ->] end.
  - intros E. injection E as <- <-. exact F.
  - unfold bind, get_obj, put_map, ret. simpl. intros E. injection E as <- <-. simpl. apply emplace_stored; assumption.
Qed.

Lemma assign_after k v f (s : st) e s' x : f PMovePush = false -> map_find ltb k (m_map (obj s)) = Some e ->
  bind (put_map (map_set ltb (fst e) (v, snd (snd e)) (m_map (obj s)))) (fun _ =>
    bind (move_to_front ltb f (fst e, (v, snd (snd e)))) (fun _ => ret false)) s = Ret (s', x) ->
  after_insert true k v (m_map (obj s)) x (m_map (obj s')).
Proof.
  intros HF E. unfold bind at 1, put_map. pose proof (stored_set k v s e E) as S.
  match goal with |- bind _ _ ?y = _ -> _ => set (s1 := y) end.
  assert (Hin : In (fst (fst e, (v, snd (snd e))), fst (snd (fst e, (v, snd (snd e))))) (map (fun e => (fst e, fst (snd e))) (m_map (obj s1)))).
  { simpl. apply in_map_iff. exists (fst e, (v, snd (snd e))). split; [reflexivity|].
    apply in_map_iff. exists e. rewrite (eqk_refl ltb swo). split; [reflexivity|]. now apply find_some in E. }
  unfold bind. destruct (move_to_front ltb f (fst e, (v, snd (snd e))) s1) as [[s2 [y|]]| | |] eqn:E2; try discriminate.
  - intros X. injection X as <- <-. simpl. eapply stored_from; [exact S|]. exact (keep_move f _ s1 s2 _ Hin E2).
  - exfalso. revert E2. unfold move_to_front. unfold bind at 1, get_obj at 1.
    destruct (match list_begin _ with Some b => _ | None => false end); [discriminate|].
    unfold bind at 1, list_erase, bind at 1, get_obj at 1. destruct (existsb _ _); [|discriminate].
    unfold put_list at 1. unfold bind at 1, may_throw at 1. rewrite HF. unfold bind, list_push_front, get_obj, put_map. simpl. discriminate.
Qed.

Lemma insert_after f k v b (s s' : st) x : f PMovePush = false ->
  insert_impl ltb f k v b s = Ret (s', x) -> after_insert b k v (m_map (obj s)) x (m_map (obj s')).
Proof.
  intros HF. unfold insert_impl. unfold bind at 1, get_obj at 1.
  destruct (map_find ltb k (m_map (obj s))) as [e|] eqn:E.
  - destruct b.
    + unfold bind at 1, may_throw at 1. destruct (f PAssign).
      * intros X. injection X as <- <-. apply from_refl.
      * apply assign_after; assumption.
    + intros X. injection X as <- <-. apply from_refl.
  - destruct (negb _).
    + assert (P : forall s1, from (m_map (obj s)) (m_map (obj s1)) ->
        bind (may_throw f PPushFront) (fun _ => bind (list_push_front k) (fun _ =>
        bind (may_throw f PEmplace) (fun _ => bind get_obj (fun c =>
        match list_begin (m_list c) with
        | Some b => bind (put_map (map_emplace ltb k (v, b) (m_map c))) (fun _ => ret true)
        | None => ub end)))) s1 = Ret (s', x) -> after_insert b k v (m_map (obj s)) x (m_map (obj s'))).
      { intros s1 F. unfold bind at 1, may_throw at 1. destruct (f PPushFront).
        - intros X. injection X as <- <-. exact F.
        - apply tail_after; [|assumption|assumption]. intros s2. unfold may_throw. destruct (f PEmplace); auto. }
      unfold bind at 1. destruct (_ <=? _).
      * destruct (evict_lru ltb s) as [[s1 [y|]]| | |] eqn:E1; try discriminate.
        -- apply P. eapply keep_evict; eassumption.
        -- intros X. injection X as <- <-. exact (keep_evict _ _ _ E1).
      * apply P. apply from_refl.
    + intros X. injection X as <- <-. intros e He. right.
      split; [exact (absent_from k _ _ E (from_refl _) e He)|exact (from_refl _ e He)].
Qed.

Lemma insert_c_after cf k v b (s s' : st) x :
  insert_c ltb cf k v b s = Ret (s', x) -> after_insert b k v (m_map (obj s)) x (m_map (obj s')).
Proof.
  unfold insert_c. unfold bind at 1. destruct (find_c_cases ltb cf k s) as [-> | ->].
  { intros X. injection X as <- <-. apply from_refl. }
  destruct (map_find ltb k (m_map (obj s))) as [e|] eqn:E.
  - destruct b.
    + unfold bind at 1, get_obj at 1. apply assign_after; [reflexivity|assumption].
    + intros X. injection X as <- <-. apply from_refl.
  - unfold bind at 1, get_obj at 1. destruct (negb _).
    + assert (P : forall s1, from (m_map (obj s)) (m_map (obj s1)) ->
        bind (list_push_front k) (fun _ =>
        bind (throw_if (in_emplace cf)) (fun _ => bind get_obj (fun c =>
        match list_begin (m_list c) with
        | Some b => bind (put_map (map_emplace ltb k (v, b) (m_map c))) (fun _ => ret true)
        | None => ub end))) s1 = Ret (s', x) -> after_insert b k v (m_map (obj s)) x (m_map (obj s'))).
      { intros s1 F. apply tail_after; [|assumption|assumption]. intros s2. unfold throw_if. destruct (in_emplace cf); auto. }
      unfold bind at 1. destruct (_ <=? _).
      * destruct (evict_lru_c ltb (throws_now (in_erase cf)) s) as [[s1 [y|]]| | |] eqn:E1; try discriminate.
        -- apply P. eapply keep_evict_c; eassumption.
        -- intros X. injection X as <- <-. exact (keep_evict_c _ _ _ _ E1).
      * apply P. apply from_refl.
    + intros X. injection X as <- <-. intros e He. right.
      split; [exact (absent_from k _ _ E (from_refl _) e He)|exact (from_refl _ e He)].
Qed.

(** One call: what it stores and what it reads. *)
Definition caught {A} (x : exn A) : option A := match x with Val a => Some a | Thrown => None end.
Definition effect (o : lru_op K V) (r : option (lru_res V)) (a b : entries) : Prop :=
  (forall e, In e b ->
     match match r with Some r => stores ltb (fst e) o r | None => None end with
     | Some v => fst (snd e) = v
     | None => exists e0, In e0 a /\ eqk (fst e0) (fst e) = true /\ fst (snd e0) = fst (snd e)
     end) /\
  (forall k v0 v, o = Get k v0 -> r = Some (RGet true v) -> exists e, In e a /\ eqk (fst e) k = true /\ fst (snd e) = v).

Lemma effect_from o r a b : (forall k, match r with Some r => stores ltb k o r | None => None end = None) ->
  (forall k v, o <> Get k v) -> from a b -> effect o r a b.
Proof.
  intros S G F. split.
  - intros e H. rewrite S. exact (F e H).
  - intros k v0 v E. exfalso. exact (G k v0 E).
Qed.

Lemma effect_insert b k v a (x : exn bool) m :
  after_insert b k v a x m ->
  effect (if b then InsertOrAssign k v else Insert k v) (caught (match x with Val y => Val (RBool y) | Thrown => Thrown end)) a m.
Proof.
  intros A. split.
  - intros e H. destruct x as [[|]|]; simpl in A; cbn [caught].
    + destruct (A e H) as [[Q VV]|[Q S]]; destruct b; simpl; rewrite Q; auto.
    + destruct b; simpl.
      * destruct (A e H) as [[Q VV]|[Q S]]; rewrite Q; auto.
      * exact (A e H).
    + exact (A e H).
  - intros k0 v0 v1 E. destruct b; discriminate.
Qed.

Lemma call_insert (m : M bool) (s s' : st) x : bind m (fun b => ret (RBool (V:=V) b)) s = Ret (s', x) ->
  exists y, m s = Ret (s', y) /\ x = match y with Val y => Val (RBool y) | Thrown => Thrown end.
Proof.
  unfold bind, ret. destruct (m s) as [[s1 [y|]]| | |]; try discriminate; intros E; injection E as <- <-; eexists; eauto.
Qed.

Lemma get_effect k v0 (s s' : st) e r : map_find ltb k (m_map (obj s)) = Some e ->
  from (m_map (obj s)) (m_map (obj s')) -> r = Some (RGet true (fst (snd e))) \/ r = None ->
  effect (Get k v0) r (m_map (obj s)) (m_map (obj s')).
Proof.
  intros E F R. apply find_some in E as [Hin Q]. split.
  - intros e' H. destruct R as [-> | ->]; exact (F e' H).
  - intros k' v' v EG ER. destruct R as [-> | ->]; [|discriminate]. injection EG as <- _. injection ER as <-.
    exists e. rewrite (eqk_sym ltb). auto.
Qed.

Lemma call_effect f o (s s' : st) x : f PMovePush = false -> call ltb f o s = Ret (s', x) ->
  effect o (caught x) (m_map (obj s)) (m_map (obj s')).
Proof.
  intros HF. destruct o as [| | |k| |n|k v|k v|k v0|k]; unfold call; intros E.
  - injection E as <- <-. apply effect_from; [reflexivity|discriminate|apply from_refl].
  - injection E as <- <-. apply effect_from; [reflexivity|discriminate|apply from_refl].
  - injection E as <- <-. apply effect_from; [reflexivity|discriminate|apply from_refl].
  - injection E as <- <-. apply effect_from; [reflexivity|discriminate|apply from_refl].
  - injection E as <- <-. apply effect_from; [reflexivity|discriminate|apply from_nil].
  - apply effect_from; [destruct x; reflexivity|discriminate|].
    apply (keep_bind _ (fun _ => ret RUnit) (keep_set_capacity n) (fun _ => keep_ret _)) in E. exact E.
  - apply call_insert in E as (y & E & ->). unfold insert in E. apply (insert_after _ _ _ _ _ _ _ HF) in E.
    exact (effect_insert false k v _ _ _ E).
  - apply call_insert in E as (y & E & ->). unfold insert_or_assign in E. apply (insert_after _ _ _ _ _ _ _ HF) in E.
    exact (effect_insert true k v _ _ _ E).
  - revert E. unfold get. unfold bind at 1 2, get_obj at 1.
    destruct (map_find ltb k (m_map (obj s))) as [e|] eqn:E.
    + unfold bind at 1, may_throw at 1. destruct (f PGetAssign).
      * intros X. injection X as <- <-. split; [intros e' H; exact (from_refl _ e' H)|discriminate].
      * unfold bind. destruct (move_to_front ltb f e s) as [[s1 [y|]]| | |] eqn:E1; try discriminate;
          intros X; injection X as <- <-;
          pose proof (keep_move f e s _ _ (proj1 (find_in_map k s e E)) E1) as F;
          apply (get_effect k v0 s s1 e _ E F); simpl; auto.
    + intros X. injection X as <- <-. split; [intros e' H; exact (from_refl _ e' H)|discriminate].
  - apply effect_from; [destruct x as [[| |[]|]|]; reflexivity|discriminate|].
    apply call_insert in E as (y & E & _). revert E. unfold remove. unfold bind at 1, get_obj at 1.
    destruct (map_find ltb k (m_map (obj s))) as [e|]; [|apply keep_ret].
    unfold bind at 1. destruct (list_erase (snd (snd e)) s) as [[s1 [z|]]| | |] eqn:E1; try discriminate.
    + intros X. injection X as <- _. apply from_filter.
    + intros X. injection X as <- _. eapply keep_erase; eassumption.
Qed.

Lemma call_c_effect cf o (s s' : st) x : call_c ltb cf o s = Ret (s', x) ->
  effect o (caught x) (m_map (obj s)) (m_map (obj s')).
Proof.
  destruct o as [| | |k| |n|k v|k v|k v0|k]; unfold call_c; intros E.
  - injection E as <- <-. apply effect_from; [reflexivity|discriminate|apply from_refl].
  - injection E as <- <-. apply effect_from; [reflexivity|discriminate|apply from_refl].
  - injection E as <- <-. apply effect_from; [reflexivity|discriminate|apply from_refl].
  - revert E. unfold contains_c, bind at 1 2. destruct (find_c_cases ltb cf k s) as [-> | ->]; intros E; injection E as <- <-;
      (apply effect_from; [reflexivity|discriminate|apply from_refl]).
  - injection E as <- <-. apply effect_from; [reflexivity|discriminate|apply from_nil].
  - apply effect_from; [destruct x; reflexivity|discriminate|].
    apply (keep_bind _ (fun _ => ret RUnit) (keep_set_capacity_c cf n) (fun _ => keep_ret _)) in E. exact E.
  - apply call_insert in E as (y & E & ->). apply insert_c_after in E. exact (effect_insert false k v _ _ _ E).
  - apply call_insert in E as (y & E & ->). apply insert_c_after in E. exact (effect_insert true k v _ _ _ E).
  - revert E. unfold get_c. unfold bind at 1 2. destruct (find_c_cases ltb cf k s) as [-> | ->].
    { intros X. injection X as <- <-. split; [intros e' H; exact (from_refl _ e' H)|discriminate]. }
    destruct (map_find ltb k (m_map (obj s))) as [e|] eqn:E.
    + unfold bind. destruct (move_to_front ltb no_fault e s) as [[s1 [y|]]| | |] eqn:E1; try discriminate;
          intros X; injection X as <- <-;
          pose proof (keep_move no_fault e s _ _ (proj1 (find_in_map k s e E)) E1) as F;
          apply (get_effect k v0 s s1 e _ E F); simpl; auto.
    + intros X. injection X as <- <-. split; [intros e' H; exact (from_refl _ e' H)|discriminate].
  - apply effect_from; [destruct x as [[| |[]|]|]; reflexivity|discriminate|].
    apply call_insert in E as (y & E & _). revert E. unfold remove_c. unfold bind at 1.
    destruct (find_c_cases ltb cf k s) as [-> | ->].
    { intros X. injection X as <- _. apply from_refl. }
    destruct (map_find ltb k (m_map (obj s))) as [e|]; [|apply keep_ret].
    unfold bind at 1. destruct (list_erase (snd (snd e)) s) as [[s1 [z|]]| | |] eqn:E1; try discriminate.
    + intros X. injection X as <- _. simpl. eapply from_trans; [eapply keep_erase; exact E1|apply from_filter].
    + intros X. injection X as <- _. eapply keep_erase; eassumption.
Qed.

(** Histories. *)
Lemma latest_subst k k' h : eqk k k' = true -> latest_stored ltb k h = latest_stored (V:=V) ltb k' h.
Proof.
  intros Q. induction h as [|[o r] h IH] using rev_ind; [reflexivity|].
  unfold latest_stored in *. rewrite !fold_left_app. simpl. rewrite IH.
  destruct r as [r|]; [|reflexivity].
  assert (S : stores ltb k o r = stores ltb k' o r).
  { destruct o; simpl; try reflexivity; rewrite (eqk_subst ltb swo k k' _ Q); reflexivity. }
  now rewrite S.
Qed.

Definition faithful (h : list (lru_op K V * option (lru_res V))) (s : st) : Prop :=
  forall e, In e (m_map (obj s)) -> latest_stored ltb (fst e) h = Some (fst (snd e)).

Lemma faithful_step h s s' o r : faithful h s -> effect o r (m_map (obj s)) (m_map (obj s')) ->
  faithful (h ++ [(o, r)]) s' /\
  (forall k v0 v, o = Get k v0 -> r = Some (RGet true v) -> latest_stored ltb k h = Some v).
Proof.
  intros F [E G]. split.
  - intros e H. specialize (E e H). unfold latest_stored. rewrite fold_left_app. simpl.
    destruct r as [r|].
    + destruct (stores ltb (fst e) o r) as [v|]; [congruence|].
      destruct E as (e0 & H0 & Q & V0). rewrite <- V0. rewrite <- (F e0 H0). symmetry. now apply latest_subst.
    + destruct E as (e0 & H0 & Q & V0). rewrite <- V0. rewrite <- (F e0 H0). symmetry. now apply latest_subst.
  - intros k v0 v EO ER. destruct (G k v0 v EO ER) as (e & H & Q & VV). rewrite <- VV, <- (F e H). symmetry. now apply latest_subst.
Qed.

Lemma run_faulty_latest : forall ops h s s' rs, faithful h s -> (forall o f, In (o, f) ops -> f PMovePush = false) ->
  run_faulty ltb s ops = Ret (s', rs) -> reads_latest ltb h (combine (map fst ops) rs).
Proof.
  induction ops as [|[o f] ops IH]; intros h s s' rs F HF; cbn [run_faulty].
  - intros E. injection E as <- <-. exact I.
  - destruct (call ltb f o s) as [[s1 x]| | |] eqn:E1; try discriminate.
    destruct (run_faulty ltb s1 ops) as [[s2 rs2]| | |] eqn:E2; try discriminate.
    intros E. injection E as <- <-. apply call_effect in E1; [|apply (HF o); left; reflexivity].
    destruct (faithful_step h s s1 o (caught x) F E1) as [F1 G]. cbn [map combine reads_latest fst].
    split.
    + intros k v0 v EO ER. apply (G k v0 v EO). destruct x; exact ER.
    + assert (EX : match x with Val a => Some a | Thrown => None end = caught x) by (destruct x; reflexivity).
      rewrite EX. apply (IH _ s1 s2 rs2 F1); [|exact E2]. intros o' f' Hi. apply (HF o'). right. assumption.
Qed.

Lemma run_c_latest : forall ops h s s' rs, faithful h s ->
  run_c ltb s ops = Ret (s', rs) -> reads_latest ltb h (combine (map fst ops) rs).
Proof.
  induction ops as [|[o f] ops IH]; intros h s s' rs F; cbn [run_c].
  - intros E. injection E as <- <-. exact I.
  - destruct (call_c ltb f o s) as [[s1 x]| | |] eqn:E1; try discriminate.
    destruct (run_c ltb s1 ops) as [[s2 rs2]| | |] eqn:E2; try discriminate.
    intros E. injection E as <- <-. apply call_c_effect in E1.
    destruct (faithful_step h s s1 o (caught x) F E1) as [F1 G]. cbn [map combine reads_latest fst].
    split.
    + intros k v0 v EO ER. apply (G k v0 v EO). destruct x; exact ER.
    + assert (EX : match x with Val a => Some a | Thrown => None end = caught x) by (destruct x; reflexivity).
      rewrite EX. exact (IH _ s1 s2 rs2 F1 E2).
Qed.

Theorem faulty_latest cap (ops : list (lru_op K V * faults)) :
  (forall o f, In (o, f) ops -> f PMovePush = false) ->
  exists s rs, run_faulty ltb (mkSt 0 (new_cache cap)) ops = Ret (s, rs) /\ length rs = length ops /\
    reads_latest ltb [] (combine (map fst ops) rs).
Proof.
  intros HF. destruct (faulty_defined ltb swo cap ops HF) as (s & rs & E & L). exists s, rs. split; [exact E|]. split; [exact L|].
  eapply run_faulty_latest; [|exact HF|exact E]. intros e [].
Qed.
Theorem compare_latest cap (ops : list (lru_op K V * cmp_faults)) :
  exists s rs, run_c ltb (mkSt 0 (new_cache cap)) ops = Ret (s, rs) /\ length rs = length ops /\
    reads_latest ltb [] (combine (map fst ops) rs).
Proof.
  destruct (compare_defined ltb swo cap ops) as (s & rs & E & L). exists s, rs. split; [exact E|]. split; [exact L|].
  eapply run_c_latest; [|exact E]. intros e [].
Qed.
End Latest.
