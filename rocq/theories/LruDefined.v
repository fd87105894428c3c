(** No call on an lru_cache is undefined as long as push_front in move_to_front does not throw,
    whatever else throws: every iterator in the map points to a list node with an equivalent key,
    although the list may hold nodes without a map entry. *)
From Coq Require Import List Bool Arith Lia.
From Verif Require Import Base LruApi LruModel LruProofs LruCompareModel.
Import ListNotations.

Section Defined.
Context {K V : Type}.
Variable ltb : K -> K -> bool.
Hypothesis swo : strict_weak_order ltb.
Local Notation eqk := (equivb ltb).
Notation cache := (cache (K:=K) (V:=V)).
Notation st := (st (K:=K) (V:=V)).

Definition linked (l : list (nat * K)) (e : K * (V * nat)) : Prop :=
  exists k, In (snd (snd e), k) l /\ eqk (fst e) k = true.
Record W (s : st) : Prop := {
  w_map : Forall (linked (m_list (obj s))) (m_map (obj s));
  w_ids : NoDup (map fst (m_list (obj s)));
  w_fresh : Forall (fun x => fst x < nxt s) (m_list (obj s))
}.

Lemma id_key (l : list (nat * K)) n k k' : NoDup (map fst l) -> In (n, k) l -> In (n, k') l -> k = k'.
Proof.
  induction l as [|x l IH]; simpl; [contradiction|]. intros N H1 H2. inversion N as [|? ? N1 N2]; subst.
  destruct H1 as [->|H1], H2 as [E2|H2].
  - congruence.
  - exfalso. apply N1. apply in_map_iff. exists (n, k'). auto.
  - subst. exfalso. apply N1. apply in_map_iff. exists (n, k). auto.
  - auto.
Qed.

Lemma filter_NoDup_map (p : nat * K -> bool) l : NoDup (map fst l) -> NoDup (map fst (filter p l)).
Proof.
  induction l as [|x l IH]; simpl; [auto|]. intros N. inversion N as [|? ? N1 N2]; subst.
  destruct (p x); simpl; [|auto]. constructor; [|auto]. intros H. apply N1.
  apply in_map_iff in H as (y & E & Hy). apply filter_In in Hy as [Hy _]. apply in_map_iff. eauto.
Qed.

Lemma filter_Forall {A} (P : A -> Prop) p (l : list A) : Forall P l -> Forall P (filter p l).
Proof. rewrite !Forall_forall. intros H x Hx. apply filter_In in Hx. apply H. tauto. Qed.

(** Erasing a node and the map entries of its key. *)
Lemma linked_erase l n k e : NoDup (map fst l) -> In (n, k) l -> linked l e -> eqk k (fst e) = false ->
  linked (filter (fun x => negb (fst x =? n)) l) e.
Proof.
  intros N Hn (k' & Hi & He) Hk. exists k'. split; [|assumption]. apply filter_In. split; [assumption|]. simpl.
  destruct (snd (snd e) =? n) eqn:E; [|reflexivity]. apply Nat.eqb_eq in E. rewrite E in Hi.
  rewrite (id_key _ _ _ _ N Hi Hn) in He. rewrite (eqk_sym ltb) in He. congruence.
Qed.

Lemma list_last_in (l : list (nat * K)) : match list_last l with None => l = [] | Some x => In x l end.
Proof.
  destruct l as [|x l]; [reflexivity|]. cbn [list_last].
  destruct (last_snoc_case l) as [->|(l0 & y & ->)]; [left; reflexivity|].
  rewrite last_last. right. apply in_or_app. right. left. reflexivity.
Qed.

Lemma filter_length_le {A} p (l : list A) : length (filter p l) <= length l.
Proof. induction l as [|y l IH]; simpl; [lia|]. destruct (p y); simpl; lia. Qed.
Lemma filter_length_lt {A} p (l : list A) x : In x l -> p x = false -> length (filter p l) < length l.
Proof.
  induction l as [|y l IH]; simpl; [contradiction|]. intros [->|H] E.
  - rewrite E. pose proof (filter_length_le p l). lia.
  - specialize (IH H E). destruct (p y); simpl; lia.
Qed.

(** [good m]: from a consistent state [m] ends, by a result or an exception, in a consistent state. *)
Definition ends {A} (x : outcome (st * exn A)) (P : st -> Prop) : Prop :=
  match x with Ret (s, _) => P s | _ => False end.
Definition good {A} (m : M A) : Prop := forall s, W s -> ends (m s) W.

Lemma good_bind {A B} (m : M A) (f : A -> M B) : good m -> (forall x, good (f x)) -> good (bind m f).
Proof.
  intros Hm Hf s Hs. specialize (Hm s Hs). unfold bind. destruct (m s) as [[s' [x|]]| | |]; simpl in *; auto. now apply Hf.
Qed.
Lemma good_ret {A} (x : A) : good (ret x).
Proof. intros s H. exact H. Qed.
Lemma good_may f p : good (may_throw f p).
Proof. intros s H. unfold may_throw. destruct (f p); exact H. Qed.
Lemma good_throw_if b : good (throw_if (K:=K) (V:=V) b).
Proof. intros s H. unfold throw_if. destruct b; exact H. Qed.
Lemma good_clear : good clear.
Proof. intros s [? ? ?]. constructor; simpl; constructor. Qed.
Lemma good_put_capacity n : good (put_capacity n).
Proof. intros s [? ? ?]. constructor; simpl; assumption. Qed.
Lemma good_push k : good (list_push_front k).
Proof.
  intros s [M N F]. unfold list_push_front; simpl. constructor; simpl.
  - eapply Forall_impl; [|exact M]. intros e (k' & Hi & He). exists k'. split; [right|]; assumption.
  - constructor; [|assumption]. intros H. apply in_map_iff in H as (x & E & Hx).
    rewrite Forall_forall in F. apply F in Hx. lia.
  - constructor; [simpl; lia|]. eapply Forall_impl; [|exact F]. simpl. intros; lia.
Qed.

(** Evicting shortens the list. *)
Lemma evict_W s : W s -> m_list (obj s) <> [] ->
  exists s', evict_lru ltb s = Ret (s', Val tt) /\ W s' /\ length (m_list (obj s')) < length (m_list (obj s)).
Proof.
  intros [M N F] Hl. unfold evict_lru, bind, get_obj. pose proof (list_last_in (m_list (obj s))) as L.
  destruct (list_last (m_list (obj s))) as [[n k]|]; [|contradiction].
  unfold put_map, list_erase, bind, get_obj. simpl.
  assert (X : existsb (fun x : nat * K => fst x =? n) (m_list (obj s)) = true).
  { apply existsb_exists. exists (n, k). split; [assumption|]. apply Nat.eqb_refl. }
  rewrite X. unfold put_list. simpl. eexists. split; [reflexivity|]. simpl. split.
  - constructor; simpl.
    + rewrite Forall_forall in *. intros e He. apply filter_In in He as [He Hk].
      apply linked_erase with (k := k); auto. now apply negb_true_iff in Hk.
    + now apply filter_NoDup_map.
    + now apply filter_Forall.
  - apply filter_length_lt with (x := (n, k)); [assumption|]. simpl. now rewrite Nat.eqb_refl.
Qed.

Lemma map_list s : W s -> 0 < length (m_map (obj s)) -> m_list (obj s) <> [].
Proof.
  intros [M _ _] L E. rewrite E in M. destruct (m_map (obj s)); [simpl in L; lia|].
  inversion M as [|? ? (k & [] & _)].
Qed.

Lemma evict_c_W b s : W s -> m_list (obj s) <> [] ->
  exists s' x, evict_lru_c ltb b s = Ret (s', x) /\ W s' /\
    (x = Val tt -> length (m_list (obj s')) < length (m_list (obj s))).
Proof.
  intros H L. destruct b.
  - exists s, Thrown. split; [|split; [assumption|discriminate]].
    unfold evict_lru_c, bind, get_obj. pose proof (list_last_in (m_list (obj s))) as E.
    destruct (list_last (m_list (obj s))) as [[n k]|]; [reflexivity|contradiction].
  - destruct (evict_W s H L) as (s' & E & H' & L'). exists s', (Val tt). split; [|auto].
    rewrite <- E. unfold evict_lru_c, evict_lru, bind, get_obj, throw_if. destruct (list_last _) as [[? ?]|]; reflexivity.
Qed.

Lemma evict_while_c_W : forall fuel e s, W s -> length (m_list (obj s)) <= fuel -> ends (evict_while_c ltb e fuel s) W.
Proof.
  induction fuel as [|fuel IH]; intros e s H L; cbn [evict_while_c]; unfold bind at 1, get_obj.
  - destruct (_ <? _) eqn:E; [|exact H]. apply Nat.ltb_lt in E.
    exfalso. apply (map_list s H); [lia|]. destruct (m_list (obj s)); [reflexivity|simpl in L; lia].
  - destruct (_ <? _) eqn:E; [|exact H]. apply Nat.ltb_lt in E.
    destruct (evict_c_W (throws_now e) s H) as (s' & x & E' & H' & L'); [apply map_list; [assumption|lia]|].
    unfold bind. rewrite E'. destruct x as [[]|]; [|exact H']. apply IH; [assumption|]. specialize (L' eq_refl). lia.
Qed.

Lemma evict_while_is_c : forall fuel s, evict_while ltb fuel s = evict_while_c (V:=V) ltb None fuel s.
Proof.
  induction fuel as [|fuel IH]; intros s; cbn [evict_while evict_while_c]; unfold bind, get_obj; destruct (_ <? _); try reflexivity.
  replace (evict_lru_c ltb (throws_now None) s) with (evict_lru ltb s).
  - destruct (evict_lru ltb s) as [[s' [[]|]]| | |]; auto.
  - unfold evict_lru_c, evict_lru, bind, get_obj, throw_if. destruct (list_last _) as [[? ?]|]; reflexivity.
Qed.

Lemma set_capacity_W n : good (set_capacity (K:=K) (V:=V) ltb n).
Proof.
  intros s H. unfold set_capacity. unfold bind at 1. cbn. destruct (n =? 0).
  - apply good_clear. now apply (good_put_capacity n s).
  - pose proof (evict_while_c_W (S (length (m_list (obj s)))) None
      (mkSt (nxt s) (mkCache n (m_list (obj s)) (m_map (obj s)))) (good_put_capacity n s H)) as G.
    rewrite <- evict_while_is_c in G. apply G. simpl. lia.
Qed.
Lemma set_capacity_c_W cf n : good (set_capacity_c (K:=K) (V:=V) ltb cf n).
Proof.
  intros s H. unfold set_capacity_c. unfold bind at 1. cbn. destruct (n =? 0).
  - apply good_clear. now apply (good_put_capacity n s).
  - pose proof (evict_while_c_W (S (length (m_list (obj s)))) (in_erase cf)
      (mkSt (nxt s) (mkCache n (m_list (obj s)) (m_map (obj s)))) (good_put_capacity n s H)) as G.
    apply G. simpl. lia.
Qed.

(** A map entry found in a consistent state. *)
Definition held (s : st) (e : K * (V * nat)) : Prop := linked (m_list (obj s)) e.
Lemma find_held k s e : W s -> map_find ltb k (m_map (obj s)) = Some e -> held s e.
Proof.
  intros [M _ _] E. apply find_some in E as [E _]. rewrite Forall_forall in M. exact (M e E).
Qed.

Lemma erase_held s e : W s -> held s e ->
  list_erase (snd (snd e)) s =
    Ret (mkSt (nxt s) (mkCache (m_capacity (obj s)) (filter (fun x => negb (fst x =? snd (snd e))) (m_list (obj s))) (m_map (obj s))), Val tt).
Proof.
  intros _ (k & Hi & _). unfold list_erase, bind, get_obj.
  assert (X : existsb (fun x : nat * K => fst x =? snd (snd e)) (m_list (obj s)) = true).
  { apply existsb_exists. eexists. split; [exact Hi|]. apply Nat.eqb_refl. }
  rewrite X. reflexivity.
Qed.

Lemma eqk_via a b c : eqk a c = true -> eqk b c = true -> eqk a b = true.
Proof. intros A B. rewrite (eqk_sym ltb) in B. exact (eqk_trans ltb swo _ _ _ A B). Qed.

Lemma move_W f e s : f PMovePush = false -> W s -> held s e -> ends (move_to_front ltb f e s) W.
Proof.
  intros HF H He. unfold move_to_front. unfold bind at 1, get_obj at 1.
  destruct (match list_begin _ with Some b => _ | None => false end); [exact H|].
  unfold bind at 1. rewrite (erase_held s e H He). unfold bind at 1, may_throw at 1. rewrite HF.
  unfold bind at 1, list_push_front at 1. unfold bind, get_obj. simpl.
  destruct H as [M N F]. destruct He as (ke & Hi & Hk).
  constructor; simpl.
  - rewrite Forall_forall in *. intros e' He'. apply in_map_iff in He' as (e0 & E0 & H0).
    destruct (eqk (fst e) (fst e0)) eqn:Q; subst e'.
    + exists (fst e). simpl. split; [left; reflexivity|]. now rewrite (eqk_sym ltb).
    + destruct (linked_erase _ _ _ e0 N Hi (M e0 H0)) as (k0 & H1 & H2).
      * rewrite <- (eqk_subst ltb swo (fst e) ke); assumption.
      * exists k0. split; [right; exact H1|exact H2].
  - constructor; [|now apply filter_NoDup_map]. intros Hn. apply in_map_iff in Hn as (x & E & Hx).
    apply filter_In in Hx as [Hx _]. rewrite Forall_forall in F. apply F in Hx. lia.
  - constructor; [simpl; lia|]. apply filter_Forall. eapply Forall_impl; [|exact F]. simpl. intros; lia.
Qed.

Lemma assign_W s e v : W s -> held s e ->
  W (mkSt (nxt s) (mkCache (m_capacity (obj s)) (m_list (obj s)) (map_set ltb (fst e) (v, snd (snd e)) (m_map (obj s))))).
Proof.
  intros [M N F] (ke & Hi & Hk). constructor; simpl; [|assumption|assumption].
  rewrite Forall_forall in *. intros e' He'. apply in_map_iff in He' as (e0 & E0 & H0).
  destruct (eqk (fst e) (fst e0)) eqn:Q; subst e'; [|exact (M e0 H0)].
  exists ke. simpl. split; [exact Hi|]. rewrite <- (eqk_subst ltb swo (fst e) (fst e0)); assumption.
Qed.

(** push_front followed by emplace *)
Lemma push_emplace_W (t : M unit) (k : K) (v : V) : (forall s, t s = Ret (s, Thrown) \/ t s = Ret (s, Val tt)) ->
  good (bind (list_push_front k) (fun _ => bind t (fun _ => bind get_obj (fun c =>
    match list_begin (m_list c) with
    | Some b => bind (put_map (map_emplace ltb k (v, b) (m_map c))) (fun _ => ret true)
    | None => ub
    end)))).
Proof.
  intros T s H. pose proof (good_push k s H) as H1. unfold list_push_front in *. unfold bind at 1.
  cbn [ends] in H1. match type of H1 with W ?x => set (s1 := x) in * end. unfold bind at 1.
  destruct (T s1) as [-> | ->]; [exact H1|].
  unfold bind, get_obj, s1; simpl.
  destruct H1 as [M N F]. constructor; simpl; [|exact N|exact F].
  unfold map_emplace. simpl in M. destruct (map_find ltb k (m_map (obj s))); [exact M|].
  constructor; [|exact M]. exists k. simpl. split; [left; reflexivity|]. apply (eqk_refl ltb swo).
Qed.

Lemma insert_W f k v b : f PMovePush = false -> good (insert_impl ltb f k v b).
Proof.
  intros HF s H. unfold insert_impl. unfold bind at 1, get_obj at 1.
  destruct (map_find ltb k (m_map (obj s))) as [e|] eqn:E.
  - pose proof (find_held _ _ _ H E) as He. destruct b; [|exact H].
    unfold bind at 1, may_throw at 1. destruct (f PAssign); [exact H|].
    unfold bind at 1, put_map at 1. pose proof (assign_W s e v H He) as H1.
    match type of H1 with W ?x => set (s1 := x) in * end.
    assert (He1 : held s1 (fst e, (v, snd (snd e)))) by exact He.
    unfold bind. pose proof (move_W f _ s1 HF H1 He1) as G. unfold ends in *.
    destruct (move_to_front ltb f (fst e, (v, snd (snd e))) s1) as [[s' [x|]]| | |]; exact G.
  - destruct (negb (m_capacity (obj s) =? 0)) eqn:Z; [|exact H].
    assert (P : good (bind (may_throw f PPushFront) (fun _ => bind (list_push_front k) (fun _ =>
        bind (may_throw f PEmplace) (fun _ => bind get_obj (fun c =>
        match list_begin (m_list c) with
        | Some b => bind (put_map (map_emplace ltb k (v, b) (m_map c))) (fun _ => ret true)
        | None => ub end)))))).
    { apply good_bind; [apply good_may|intros _]. apply push_emplace_W.
      intros s'. unfold may_throw. destruct (f PEmplace); auto. }
    unfold bind at 1. destruct (_ <=? _) eqn:L; [|exact (P s H)].
    destruct (evict_W s H) as (s' & E' & H' & _).
    { apply map_list; [assumption|]. apply Nat.leb_le in L. apply negb_true_iff, Nat.eqb_neq in Z. lia. }
    rewrite E'. exact (P s' H').
Qed.

Lemma find_c_cases cf k s : find_c (V:=V) ltb cf k s = Ret (s, Thrown) \/
  find_c ltb cf k s = Ret (s, Val (map_find ltb k (m_map (obj s)))).
Proof. unfold find_c, throw_if, bind. destruct (in_find cf); auto. Qed.

Lemma insert_c_W cf k v b : good (insert_c ltb cf k v b).
Proof.
  intros s H. unfold insert_c. unfold bind at 1. destruct (find_c_cases cf k s) as [-> | ->]; [exact H|].
  destruct (map_find ltb k (m_map (obj s))) as [e|] eqn:E.
  - pose proof (find_held _ _ _ H E) as He. destruct b; [|exact H].
    unfold bind at 1, get_obj at 1.
    unfold bind at 1, put_map at 1. pose proof (assign_W s e v H He) as H1.
    match type of H1 with W ?x => set (s1 := x) in * end.
    assert (He1 : held s1 (fst e, (v, snd (snd e)))) by exact He.
    unfold bind. pose proof (move_W no_fault _ s1 eq_refl H1 He1) as G. unfold ends in *.
    destruct (move_to_front ltb no_fault (fst e, (v, snd (snd e))) s1) as [[s' [x|]]| | |]; exact G.
  - unfold bind at 1, get_obj at 1. destruct (negb (m_capacity (obj s) =? 0)) eqn:Z; [|exact H].
    assert (P : good (bind (list_push_front k) (fun _ => bind (throw_if (in_emplace cf)) (fun _ => bind get_obj (fun c =>
        match list_begin (m_list c) with
        | Some b => bind (put_map (map_emplace ltb k (v, b) (m_map c))) (fun _ => ret true)
        | None => ub end))))).
    { apply push_emplace_W. intros s'. unfold throw_if. destruct (in_emplace cf); auto. }
    unfold bind at 1. destruct (_ <=? _) eqn:L; [|exact (P s H)].
    destruct (evict_c_W (throws_now (in_erase cf)) s H) as (s' & x & E' & H' & _).
    { apply map_list; [assumption|]. apply Nat.leb_le in L. apply negb_true_iff, Nat.eqb_neq in Z. lia. }
    rewrite E'. destruct x; [exact (P s' H')|exact H'].
Qed.

Lemma remove_held s e : W s -> held s e ->
  W (mkSt (nxt s) (mkCache (m_capacity (obj s)) (filter (fun x => negb (fst x =? snd (snd e))) (m_list (obj s)))
       (map_erase ltb (fst e) (m_map (obj s))))).
Proof.
  intros [M N F] (ke & Hi & Hk). constructor; simpl.
  - rewrite Forall_forall in *. intros e' He'. apply filter_In in He' as [He' Q]. apply negb_true_iff in Q.
    apply linked_erase with (k := ke); auto. rewrite <- (eqk_subst ltb swo (fst e) ke); assumption.
  - now apply filter_NoDup_map.
  - now apply filter_Forall.
Qed.

Lemma call_W f o : f PMovePush = false -> good (call ltb f o).
Proof.
  intros HF. destruct o; unfold call.
  - intros s H. exact H.
  - intros s H. exact H.
  - intros s H. exact H.
  - intros s H. exact H.
  - apply good_bind; [apply good_clear|intros _; apply good_ret].
  - apply good_bind; [apply set_capacity_W|intros _; apply good_ret].
  - apply good_bind; [apply insert_W, HF|intros x; apply good_ret].
  - apply good_bind; [apply insert_W, HF|intros x; apply good_ret].
  - apply good_bind; [|intros x; apply good_ret]. intros s H. unfold get. unfold bind at 1, get_obj at 1.
    destruct (map_find ltb k (m_map (obj s))) as [e|] eqn:E; [|exact H].
    unfold bind at 1, may_throw at 1. destruct (f PGetAssign); [exact H|].
    pose proof (move_W f e s HF H (find_held _ _ _ H E)) as G. unfold bind, ends in *.
    destruct (move_to_front ltb f e s) as [[s' [x|]]| | |]; exact G.
  - apply good_bind; [|intros x; apply good_ret]. intros s H. unfold remove. unfold bind at 1, get_obj at 1.
    destruct (map_find ltb k (m_map (obj s))) as [e|] eqn:E; [|exact H].
    unfold bind at 1. rewrite (erase_held s e H (find_held _ _ _ H E)).
    exact (remove_held s e H (find_held _ _ _ H E)).
Qed.

Lemma call_c_W cf o : good (call_c ltb cf o).
Proof.
  destruct o; unfold call_c.
  - intros s H. exact H.
  - intros s H. exact H.
  - intros s H. exact H.
  - intros s H. unfold contains_c. unfold bind. destruct (find_c_cases cf k s) as [-> | ->]; exact H.
  - apply good_bind; [apply good_clear|intros _; apply good_ret].
  - apply good_bind; [apply set_capacity_c_W|intros _; apply good_ret].
  - apply good_bind; [apply insert_c_W|intros x; apply good_ret].
  - apply good_bind; [apply insert_c_W|intros x; apply good_ret].
  - apply good_bind; [|intros x; apply good_ret]. intros s H. unfold get_c. unfold bind at 1.
    destruct (find_c_cases cf k s) as [-> | ->]; [exact H|].
    destruct (map_find ltb k (m_map (obj s))) as [e|] eqn:E; [|exact H].
    pose proof (move_W no_fault e s eq_refl H (find_held _ _ _ H E)) as G. unfold bind, ends in *.
    destruct (move_to_front ltb no_fault e s) as [[s' [x|]]| | |]; exact G.
  - apply good_bind; [|intros x; apply good_ret]. intros s H. unfold remove_c. unfold bind at 1.
    destruct (find_c_cases cf k s) as [-> | ->]; [exact H|].
    destruct (map_find ltb k (m_map (obj s))) as [e|] eqn:E; [|exact H].
    unfold bind at 1. rewrite (erase_held s e H (find_held _ _ _ H E)).
    exact (remove_held s e H (find_held _ _ _ H E)).
Qed.

Lemma W_new cap : W (mkSt 0 (new_cache cap)).
Proof. constructor; simpl; constructor. Qed.

Lemma run_faulty_W : forall ops s, W s -> (forall o f, In (o, f) ops -> f PMovePush = false) ->
  exists s' rs, run_faulty ltb s ops = Ret (s', rs) /\ length rs = length ops /\ W s'.
Proof.
  induction ops as [|[o f] ops IH]; intros s H E.
  - exists s, []. auto.
  - pose proof (call_W f o (E o f (or_introl eq_refl)) s H) as G. cbn [run_faulty]. unfold ends in G.
    destruct (call ltb f o s) as [[s1 r]| | |]; try contradiction.
    destruct (IH s1 G) as (s2 & rs & E2 & L2 & H2); [intros o' f' Hi; apply (E o'); right; assumption|].
    rewrite E2. do 2 eexists. split; [reflexivity|]. split; [simpl; congruence|assumption].
Qed.

Lemma run_c_W : forall ops s, W s ->
  exists s' rs, run_c ltb s ops = Ret (s', rs) /\ length rs = length ops /\ W s'.
Proof.
  induction ops as [|[o f] ops IH]; intros s H.
  - exists s, []. auto.
  - pose proof (call_c_W f o s H) as G. cbn [run_c]. unfold ends in G.
    destruct (call_c ltb f o s) as [[s1 r]| | |]; try contradiction.
    destruct (IH s1 G) as (s2 & rs & E2 & L2 & H2).
    rewrite E2. do 2 eexists. split; [reflexivity|]. split; [simpl; congruence|assumption].
Qed.

Theorem faulty_defined cap (ops : list (lru_op K V * faults)) : (forall o f, In (o, f) ops -> f PMovePush = false) ->
  exists s rs, run_faulty ltb (mkSt 0 (new_cache cap)) ops = Ret (s, rs) /\ length rs = length ops.
Proof. intros E. destruct (run_faulty_W ops _ (W_new cap) E) as (s & rs & E1 & L & _). eauto. Qed.

Theorem compare_defined cap (ops : list (lru_op K V * cmp_faults)) :
  exists s rs, run_c ltb (mkSt 0 (new_cache cap)) ops = Ret (s, rs) /\ length rs = length ops.
Proof. destruct (run_c_W ops _ (W_new cap)) as (s & rs & E1 & L & _). eauto. Qed.
End Defined.
