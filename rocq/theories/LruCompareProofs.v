(** Proofs about [LruCompareModel]: every history of calls in which looking up or erasing may
    throw follows [LruCompareSpec]. *)
From Coq Require Import List Bool Arith Lia Permutation.
From Verif Require Import Base LruApi LruModel LruSpec LruProofs LruCompareModel LruCompareSpec.
Import ListNotations.

Section Cmp.
Context {K V : Type}.
Variable ltb : K -> K -> bool.
Hypothesis swo : strict_weak_order ltb.
Local Notation eqk := (equivb ltb).
Notation item := (nat * (K * V))%type.
Notation sc := (scache (K:=K) (V:=V)).

(** Without throwing comparisons the calls are those of [LruModel]. *)
Lemma evict_c_false (s : st (K:=K) (V:=V)) : evict_lru_c ltb false s = evict_lru ltb s.
Proof. unfold evict_lru_c, evict_lru, bind, get_obj, throw_if. destruct (list_last _) as [[? ?]|]; reflexivity. Qed.

Lemma evict_while_c_none : forall fuel (s : st (K:=K) (V:=V)),
  evict_while_c ltb None fuel s = evict_while ltb fuel s.
Proof.
  induction fuel as [|fuel IH]; intros s; simpl; unfold bind, get_obj; destruct (_ <? _); try reflexivity.
  rewrite evict_c_false. destruct (evict_lru ltb s) as [[s' [[]|]]| | |]; auto.
Qed.

Lemma insert_c_eq cf k v b (s : st (K:=K) (V:=V)) :
  in_find cf = false -> in_emplace cf = false -> throws_now (in_erase cf) = false ->
  insert_c ltb cf k v b s = insert_impl ltb no_fault k v b s.
Proof.
  intros F E T. unfold insert_c, insert_impl, find_c, throw_if, bind, get_obj, ret, may_throw. rewrite F, E, T. simpl.
  destruct (map_find ltb k (m_map (obj s))) as [e|].
  - destruct b; reflexivity.
  - destruct (negb _); [|reflexivity].
    destruct (_ <=? _); [|reflexivity]. now rewrite evict_c_false.
Qed.

Lemma call_c_no_cmp o (s : st (K:=K) (V:=V)) : call_c ltb no_cmp o s = call ltb no_fault o s.
Proof.
  destruct o; unfold call_c, call; try reflexivity.
  - (* capacity *)
    unfold set_capacity_c, set_capacity, bind, put_capacity, get_obj.
    cbn [obj m_capacity m_list in_erase no_cmp].
    destruct (n =? 0); [reflexivity|]. now rewrite evict_while_c_none.
  - unfold insert, bind. now rewrite insert_c_eq.
  - unfold insert_or_assign, bind. now rewrite insert_c_eq.
  - unfold remove_c, remove, find_c, throw_if, bind, get_obj, ret. simpl.
    destruct (map_find ltb k (m_map (obj s))) as [e|]; [|reflexivity].
    unfold list_erase, bind, get_obj. destruct (existsb _ _); reflexivity.
Qed.

(** Only the two tests of insert look at the capacity. *)
Definition rc (m : nat) (s : st (K:=K) (V:=V)) : st :=
  mkSt (nxt s) (mkCache m (m_list (obj s)) (m_map (obj s))).
Definition omap {A} (m : nat) (x : outcome (st (K:=K) (V:=V) * exn A)) : outcome (st * exn A) :=
  match x with Ret (s, r) => Ret (rc m s, r) | Ub => Ub | Throw => Throw | OutOfFuel => OutOfFuel end.
Definition comm {A} m (f : M (K:=K) (V:=V) A) : Prop := forall s, f (rc m s) = omap m (f s).

Lemma comm_bind {A B} m (f : M (K:=K) (V:=V) A) (g : A -> M B) :
  comm m f -> (forall x, comm m (g x)) -> comm m (bind f g).
Proof.
  intros F G s. unfold bind. rewrite F. destruct (f s) as [[s' [x|]]| | |]; simpl; auto. apply G.
Qed.
Lemma comm_get {A} m (f : cache -> M (K:=K) (V:=V) A) s :
  f (obj (rc m s)) (rc m s) = omap m (f (obj s) s) -> bind get_obj f (rc m s) = omap m (bind get_obj f s).
Proof. intros E. exact E. Qed.
Lemma comm_ret {A} m (x : A) : comm m (ret x).
Proof. intros s. reflexivity. Qed.
Lemma comm_put_list m l : comm m (put_list l).
Proof. intros s. reflexivity. Qed.
Lemma comm_put_map m l : comm m (put_map l).
Proof. intros s. reflexivity. Qed.
Lemma comm_push m k : comm m (list_push_front k).
Proof. intros s. reflexivity. Qed.
Lemma comm_erase m n : comm m (list_erase n).
Proof. intros s. unfold list_erase, bind, get_obj. simpl. destruct (existsb _ _); reflexivity. Qed.
Lemma comm_evict m : comm m (evict_lru ltb).
Proof.
  intros s. unfold evict_lru. apply comm_get. cbn [obj rc m_list m_map].
  destruct (list_last _) as [[n k]|]; [|reflexivity].
  apply (comm_bind m (put_map _) (fun _ => list_erase n)); [apply comm_put_map|intros _; apply comm_erase].
Qed.
Lemma comm_move m e : comm m (move_to_front ltb no_fault e).
Proof.
  intros s. unfold move_to_front. apply comm_get. cbn [obj rc m_list].
  destruct (match list_begin _ with Some b => _ | None => false end); [reflexivity|].
  apply comm_bind; [apply comm_erase|intros _ s'; reflexivity].
Qed.
Lemma comm_put_emplace m (k : K) (v : V) : comm m (bind get_obj (fun c =>
   match list_begin (m_list c) with
   | Some b => bind (put_map (map_emplace ltb k (v, b) (m_map c))) (fun _ => ret true)
   | None => ub end)).
Proof. intros s. unfold bind, get_obj. simpl. destruct (list_begin _); reflexivity. Qed.

Lemma insert_recap m k v b (s : st (K:=K) (V:=V)) :
  (m =? 0) = (m_capacity (obj s) =? 0) ->
  (m <=? length (m_map (obj s))) = (m_capacity (obj s) <=? length (m_map (obj s))) ->
  insert_impl ltb no_fault k v b (rc m s) = omap m (insert_impl ltb no_fault k v b s).
Proof.
  intros Z L. unfold insert_impl. apply comm_get. cbn [obj rc m_map m_capacity].
  destruct (map_find ltb k (m_map (obj s))) as [e|].
  - destruct b; [|reflexivity].
    apply (comm_bind m (may_throw no_fault PAssign)); [intros ?; reflexivity|intros _].
    apply comm_bind; [apply comm_put_map|intros _].
    apply comm_bind; [apply comm_move|intros _]. apply comm_ret.
  - rewrite Z, L. destruct (negb _); [|reflexivity].
    apply comm_bind.
    + destruct (m_capacity (obj s) <=? _); [apply comm_evict|apply comm_ret].
    + intros _. apply comm_bind; [intros ?; reflexivity|intros _].
      apply comm_bind; [apply comm_push|intros _].
      apply comm_bind; [intros ?; reflexivity|intros _]. apply comm_put_emplace.
Qed.

Definition sizing (o : lru_op K V) : bool := match o with Capacity | SetCapacity _ => true | _ => false end.

Lemma call_recap m o (s : st (K:=K) (V:=V)) : sizing o = false ->
  (m =? 0) = (m_capacity (obj s) =? 0) ->
  (m <=? length (m_map (obj s))) = (m_capacity (obj s) <=? length (m_map (obj s))) ->
  call ltb no_fault o (rc m s) = omap m (call ltb no_fault o s).
Proof.
  intros O Z L. destruct o; try discriminate; unfold call; try reflexivity.
  - unfold insert. unfold bind. rewrite insert_recap by assumption.
    destruct (insert_impl _ _ _ _ _ s) as [[s' [x|]]| | |]; reflexivity.
  - unfold insert_or_assign. unfold bind. rewrite insert_recap by assumption.
    destruct (insert_impl _ _ _ _ _ s) as [[s' [x|]]| | |]; reflexivity.
  - apply comm_bind; [|intros; apply comm_ret]. intros s'. unfold get. apply comm_get. cbn [obj rc m_map].
    destruct (map_find _ _ _) as [e|]; [|reflexivity].
    apply comm_bind; [intros ?; reflexivity|intros _].
    apply comm_bind; [apply comm_move|intros _]. apply comm_ret.
  - apply comm_bind; [|intros; apply comm_ret]. intros s'. unfold remove. apply comm_get. cbn [obj rc m_map].
    destruct (map_find _ _ _) as [e|]; [|reflexivity].
    apply comm_bind; [apply comm_erase|intros _].
    apply comm_bind; [apply comm_put_map|intros _]. apply comm_ret.
Qed.

(** The invariant: a cache that may hold more pairs than its capacity (but not with capacity 0). *)
Definition room (a : sc) : nat := max (s_cap a) (length (s_items a)).
Record RO (n : nat) (c : cache (K:=K) (V:=V)) (a : sc) : Prop := {
  ro_R : R ltb n (mkCache (room a) (m_list c) (m_map c)) (mkS (room a) (s_items a));
  ro_cap : m_capacity c = s_cap a;
  ro_zero : s_cap a = 0 -> s_items a = []
}.

Lemma R_recap n c (a : sc) m : R ltb n c a -> length (s_items a) <= m ->
  R ltb n (mkCache m (m_list c) (m_map c)) (mkS m (s_items a)).
Proof.
  intros [l H] B. exists l. apply repr_recap with (1 := H).
  now rewrite (rep_items _ _ _ _ _ H), map_length in B.
Qed.

Lemma RO_new cap : RO 0 (new_cache cap) (mkS cap []).
Proof.
  constructor; simpl; auto. exists []. constructor; simpl; auto; try constructor. lia.
Qed.

Lemma RO_repr' n c a : RO n c a -> exists l, s_items a = map snd l /\
  forall m, repr' ltb n (mkCache m (m_list c) (m_map c)) m l.
Proof.
  intros [[l H] C Z]. exists l. split; [apply (rep_items _ _ _ _ _ H)|].
  intros m. split; [|reflexivity]. simpl.
  pose proof (repr_recap ltb _ _ _ _ (length l) H (Nat.le_refl _)) as P. simpl in P.
  pose proof (rep_items _ _ _ _ _ H) as I. simpl in I. now rewrite I in P.
Qed.

Lemma repr'_RO n c m l : repr' ltb n c m l -> (m = 0 -> l = []) -> RO n c (mkS m (map snd l)).
Proof.
  intros [H C] Z. constructor; simpl.
  - unfold room; simpl. rewrite map_length. exists l.
    apply repr_recap with (2 := Nat.le_max_r m (length l)) in H. exact H.
  - assumption.
  - intros E. rewrite (Z E). reflexivity.
Qed.

Lemma RO_length n c a : RO n c a -> length (m_map c) = length (s_items a).
Proof.
  intros [[l H] _ _]. pose proof (length_map_repr ltb _ _ _ _ H) as E. simpl in E.
  rewrite E. pose proof (rep_items _ _ _ _ _ H) as I. simpl in I. now rewrite I, map_length.
Qed.

Lemma RO_find n c a k : RO n c a ->
  match map_find ltb k (m_map c), s_find ltb k (s_items a) with
  | Some _, Some _ | None, None => True | _, _ => False end.
Proof.
  intros [[l H] _ _].
  pose proof (map_find_repr ltb swo _ _ _ _ k H) as E1. pose proof (s_find_repr ltb _ _ _ _ k H) as E2.
  simpl in E1, E2. rewrite E1, E2. destruct (find _ l); simpl; auto.
Qed.

Lemma over_room (a : sc) : (s_cap a = 0 -> s_items a = []) ->
  (s_cap a =? 0) = (room a =? 0) /\ (s_cap a <=? length (s_items a)) = (room a <=? length (s_items a)).
Proof.
  intros Z. unfold room. split.
  - destruct (s_cap a) eqn:E; [now rewrite Z|]. simpl. destruct (length (s_items a)); reflexivity.
  - apply eq_true_iff_eq. rewrite !Nat.leb_le. lia.
Qed.

Lemma s_call_cap (a : sc) o : sizing o = false -> s_cap (fst (s_call ltb a o)) = s_cap a.
Proof.
  intros O. destruct o; try discriminate; simpl; try reflexivity; destruct (s_find ltb _ _) as [[? ?]|]; reflexivity.
Qed.

(** What one call that does not throw does. *)
Lemma plain_ok n c a o : RO n c a -> sizing o = false ->
  exists n' c', call ltb no_fault o (mkSt n c) = Ret (mkSt n' c', Val (snd (over_call ltb a o))) /\
    RO n' c' (fst (over_call ltb a o)).
Proof.
  intros H O. destruct (over_room a (ro_zero _ _ _ H)) as [Z L].
  destruct (call_refines ltb swo _ _ _ o (ro_R _ _ _ H)) as (n' & c1 & r & E & Hr & H1 & _).
  exists n', (mkCache (s_cap a) (m_list c1) (m_map c1)).
  pose proof (call_recap (s_cap a) o (mkSt n (mkCache (room a) (m_list c) (m_map c))) O) as RCP.
  cbn [obj m_capacity m_map] in RCP. rewrite (RO_length _ _ _ H) in RCP. specialize (RCP Z L).
  unfold rc in RCP. cbn [obj nxt m_list m_map] in RCP.
  assert (EC : mkCache (s_cap a) (m_list c) (m_map c) = c).
  { rewrite <- (ro_cap _ _ _ H). destruct c; reflexivity. }
  rewrite EC, E in RCP.
  assert (OC : over_call ltb a o = (mkS (s_cap a) (s_items (fst (s_call ltb (mkS (room a) (s_items a)) o))),
                                    snd (s_call ltb (mkS (room a) (s_items a)) o))).
  { destruct o; try discriminate; unfold over_call, room; destruct (s_call _ _ _); reflexivity. }
  rewrite OC. cbn [fst snd]. rewrite <- Hr. split; [exact RCP|].
  constructor; cbn [s_cap s_items m_list m_map m_capacity].
  - apply R_recap with (1 := H1). unfold room. simpl. lia.
  - reflexivity.
  - intros E0. destruct H1 as [l1 H1].
    pose proof (rep_bound _ _ _ _ _ H1) as B. rewrite (s_call_cap _ _ O) in B. cbn [s_cap] in B.
    apply Nat.eqb_eq in E0. rewrite Z in E0. apply Nat.eqb_eq in E0. rewrite E0 in B.
    rewrite (rep_items _ _ _ _ _ H1). destruct l1; [reflexivity|simpl in B; lia].
Qed.

(** The loop of capacity(n). *)
Definition stops (e : option nat) (m : nat) (l : list item) : option nat :=
  match e with Some i => if i + m <? length l then Some i else None | None => None end.

Lemma evict_c_true n (c : cache (K:=K) (V:=V)) m (l : list item) : repr' ltb n c m l -> 0 < length l -> evict_lru_c ltb true (mkSt n c) = Ret (mkSt n c, Thrown).
Proof.
  intros [H _] L. unfold evict_lru_c, bind, get_obj. cbn [obj].
  pose proof (rep_list _ _ _ _ _ H) as EL. simpl in EL. rewrite EL.
  destruct l as [|x l]; [simpl in L; lia|]. simpl. destruct (last _ _). reflexivity.
Qed.

Lemma evict_while_c_spec : forall fuel e n c m l, repr' ltb n c m l -> m <> 0 -> length l <= fuel ->
  exists c', match stops e m l with
  | Some i => evict_while_c ltb e fuel (mkSt n c) = Ret (mkSt n c', Thrown) /\ repr' ltb n c' m (firstn (length l - i) l)
  | None => evict_while_c ltb e fuel (mkSt n c) = Ret (mkSt n c', Val tt) /\ repr' ltb n c' m (firstn m l)
  end.
Proof.
  induction fuel as [|fuel IH]; intros e n c m l H Hm Hf.
  - destruct l; [|simpl in Hf; lia]. exists c.
    assert (EL : length (m_map c) = 0).
    { destruct H as [H _]. apply length_map_repr in H. exact H. }
    assert (ES : stops e m [] = None).
    { destruct e; reflexivity. }
    rewrite ES. simpl. unfold bind, get_obj. simpl. rewrite EL. simpl. rewrite firstn_nil. auto.
  - assert (EL : length (m_map c) = length l).
    { destruct H as [H _]. apply length_map_repr in H. exact H. }
    cbn [evict_while_c]. unfold bind at 1 3, get_obj. cbn [obj]. rewrite EL, (rep'_cap _ _ _ _ _ H).
    destruct (m <? length l) eqn:E.
    + apply Nat.ltb_lt in E.
      destruct (last_snoc_case l) as [->|(l0 & x & ->)]; [simpl in E; lia|].
      rewrite app_length in *. simpl in E, Hf.
      destruct (throws_now e) eqn:T.
      * destruct e as [[|i]|]; try discriminate T. exists c.
        assert (S0 : stops (Some 0) m (l0 ++ [x]) = Some 0).
        { simpl. rewrite app_length. simpl. destruct (m <? _) eqn:E'; [reflexivity|apply Nat.ltb_ge in E'; lia]. }
        rewrite S0. unfold bind. rewrite (evict_c_true _ _ _ _ H) by (rewrite app_length; simpl; lia).
        split; [reflexivity|]. rewrite Nat.sub_0_r, firstn_all2; [assumption|rewrite app_length; simpl; lia].
      * destruct (evict_spec' ltb swo _ _ _ _ _ H) as (c1 & E1 & H1).
        destruct (IH (one_less e) n c1 m l0 H1 Hm) as (c2 & E2); [lia|].
        exists c2. unfold bind. rewrite evict_c_false, E1.
        destruct e as [[|i]|]; try discriminate T.
        -- assert (SE : stops (Some (S i)) m (l0 ++ [x]) = option_map S (stops (Some i) m l0)).
           { simpl. rewrite app_length. simpl.
             destruct (i + m <? length l0) eqn:A, (S (i + m) <? length l0 + 1) eqn:B; try reflexivity;
               rewrite ?Nat.ltb_lt, ?Nat.ltb_ge in *; lia. }
           rewrite SE. cbn [one_less] in E2.
           destruct (stops (Some i) m l0) as [j|] eqn:SJ; cbn [option_map].
           ++ destruct E2 as [E2 H2]. split; [exact E2|].
              simpl in SJ. destruct (i + m <? length l0) eqn:A; [|discriminate]. injection SJ as <-.
              apply Nat.ltb_lt in A.
              rewrite ?app_length; cbn [length]; replace (length l0 + 1 - S i) with (length l0 - i) by lia.
              rewrite firstn_app. replace (length l0 - i - length l0) with 0 by lia.
              simpl. now rewrite app_nil_r.
           ++ destruct E2 as [E2 H2]. split; [exact E2|].
              rewrite firstn_app. replace (m - length l0) with 0 by lia. simpl. now rewrite app_nil_r.
        -- cbn [one_less stops] in *. destruct E2 as [E2 H2]. split; [exact E2|].
           rewrite firstn_app. replace (m - length l0) with 0 by lia. simpl. now rewrite app_nil_r.
    + apply Nat.ltb_ge in E. exists c.
      assert (ES : stops e m l = None).
      { destruct e; [|reflexivity]. simpl. destruct (_ <? _) eqn:E'; [apply Nat.ltb_lt in E'; lia|reflexivity]. }
      rewrite ES. unfold ret. split; [reflexivity|]. rewrite firstn_all2 by lia. assumption.
Qed.

(** Every call, whether or not it throws. *)
Lemma call_c_ok n c a o cf : RO n c a -> in_emplace cf = false ->
  exists n' c', call_c ltb cf o (mkSt n c) =
      Ret (mkSt n' c', match snd (cmp_step ltb a (o, (in_find cf, in_erase cf))) with Some r => Val r | None => Thrown end) /\
    RO n' c' (fst (cmp_step ltb a (o, (in_find cf, in_erase cf)))).
Proof.
  intros H EM. unfold cmp_step. cbn [fst snd]. unfold cmp_throw.
  destruct (looks_up o && in_find cf) eqn:LK.
  { (* the lookup throws *)
    apply andb_true_iff in LK as [LO LF]. exists n, c. cbn [fst snd]. split; [|assumption].
    destruct o; try discriminate LO; unfold call_c, contains_c, insert_c, get_c, remove_c, find_c, throw_if, bind;
      rewrite LF; reflexivity. }
  assert (INS : forall k v b, in_find cf = false ->
    (match map_find ltb k (m_map c) with
     | None => negb (m_capacity c =? 0) && (m_capacity c <=? length (m_map c)) && throws_now (in_erase cf) = false
     | Some _ => True end) ->
    insert_c ltb cf k v b (mkSt n c) = insert_impl ltb no_fault k v b (mkSt n c)).
  { intros k v b F T. unfold insert_c, insert_impl, find_c, throw_if, bind, get_obj, ret, may_throw. rewrite F, EM.
    cbn [obj].
    destruct (map_find ltb k (m_map c)) as [e|].
    - destruct b; reflexivity.
    - destruct (negb _); [|reflexivity].
      destruct (_ <=? _); [|reflexivity]. simpl in T. rewrite T. now rewrite evict_c_false. }
  assert (MR : forall k v, (o = Insert k v \/ o = InsertOrAssign k v) ->
    match map_find ltb k (m_map c) with
    | None => negb (m_capacity c =? 0) && (m_capacity c <=? length (m_map c)) = makes_room ltb a o
    | Some _ => makes_room ltb a o = false end).
  { intros k v EO. pose proof (RO_find _ _ _ k H) as FK. rewrite (RO_length _ _ _ H), (ro_cap _ _ _ H).
    destruct EO as [->| ->]; simpl; destruct (map_find _ _ _), (s_find _ _ _); auto; contradiction. }
  destruct (makes_room ltb a o) eqn:RM.
  - (* a new key, no room *)
    assert (exists k v, o = Insert k v \/ o = InsertOrAssign k v) as (k & v & EO).
    { destruct o; try discriminate RM; eauto. }
    assert (LO : looks_up o = true) by (destruct EO as [->| ->]; reflexivity).
    rewrite LO in LK. cbn [andb] in LK.
    specialize (MR k v EO). 
    destruct (map_find ltb k (m_map c)) as [e|] eqn:F; [discriminate|].
    assert (SZ : sizing o = false) by (destruct EO as [->| ->]; reflexivity).
    destruct (throws_now (in_erase cf)) eqn:T.
    + assert (EE : in_erase cf = Some 0).
      { destruct (in_erase cf) as [[|]|]; try discriminate T. reflexivity. }
      rewrite EE. exists n, c. cbn [fst snd]. split; [|assumption].
      destruct (RO_repr' _ _ _ H) as (l & IL & RP). specialize (RP (m_capacity c)).
      assert (EC : mkCache (m_capacity c) (m_list c) (m_map c) = c) by (destruct c; reflexivity).
      rewrite EC in RP. apply andb_true_iff in MR as [M1 M2].
      assert (E0 : evict_lru_c ltb true (mkSt n c) = Ret (mkSt n c, Thrown)).
      { apply evict_c_true with (1 := RP). apply Nat.leb_le in M2. rewrite (RO_length _ _ _ H), IL, map_length in M2.
        apply negb_true_iff, Nat.eqb_neq in M1. lia. }
      assert (EI : forall b, insert_c ltb cf k v b (mkSt n c) = Ret (mkSt n c, Thrown)).
      { intros b. unfold insert_c, find_c, throw_if, bind, get_obj, ret. rewrite LK. cbn [obj].
        rewrite F. cbn [obj]. rewrite M1, M2, T, E0. reflexivity. }
      destruct EO as [->| ->]; unfold call_c, bind; rewrite EI; reflexivity.
    + assert (EN : match in_erase cf with Some 0 => Some a | _ => None end = None).
      { destruct (in_erase cf) as [[|]|]; try discriminate T; reflexivity. }
      rewrite EN. cbn [fst snd].
      destruct (plain_ok _ _ _ o H SZ) as (n' & c' & E & H'). exists n', c'. split; [|assumption].
      rewrite <- E. 
      destruct EO as [->| ->]; unfold call_c, call, insert, insert_or_assign, bind; rewrite INS; try reflexivity; try assumption;
        rewrite F; apply andb_false_r.
  - destruct (sizing o) eqn:SZ.
    + destruct o as [| | | | |m| | | |]; try discriminate SZ.
      * (* capacity() *)
        exists n, c. destruct (in_erase cf); cbn [fst snd over_call]; split; auto;
          unfold call_c, capacity, bind, get_obj, ret; cbn [obj]; now rewrite (ro_cap _ _ _ H).
      * (* capacity(m) *)
        destruct (RO_repr' _ _ _ H) as (l & IL & RP). specialize (RP m).
        rewrite IL, map_length.
        destruct m as [|m].
        -- exists n, (mkCache 0 [] []).
           assert (ES : match in_erase cf with
                        | Some i => if negb (0 =? 0) && (i + 0 <? length l)
                                    then Some (mkS 0 (firstn (length l - i) (map snd l))) else None
                        | None => None end = None) by (destruct (in_erase cf); reflexivity).
           rewrite ES. cbn [fst snd over_call]. split; [reflexivity|].
           constructor; cbn [s_cap s_items firstn]; auto.
           exists []. constructor; simpl; auto; constructor.
        -- destruct (evict_while_c_spec (S (length l)) (in_erase cf) _ _ _ _ RP) as (c' & E); [lia|lia|].
           exists n, c'.
           assert (EQ : call_c ltb cf (SetCapacity (S m)) (mkSt n c) =
             match evict_while_c ltb (in_erase cf) (S (length l)) (mkSt n (mkCache (S m) (m_list c) (m_map c))) with
             | Ret (s', Val _) => Ret (s', Val RUnit) | Ret (s', Thrown) => Ret (s', Thrown)
             | Ub => Ub | Throw => Throw | OutOfFuel => OutOfFuel end).
           { unfold call_c, set_capacity_c, bind at 1 2 3, put_capacity, get_obj. cbn [obj m_capacity m_list m_map nxt].
             change (S m =? 0) with false. cbn iota.
             assert (LL : length (m_list c) = length l).
             { destruct RP as [RP _]. pose proof (rep_list _ _ _ _ _ RP) as LL. simpl in LL. now rewrite LL, map_length. }
             rewrite LL. destruct (evict_while_c _ _ _ _) as [[s' [[]|]]| | |]; reflexivity. }
           rewrite EQ. unfold stops in E. destruct (in_erase cf) as [i|].
           ++ cbn [Nat.eqb negb andb]. destruct (i + S m <? length l).
              ** destruct E as [E H2]. rewrite E. cbn [fst snd]. split; [reflexivity|].
                 rewrite firstn_map. apply repr'_RO; [exact H2|discriminate].
              ** destruct E as [E H2]. rewrite E. cbn [fst snd over_call s_items]. split; [reflexivity|].
                 rewrite IL, firstn_map. apply repr'_RO; [exact H2|discriminate].
           ++ destruct E as [E H2]. rewrite E. cbn [fst snd over_call s_items]. split; [reflexivity|].
              rewrite IL, firstn_map. apply repr'_RO; [exact H2|discriminate].
    + (* no comparison throws *)
      assert (EN : match o with
                   | SetCapacity m => match in_erase cf with
                        | Some i => if negb (m =? 0) && (i + m <? length (s_items a))
                                    then Some (mkS m (firstn (length (s_items a) - i) (s_items a))) else None
                        | None => None end
                   | _ => None (A := sc) end = None) by (destruct o; try discriminate SZ; reflexivity).
      assert (EN' : match o, in_erase cf with
                   | SetCapacity m, Some i => if negb (m =? 0) && (i + m <? length (s_items a))
                                    then Some (mkS m (firstn (length (s_items a) - i) (s_items a))) else None
                   | _, _ => None (A := sc) end = None) by (destruct o; try discriminate SZ; destruct (in_erase cf); reflexivity).
      rewrite EN'. cbn [fst snd].
      destruct (plain_ok _ _ _ o H SZ) as (n' & c' & E & H'). exists n', c'. split; [|assumption].
      rewrite <- E.
      destruct o as [| | |k| |m|k v|k v|k v0|k]; try discriminate SZ; try reflexivity; cbn [looks_up andb] in LK.
      * unfold call_c, contains_c, find_c, throw_if, bind. rewrite LK. reflexivity.
      * unfold call_c, call, insert, bind. rewrite INS; auto.
        specialize (MR k v (or_introl eq_refl)). destruct (map_find _ _ _); auto. rewrite MR. reflexivity.
      * unfold call_c, call, insert_or_assign, bind. rewrite INS; auto.
        specialize (MR k v (or_intror eq_refl)). destruct (map_find _ _ _); auto. rewrite MR. reflexivity.
      * unfold call_c, get_c, find_c, throw_if, bind. rewrite LK. reflexivity.
      * unfold call_c, call, remove_c, remove, find_c, throw_if, bind, get_obj, ret. rewrite LK. cbn [obj].
        destruct (map_find ltb k (m_map c)) as [e|]; [|reflexivity].
        unfold list_erase, bind, get_obj. cbn [obj]. destruct (existsb _ _); reflexivity.
Qed.

Definition plain (x : lru_op K V * cmp_faults) : lru_op K V * (bool * option nat) :=
  (fst x, (in_find (snd x), in_erase (snd x))).

Lemma run_c_ok : forall ops n c a, RO n c a -> (forall o cf, In (o, cf) ops -> in_emplace cf = false) ->
  exists n' c', run_c ltb (mkSt n c) ops = Ret (mkSt n' c', snd (cmp_run ltb a (map plain ops))) /\
    RO n' c' (fst (cmp_run ltb a (map plain ops))).
Proof.
  induction ops as [|[o cf] ops IH]; intros n c a H E.
  - exists n, c. split; [reflexivity|assumption].
  - destruct (call_c_ok n c a o cf H) as (n1 & c1 & E1 & H1); [apply (E o); left; reflexivity|].
    destruct (IH n1 c1 _ H1) as (n2 & c2 & E2 & H2); [intros; apply (E o0); right; assumption|].
    exists n2, c2. cbn [run_c map cmp_run]. rewrite E1, E2.
    change (plain (o, cf)) with (o, (in_find cf, in_erase cf)).
    destruct (cmp_step ltb a (o, (in_find cf, in_erase cf))) as [a1 r]. cbn [fst snd] in *.
    destruct (cmp_run ltb a1 (map plain ops)) as [a2 rs]. cbn [fst snd] in *.
    split; [|assumption]. destruct r; reflexivity.
Qed.

Theorem cmp_history cap (ops : list (lru_op K V * cmp_faults)) :
  (forall o cf, In (o, cf) ops -> in_emplace cf = false) ->
  exists s, run_c ltb (mkSt 0 (new_cache cap)) ops =
    Ret (s, snd (cmp_run ltb (mkS cap []) (map (fun x => (fst x, (in_find (snd x), in_erase (snd x)))) ops))).
Proof.
  intros E. destruct (run_c_ok ops 0 (new_cache cap) (mkS cap []) (RO_new cap) E) as (n' & c' & E1 & _).
  exists (mkSt n' c'). exact E1.
Qed.

(** A cache above its capacity keeps its size. *)
Lemma without_apart k (l : list item) : apart ltb l -> length l <= S (length (without ltb k l)).
Proof.
  unfold without. induction 1 as [|x l F A IH]; simpl; [lia|].
  destruct (eqk k (kf x)) eqn:E; simpl; [|lia].
  assert (W : filter (fun y => negb (eqk k (kf y))) l = l).
  { apply filter_all. intros y Hy. rewrite Forall_forall in F. specialize (F y Hy).
    rewrite (eqk_subst ltb swo k (kf x)) by assumption. now rewrite F. }
  rewrite W. lia.
Qed.

Lemma over_stays n c a o : RO n c a -> shrinks o = false -> s_cap a < length (s_items a) ->
  length (s_items (fst (over_call ltb a o))) = length (s_items a).
Proof.
  intros H S L. destruct (sizing o) eqn:SZ; [destruct o; try discriminate; reflexivity|].
  assert (ER : room a = length (s_items a)) by (unfold room; lia).
  destruct (call_refines ltb swo _ _ _ o (ro_R _ _ _ H)) as (n' & c1 & r & _ & _ & [l1 H1] & _).
  pose proof (rep_bound _ _ _ _ _ H1) as B. rewrite (s_call_cap _ _ SZ) in B. cbn [s_cap] in B.
  assert (EO : s_items (fst (over_call ltb a o)) = s_items (fst (s_call ltb (mkS (room a) (s_items a)) o))).
  { destruct o; try discriminate; unfold over_call, room; destruct (s_call _ _ _); reflexivity. }
  rewrite EO. pose proof (rep_items _ _ _ _ _ H1) as I1.
  assert (B1 : length (s_items (fst (s_call ltb (mkS (room a) (s_items a)) o))) <= length (s_items a)).
  { rewrite I1, map_length. lia. }
  enough (length (s_items a) <= length (s_items (fst (s_call ltb (mkS (room a) (s_items a)) o)))) by lia.
  clear - swo H S SZ L ER. destruct (ro_R _ _ _ H) as [l Hl].
  assert (W : forall k, length (s_items a) <= 1 + length (s_without ltb k (s_items a))).
  { intros k. pose proof (rep_items _ _ _ _ _ Hl) as I. cbn [s_items] in I. rewrite I.
    unfold s_without. rewrite filter_map, !map_length. apply (without_apart k l (rep_keys _ _ _ _ _ Hl)). }
  destruct o; try discriminate; simpl; try lia.
  - destruct (s_find ltb k (s_items a)) as [[? ?]|]; simpl; [lia|]. rewrite firstn_length, ER. simpl. lia.
  - destruct (s_find ltb k (s_items a)) as [[? ?]|]; simpl; [apply W|]. rewrite firstn_length, ER. simpl. lia.
  - destruct (s_find ltb k (s_items a)) as [[? ?]|]; simpl; [apply W|lia].
Qed.

Lemma step_cap (a : sc) x : resizes (fst x) = false -> s_cap (fst (cmp_step ltb a x)) = s_cap a.
Proof.
  destruct x as [o [b e]]. cbn [fst]. intros S. unfold cmp_step, cmp_throw. cbn [fst snd].
  destruct (looks_up o && b); [reflexivity|].
  destruct (makes_room ltb a o).
  - assert (s_cap (fst (over_call ltb a o)) = s_cap a).
    { destruct o; try discriminate; unfold over_call; try reflexivity; destruct (s_call _ _ _); reflexivity. }
    destruct e as [[|]|]; cbn [fst]; auto.
  - destruct o; try discriminate; destruct e; cbn [fst]; unfold over_call; try reflexivity; destruct (s_call _ _ _); reflexivity.
Qed.

Lemma step_stays n c a x : RO n c a -> shrinks (fst x) = false -> s_cap a < length (s_items a) ->
  length (s_items (fst (cmp_step ltb a x))) = length (s_items a).
Proof.
  destruct x as [o [b e]]. cbn [fst]. intros H S L. pose proof (over_stays _ _ _ o H S L) as OS.
  unfold cmp_step, cmp_throw. cbn [fst snd].
  destruct (looks_up o && b); [reflexivity|].
  destruct (makes_room ltb a o).
  - destruct e as [[|]|]; cbn [fst]; auto.
  - destruct o; try discriminate; destruct e; cbn [fst]; auto.
Qed.

Lemma run_stays : forall ops n c a, RO n c a -> (forall x, In x ops -> shrinks (fst x) = false) ->
  s_cap a < length (s_items a) ->
  length (s_items (fst (cmp_run ltb a ops))) = length (s_items a) /\ s_cap (fst (cmp_run ltb a ops)) = s_cap a.
Proof.
  induction ops as [|x ops IH]; intros n c a H S L; [split; reflexivity|].
  assert (Sx : shrinks (fst x) = false) by (apply S; left; reflexivity).
  pose proof (step_stays _ _ _ x H Sx L) as EL.
  assert (EC : s_cap (fst (cmp_step ltb a x)) = s_cap a).
  { apply step_cap. destruct (fst x); try reflexivity; discriminate. }
  destruct x as [o [b e]].
  destruct (call_c_ok n c a o (mkCmp b e false) H eq_refl) as (n1 & c1 & _ & H1). cbn [in_find in_erase] in H1.
  destruct (IH n1 c1 _ H1) as [E1 E2]; [intros; apply S; right; assumption|lia|].
  cbn [cmp_run]. destruct (cmp_step ltb a (o, (b, e))) as [a1 r]. cbn [fst] in *.
  destruct (cmp_run ltb a1 ops) as [a2 rs]. cbn [fst] in *. split; congruence.
Qed.

Lemma run_RO : forall ops n c a, RO n c a -> exists n' c', RO n' c' (fst (cmp_run ltb a ops)).
Proof.
  induction ops as [|[o [b e]] ops IH]; intros n c a H; [eauto|].
  destruct (call_c_ok n c a o (mkCmp b e false) H eq_refl) as (n1 & c1 & _ & H1). cbn [in_find in_erase] in H1.
  destruct (IH _ _ _ H1) as (n2 & c2 & H2). exists n2, c2. cbn [cmp_run].
  destruct (cmp_step ltb a (o, (b, e))) as [a1 r]. cbn [fst] in *.
  destruct (cmp_run ltb a1 ops) as [a2 rs]. exact H2.
Qed.

Theorem cmp_over_stays cap (ops ops' : list (lru_op K V * (bool * option nat))) :
  let a := fst (cmp_run ltb (mkS cap []) ops) in
  s_cap a < length (s_items a) -> (forall x, In x ops' -> shrinks (fst x) = false) ->
  let a' := fst (cmp_run ltb a ops') in
  length (s_items a') = length (s_items a) /\ s_cap a' = s_cap a.
Proof.
  intros a L S a'. destruct (run_RO ops _ _ _ (RO_new cap)) as (n & c & H).
  exact (run_stays ops' n c a H S L).
Qed.

(** Exactly one kind of call can put the cache above its capacity. *)
Lemma over_call_within (a : sc) o : length (s_items a) <= s_cap a -> over_call ltb a o = s_call ltb a o.
Proof.
  intros L. unfold over_call. replace (max (s_cap a) (length (s_items a))) with (s_cap a) by lia.
  destruct a as [m l]. cbn [s_cap s_items] in *. destruct o; try reflexivity; simpl;
    destruct (s_find ltb _ _) as [[? ?]|]; reflexivity.
Qed.

Lemma cmp_throw_keeps lookup drop (a a' : sc) o :
  cmp_throw ltb lookup drop a o = Some a' ->
  match o with
  | SetCapacity n => s_cap a' = n /\ n < length (s_items a') /\ exists dropped, s_items a = s_items a' ++ dropped
  | _ => a' = a
  end.
Proof.
  unfold cmp_throw. intros E. destruct (looks_up o && lookup) eqn:LK.
  { injection E as <-. destruct o; try reflexivity. discriminate. }
  destruct (makes_room ltb a o) eqn:RM.
  { destruct drop as [[|]|]; try discriminate. injection E as <-. destruct o; try reflexivity. discriminate. }
  destruct o; try discriminate; try (destruct drop; discriminate).
  destruct drop as [i|]; [|discriminate].
  destruct (negb (n =? 0) && (i + n <? length (s_items a))) eqn:C; [|discriminate]. injection E as <-.
  apply andb_true_iff in C as [_ C]. apply Nat.ltb_lt in C. cbn [s_cap s_items].
  split; [reflexivity|]. split; [rewrite firstn_length; lia|].
  eexists. symmetry. apply firstn_skipn.
Qed.
End Cmp.

(** Witnesses. *)
Lemma cmp_capacity_witness : exists s,
  run_c Nat.ltb (mkSt 0 (new_cache 3))
    [(Insert 1 10, no_cmp); (Insert 2 20, no_cmp); (Insert 3 30, no_cmp);
     (SetCapacity 1, mkCmp false (Some 1) false); (Size, no_cmp); (Capacity, no_cmp);
     (Insert 4 40, no_cmp); (Size, no_cmp); (SetCapacity 1, no_cmp); (Size, no_cmp)] =
  Ret (s, [Some (RBool true); Some (RBool true); Some (RBool true); None; Some (RNat 2); Some (RNat 1);
           Some (RBool true); Some (RNat 2); Some RUnit; Some (RNat 1)]).
Proof. eexists. vm_compute. reflexivity. Qed.

Lemma cmp_emplace_witness : exists s,
  run_c Nat.ltb (mkSt 0 (new_cache 2))
    [(Insert 1 10, no_cmp); (Insert 2 20, mkCmp false None true); (Insert 3 30, no_cmp);
     (Insert 4 40, no_cmp); (Insert 5 50, no_cmp); (Size, no_cmp); (Capacity, no_cmp)] =
  Ret (s, [Some (RBool true); None; Some (RBool true); Some (RBool true); Some (RBool true);
           Some (RNat 3); Some (RNat 2)]).
Proof. eexists. vm_compute. reflexivity. Qed.
