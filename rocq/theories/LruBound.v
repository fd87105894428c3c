(** How far an lru_cache can outgrow its capacity: by at most one pair for each call in which emplace threw. *)
From Coq Require Import List Bool Arith Lia.
From Verif Require Import Base LruApi LruModel LruSpec LruProofs LruMain LruCompareModel LruCompareSpec LruDefined.
Import ListNotations.

Section Bound.
Context {K V : Type}.
Variable ltb : K -> K -> bool.
Hypothesis swo : strict_weak_order ltb.
Local Notation eqk := (equivb ltb).
Notation st := (st (K:=K) (V:=V)).
Notation entries := (list (K * (V * nat))).

Definition distinct (m : entries) : Prop := ForallOrdPairs (fun x y => eqk (fst x) (fst y) = false) m.

Lemma distinct_filter p m : distinct m -> distinct (filter p m).
Proof.
  induction 1 as [|x m F D IH]; simpl; [constructor|]. destruct (p x); [|exact IH].
  constructor; [|exact IH]. rewrite Forall_forall in *. intros y Hy. apply filter_In in Hy. apply F. tauto.
Qed.
Lemma distinct_set k x m : distinct m -> distinct (map_set ltb k x m).
Proof.
  induction 1 as [|y m F D IH]; simpl; [constructor|]. constructor; [|exact IH].
  rewrite Forall_forall in *. intros z Hz. apply in_map_iff in Hz as (z0 & <- & Hz).
  specialize (F z0 Hz). destruct (eqk k (fst y)), (eqk k (fst z0)); exact F.
Qed.
Lemma erase_at_most_one k m : distinct m -> length m <= S (length (map_erase ltb k m)).
Proof.
  unfold map_erase. induction 1 as [|x m F D IH]; simpl; [lia|].
  destruct (eqk k (fst x)) eqn:E; simpl; [|lia].
  assert (W : filter (fun e => negb (eqk k (fst e))) m = m).
  { apply filter_all. intros y Hy. rewrite Forall_forall in F. specialize (F y Hy).
    rewrite (eqk_subst ltb swo k (fst x)) by assumption. now rewrite F. }
  rewrite W. lia.
Qed.
Lemma erase_node_one n k (l : list (nat * K)) : NoDup (map fst l) -> In (n, k) l ->
  S (length (filter (fun x => negb (fst x =? n)) l)) = length l.
Proof.
  induction l as [|x l IH]; simpl; [contradiction|]. intros N H. inversion N as [|? ? N1 N2]; subst.
  destruct H as [->|H]; simpl.
  - rewrite Nat.eqb_refl. simpl. f_equal. f_equal. apply filter_all. intros y Hy. apply negb_true_iff, Nat.eqb_neq.
    intros E. apply N1. simpl. rewrite <- E. now apply in_map.
  - assert (X : fst x =? n = false). { apply Nat.eqb_neq. intros E. apply N1. rewrite E. apply in_map_iff. exists (n, k). auto. }
    rewrite X. simpl. rewrite (IH N2 H). reflexivity.
Qed.

(** [t]: how often emplace has thrown. *)
Record B (t : nat) (s : st) : Prop := {
  b_w : W ltb s;
  b_keys : distinct (m_map (obj s));
  b_orphans : length (m_list (obj s)) <= length (m_map (obj s)) + t;
  b_cap : length (m_list (obj s)) <= m_capacity (obj s) + t
}.

(** While capacity(n) evicts, the list may be longer. *)
Record B' (t : nat) (s : st) : Prop := {
  b'_w : W ltb s;
  b'_keys : distinct (m_map (obj s));
  b'_orphans : length (m_list (obj s)) <= length (m_map (obj s)) + t
}.

Lemma evict_B' t s : B' t s -> m_list (obj s) <> [] ->
  exists s', evict_lru ltb s = Ret (s', Val tt) /\ B' t s' /\ S (length (m_list (obj s'))) = length (m_list (obj s)) /\
    m_capacity (obj s') = m_capacity (obj s).
Proof.
  intros [Hw Hk Ho] L. destruct (evict_W ltb s Hw L) as (s' & E & Hw' & _). exists s'. split; [exact E|].
  revert E. unfold evict_lru, bind, get_obj. pose proof (list_last_in (m_list (obj s))) as X.
  destruct (list_last (m_list (obj s))) as [[n k]|]; [|contradiction].
  unfold put_map, list_erase, bind, get_obj. simpl. destruct (existsb _ _); [|discriminate].
  intros E. injection E as <-. simpl in *. pose proof (erase_node_one n k _ (w_ids _ _ Hw) X) as E1.
  split; [|split; [exact E1|reflexivity]]. constructor; simpl; [exact Hw'|now apply distinct_filter|].
  pose proof (erase_at_most_one k _ Hk). lia.
Qed.

Lemma evict_while_B' : forall fuel t s, B' t s -> length (m_list (obj s)) <= fuel ->
  exists s', evict_while ltb fuel s = Ret (s', Val tt) /\ B t s' /\ m_capacity (obj s') = m_capacity (obj s).
Proof.
  induction fuel as [|fuel IH]; intros t s H L; cbn [evict_while]; unfold bind at 1, get_obj.
  - destruct (_ <? _) eqn:E.
    + apply Nat.ltb_lt in E. exfalso. apply (map_list ltb s (b'_w _ _ H)); [lia|].
      destruct (m_list (obj s)); [reflexivity|simpl in L; lia].
    + exists s. split; [reflexivity|]. split; [|reflexivity]. apply Nat.ltb_ge in E. destruct H. constructor; auto. lia.
  - destruct (_ <? _) eqn:E.
    + apply Nat.ltb_lt in E. destruct (evict_B' t s H) as (s1 & E1 & H1 & L1 & C1).
      { apply (map_list ltb); [exact (b'_w _ _ H)|lia]. }
      unfold bind. rewrite E1. destruct (IH t s1 H1) as (s2 & E2 & H2 & C2); [lia|].
      exists s2. split; [exact E2|]. split; [exact H2|congruence].
    + exists s. split; [reflexivity|]. split; [|reflexivity]. apply Nat.ltb_ge in E. destruct H. constructor; auto. lia.
Qed.

Definition emplace_threw {A} (f : faults) (x : exn A) : nat :=
  match x with Thrown => if f PEmplace then 1 else 0 | Val _ => 0 end.

Lemma B_more t t' s : t <= t' -> B t s -> B t' s.
Proof. intros L []. constructor; auto; lia. Qed.

(** After a call: [W] is known from [LruDefined], the rest is about lengths. *)
Lemma move_sizes f e s s' x : W ltb s -> f PMovePush = false -> held ltb s e -> move_to_front ltb f e s = Ret (s', x) ->
  length (m_list (obj s')) = length (m_list (obj s)) /\ length (m_map (obj s')) = length (m_map (obj s)) /\
  m_capacity (obj s') = m_capacity (obj s) /\ (distinct (m_map (obj s)) -> distinct (m_map (obj s'))) /\ x = Val tt.
Proof.
  intros Hw HF He. unfold move_to_front. unfold bind at 1, get_obj at 1.
  destruct (match list_begin _ with Some b => _ | None => false end).
  { intros E. injection E as <- <-. auto. }
  unfold bind at 1. rewrite (erase_held ltb s e Hw He). unfold bind at 1, may_throw at 1. rewrite HF.
  unfold bind, list_push_front, get_obj, put_map. simpl. intros E. injection E as <- <-. simpl.
  destruct He as (ke & Hi & _). rewrite (erase_node_one _ ke _ (w_ids _ _ Hw) Hi). unfold map_set at 1. rewrite map_length.
  repeat split. apply distinct_set.
Qed.

Lemma find_none_filter k p (m : entries) : map_find ltb k m = None -> map_find ltb k (filter p m) = None.
Proof.
  intros N. destruct (map_find ltb k (filter p m)) eqn:E; [|reflexivity]. apply find_some in E as [E Q].
  apply filter_In in E as [E _]. pose proof (find_none _ _ N _ E). simpl in *. congruence.
Qed.

(** push_front and emplace, when there is room or one pair has been evicted *)
Lemma tail_B f k v t s s' x : W ltb s -> distinct (m_map (obj s)) -> map_find ltb k (m_map (obj s)) = None ->
  length (m_list (obj s)) <= length (m_map (obj s)) + t ->
  length (m_list (obj s)) <= m_capacity (obj s) + t ->
  S (length (m_list (obj s))) <= m_capacity (obj s) + t ->
  bind (may_throw f PPushFront) (fun _ => bind (list_push_front k) (fun _ =>
    bind (may_throw f PEmplace) (fun _ => bind get_obj (fun c =>
    match list_begin (m_list c) with
    | Some b => bind (put_map (map_emplace ltb k (v, b) (m_map c))) (fun _ => ret true)
    | None => ub end)))) s = Ret (s', x) ->
  W ltb s' -> B (t + emplace_threw f x) s'.
Proof.
  intros Hw Hd Hn L1 L2 L3. unfold bind at 1, may_throw at 1. destruct (f PPushFront).
  { intros E. injection E as <- <-. intros _. constructor; auto; lia. }
  unfold bind at 1, list_push_front. unfold bind at 1, may_throw. unfold emplace_threw. destruct (f PEmplace).
  - intros E. injection E as <- <-. simpl. intros Hw'. constructor; simpl; auto; lia.
  - unfold bind, get_obj, put_map, ret. simpl. intros E. injection E as <- <-. simpl. intros Hw'.
    unfold map_emplace in *. rewrite Hn in *. constructor; simpl; [exact Hw'| |lia|lia].
    constructor; [|exact Hd]. rewrite Forall_forall. intros y Hy. simpl. exact (find_none _ _ Hn y Hy).
Qed.

Lemma insert_B f k v b t s s' x : f PMovePush = false -> B t s -> insert_impl ltb f k v b s = Ret (s', x) ->
  B (t + emplace_threw f x) s'.
Proof.
  intros HF H. pose proof (insert_W ltb swo f k v b HF s (b_w _ _ H)) as G. intros E. rewrite E in G. cbn [ends] in G.
  revert E. unfold insert_impl. unfold bind at 1, get_obj at 1.
  destruct (map_find ltb k (m_map (obj s))) as [e|] eqn:Fe.
  - pose proof (find_held ltb _ _ _ (b_w _ _ H) Fe) as He. destruct b.
    + unfold bind at 1, may_throw at 1. destruct (f PAssign).
      { intros E. injection E as <- <-. apply (B_more t); [lia|exact H]. }
      unfold bind at 1, put_map at 1. pose proof (assign_W ltb swo s e v (b_w _ _ H) He) as H1.
      match type of H1 with W _ ?y => set (s1 := y) in * end.
      unfold bind. destruct (move_to_front ltb f (fst e, (v, snd (snd e))) s1) as [[s2 y]| | |] eqn:E2; try discriminate.
      destruct (move_sizes f (fst e, (v, snd (snd e))) s1 s2 y H1 HF He E2) as (L1 & L2 & C & D & ->).
      unfold ret. intros E. injection E as <- <-.
      assert (LM : length (m_map (obj s1)) = length (m_map (obj s))) by (apply map_length).
      destruct H as [Hw Hd Ho Hc]. constructor; [exact G|apply D, distinct_set, Hd| |]; rewrite L1, ?L2, ?C, ?LM; simpl; lia.
    + intros E. injection E as <- <-. apply (B_more t); [lia|exact H].
  - destruct (negb (m_capacity (obj s) =? 0)) eqn:Z.
    + unfold bind at 1. destruct (_ <=? _) eqn:L.
      * apply Nat.leb_le in L. apply negb_true_iff, Nat.eqb_neq in Z.
        destruct (evict_B' t s) as (s1 & E1 & H1 & L1 & C1).
        { destruct H. constructor; auto. }
        { apply (map_list ltb); [exact (b_w _ _ H)|lia]. }
        rewrite E1. intros E. apply (tail_B f k v t s1 s' x); auto; try (destruct H, H1; auto; lia).
        revert E1. unfold evict_lru, bind, get_obj. destruct (list_last _) as [[n k']|]; [|discriminate].
        unfold put_map, list_erase, bind, get_obj. simpl. destruct (existsb _ _); [|discriminate].
        intros Q. injection Q as <-. simpl. now apply find_none_filter.
      * apply Nat.leb_gt in L. intros E. apply (tail_B f k v t s s' x); auto; destruct H; auto; lia.
    + intros E. injection E as <- <-. apply (B_more t); [lia|exact H].
Qed.

Lemma call_B f o t s s' x : f PMovePush = false -> B t s -> call ltb f o s = Ret (s', x) -> B (t + emplace_threw f x) s'.
Proof.
  intros HF H. pose proof (call_W ltb swo f o HF s (b_w _ _ H)) as G. intros E. rewrite E in G. cbn [ends] in G. revert E.
  destruct o as [| | |k| |n|k v|k v|k v0|k]; unfold call.
  - intros E. injection E as <- <-. apply (B_more t); [lia|exact H].
  - intros E. injection E as <- <-. apply (B_more t); [lia|exact H].
  - intros E. injection E as <- <-. apply (B_more t); [lia|exact H].
  - intros E. injection E as <- <-. apply (B_more t); [lia|exact H].
  - intros E. injection E as <- <-. constructor; simpl; [exact G|constructor|lia|lia].
  - unfold set_capacity. unfold bind at 1 2, put_capacity. cbn [obj m_capacity m_list]. unfold bind at 1, get_obj. cbn [obj m_capacity m_list].
    destruct (n =? 0).
    + intros E. injection E as <- <-. constructor; simpl; [exact G|constructor|lia|lia].
    + match goal with |- match ?m ?s1 with _ => _ end = _ -> _ => 
        destruct (evict_while_B' (S (length (m_list (obj s)))) t s1) as (s2 & E2 & H2 & _) end.
      * destruct H as [Hw Hd Ho Hc]. constructor; simpl; auto. destruct Hw. constructor; simpl; assumption.
      * simpl. lia.
      * rewrite E2. unfold ret. intros E. injection E as <- <-. apply (B_more t); [lia|exact H2].
  - unfold insert. unfold bind, ret. destruct (insert_impl ltb f k v false s) as [[s1 [y|]]| | |] eqn:E1; try discriminate;
      intros E; injection E as <- <-; exact (insert_B f k v false t s s1 _ HF H E1).
  - unfold insert_or_assign. unfold bind, ret. destruct (insert_impl ltb f k v true s) as [[s1 [y|]]| | |] eqn:E1; try discriminate;
      intros E; injection E as <- <-; exact (insert_B f k v true t s s1 _ HF H E1).
  - unfold get. unfold bind at 1 2, get_obj at 1. destruct (map_find ltb k (m_map (obj s))) as [e|] eqn:Fe.
    + unfold bind at 1, may_throw at 1. destruct (f PGetAssign).
      { intros E. injection E as <- <-. apply (B_more t); [lia|exact H]. }
      unfold bind. destruct (move_to_front ltb f e s) as [[s2 y]| | |] eqn:E2; try discriminate.
      destruct (move_sizes f e s s2 y (b_w _ _ H) HF (find_held ltb _ _ _ (b_w _ _ H) Fe) E2) as (L1 & L2 & C & D & ->).
      unfold ret. intros E. injection E as <- <-. destruct H as [Hw Hd Ho Hc].
      constructor; [exact G|auto| |]; rewrite L1, ?L2, ?C; simpl; lia.
    + intros E. injection E as <- <-. apply (B_more t); [lia|exact H].
  - unfold remove. unfold bind at 1 2, get_obj at 1. destruct (map_find ltb k (m_map (obj s))) as [e|] eqn:Fe.
    + pose proof (find_held ltb _ _ _ (b_w _ _ H) Fe) as He. unfold bind at 1. rewrite (erase_held ltb s e (b_w _ _ H) He).
      unfold bind, put_map, ret. simpl. intros E. injection E as <- <-.
      destruct He as (ke & Hi & _). pose proof (erase_node_one _ ke _ (w_ids _ _ (b_w _ _ H)) Hi) as L1.
      destruct H as [Hw Hd Ho Hc]. pose proof (erase_at_most_one (fst e) _ Hd).
      constructor; simpl; [exact G|now apply distinct_filter|lia|lia].
    + intros E. injection E as <- <-. apply (B_more t); [lia|exact H].
Qed.

Lemma run_B : forall ops t s s' rs, (forall o f, In (o, f) ops -> f PMovePush = false) -> B t s ->
  run_faulty ltb s ops = Ret (s', rs) ->
  B (t + emplace_throws (combine (map (fun x => snd x PEmplace) ops) rs)) s'.
Proof.
  induction ops as [|[o f] ops IH]; intros t s s' rs HF H; cbn [run_faulty].
  - intros E. injection E as <- <-. simpl. rewrite Nat.add_0_r. exact H.
  - destruct (call ltb f o s) as [[s1 x]| | |] eqn:E1; try discriminate.
    destruct (run_faulty ltb s1 ops) as [[s2 rs2]| | |] eqn:E2; try discriminate.
    intros E. injection E as <- <-.
    pose proof (call_B f o t s s1 x (HF o f (or_introl eq_refl)) H E1) as H1.
    pose proof (IH _ s1 s2 rs2 (fun o' f' Hi => HF o' f' (or_intror Hi)) H1 E2) as H2.
    cbn [map combine snd]. unfold emplace_throws in *. cbn [filter fst snd].
    unfold emplace_threw in H2. destruct x as [y|].
    + rewrite Nat.add_0_r in H2. destruct (f PEmplace); exact H2.
    + destruct (f PEmplace); cbn [andb length].
      * rewrite <- Nat.add_assoc in H2. exact H2.
      * rewrite Nat.add_0_r in H2. exact H2.
Qed.

(** Every entry has its own node. *)
Lemma own_nodes (l : list (nat * K)) (m : entries) : NoDup (map fst l) -> Forall (linked ltb l) m -> distinct m ->
  NoDup (map (fun e => snd (snd e)) m).
Proof.
  intros N M D. induction D as [|x m F D IH]; simpl; [constructor|].
  apply Forall_cons_iff in M as [Mx M]. constructor; [|exact (IH M)].
  intros Hi. apply in_map_iff in Hi as (y & E & Hy). rewrite Forall_forall in F, M.
  destruct Mx as (k & Hk & Qk). destruct (M y Hy) as (k' & Hk' & Qk'). rewrite E in Hk'.
  rewrite <- (id_key _ _ _ _ N Hk Hk') in Qk'. specialize (F y Hy).
  rewrite (eqk_via ltb swo _ _ _ Qk Qk') in F. discriminate.
Qed.

Lemma linked_nodes s : W ltb s -> distinct (m_map (obj s)) -> length (m_map (obj s)) <= length (m_list (obj s)).
Proof.
  intros Hw Hd.
  rewrite <- (map_length fst (m_list (obj s))), <- (map_length (fun e => snd (snd e)) (m_map (obj s))).
  apply NoDup_incl_length; [exact (own_nodes _ _ (w_ids _ _ Hw) (w_map _ _ Hw) Hd)|].
  intros n Hn. apply in_map_iff in Hn as (e & <- & He). pose proof (w_map _ _ Hw) as M. rewrite Forall_forall in M.
  destruct (M e He) as (k & Hk & _). apply in_map_iff. exists (snd (snd e), k). auto.
Qed.

Lemma entries_nodes t s : B t s -> length (m_map (obj s)) <= length (m_list (obj s)).
Proof. intros [Hw Hd _ _]. now apply linked_nodes. Qed.

Theorem outgrows_by_throws cap (ops : list (lru_op K V * faults)) :
  (forall o f, In (o, f) ops -> f PMovePush = false) ->
  exists s rs n c,
    run_faulty ltb (mkSt 0 (new_cache cap)) ops = Ret (s, rs) /\
    run_ops ltb s [Size; Capacity] = Ret (s, [RNat n; RNat c]) /\
    n <= c + emplace_throws (combine (map (fun x => snd x PEmplace) ops) rs).
Proof.
  intros HF. destruct (faulty_defined ltb swo cap ops HF) as (s & rs & E & _).
  assert (B0 : B 0 (mkSt 0 (new_cache cap))).
  { constructor; simpl; [apply W_new|constructor|lia|lia]. }
  pose proof (run_B ops 0 _ s rs HF B0 E) as H. simpl in H.
  exists s, rs, (length (m_map (obj s))), (m_capacity (obj s)). split; [exact E|]. split; [reflexivity|].
  destruct H as [Hw Hd Ho Hc].
  enough (length (m_map (obj s)) <= length (m_list (obj s))) by lia.
  eapply entries_nodes. constructor; eassumption.
Qed.

Lemma run_app : forall (ops1 ops2 : list (lru_op K V * faults)) (s s1 : st) rs1, run_faulty ltb s ops1 = Ret (s1, rs1) ->
  run_faulty ltb s (ops1 ++ ops2) = match run_faulty ltb s1 ops2 with Ret (s2, rs2) => Ret (s2, rs1 ++ rs2) | x => x end.
Proof.
  induction ops1 as [|[o f] ops1 IH]; intros ops2 s s1 rs1; cbn [run_faulty app].
  - intros E. injection E as <- <-. destruct (run_faulty ltb s ops2) as [[]| | |]; reflexivity.
  - destruct (call ltb f o s) as [[s2 x]| | |] eqn:E1; try discriminate.
    destruct (run_faulty ltb s2 ops1) as [[s3 rs3]| | |] eqn:E2; try discriminate.
    intros E. injection E as <- <-. rewrite (IH ops2 s2 s3 rs3 E2).
    destruct (run_faulty ltb s3 ops2) as [[]| | |]; reflexivity.
Qed.

Lemma emptied o f s : o = Clear \/ o = SetCapacity 0 -> W ltb s ->
  exists s', call ltb f o s = Ret (s', Val RUnit) /\ (W ltb s' -> B 0 s').
Proof.
  intros [-> | ->] H; (eexists; split; [reflexivity|]); intros H'; constructor; simpl; auto; try lia; constructor.
Qed.

(** clear() and capacity(0) make up for all throws before them. *)
Theorem outgrows_since_emptied cap (ops1 ops2 : list (lru_op K V * faults)) o f0 :
  o = Clear \/ o = SetCapacity 0 ->
  (forall o' f, In (o', f) (ops1 ++ (o, f0) :: ops2) -> f PMovePush = false) ->
  exists s rs1 rs2 n c,
    run_faulty ltb (mkSt 0 (new_cache cap)) (ops1 ++ (o, f0) :: ops2) = Ret (s, rs1 ++ Some RUnit :: rs2) /\
    length rs1 = length ops1 /\
    run_ops ltb s [Size; Capacity] = Ret (s, [RNat n; RNat c]) /\
    n <= c + emplace_throws (combine (map (fun x => snd x PEmplace) ops2) rs2).
Proof.
  intros Ho HF.
  destruct (run_faulty_W ltb swo ops1 _ (W_new ltb cap)) as (s1 & rs1 & E1 & L1 & W1).
  { intros o' f Hi. apply (HF o' f). apply in_or_app. now left. }
  destruct (emptied o f0 s1 Ho W1) as (s2 & E2 & B2).
  assert (F0 : f0 PMovePush = false) by (apply (HF o f0), in_elt).
  pose proof (call_W ltb swo f0 o F0 s1 W1) as G. rewrite E2 in G. specialize (B2 G).
  assert (HF2 : forall o' f, In (o', f) ops2 -> f PMovePush = false).
  { intros o' f Hi. apply (HF o' f). apply in_or_app. right. now right. }
  destruct (run_faulty_W ltb swo ops2 _ G HF2) as (s3 & rs2 & E3 & _).
  pose proof (run_B ops2 0 s2 s3 rs2 HF2 B2 E3) as H3.
  exists s3, rs1, rs2, (length (m_map (obj s3))), (m_capacity (obj s3)).
  split. { rewrite (run_app _ _ _ _ _ E1). cbn [run_faulty]. rewrite E2, E3. reflexivity. }
  split; [exact L1|]. split; [reflexivity|]. pose proof (entries_nodes _ _ H3). destruct H3. lia.
Qed.
End Bound.

Lemma outgrown : exists (ops : list (lru_op nat nat * faults)) s rs,
  run_faulty Nat.ltb (mkSt 0 (new_cache 2)) ops = Ret (s, rs) /\
  run_ops Nat.ltb s [Size; Capacity] = Ret (s, [RNat 3; RNat 2]).
Proof.
  exists [(Insert 1 10, no_fault); (Insert 2 20, no_fault); (Insert 3 30, fault_at PEmplace); (Insert 3 31, no_fault);
     (Insert 4 40, no_fault); (Insert 5 50, no_fault); (Insert 6 60, no_fault)].
  eexists. eexists. split; vm_compute; reflexivity.
Qed.
