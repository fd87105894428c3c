(** How large an lru_cache can become when comparing keys throws: the highest capacity it has had, and one pair more for
    each call in which emplace threw. *)
From Coq Require Import List Bool Arith Lia.
From Verif Require Import Base LruApi LruModel LruSpec LruProofs LruMain LruCompareModel LruCompareSpec LruDefined LruBound LruCompareBoundSpec.
Import ListNotations.

Section Bound.
Context {K V : Type}.
Variable ltb : K -> K -> bool.
Hypothesis swo : strict_weak_order ltb.
Local Notation eqk := (equivb ltb).
Notation st := (st (K:=K) (V:=V)).
Notation entries := (list (K * (V * nat))).

(** [h]: the highest capacity so far; [t]: how often emplace has thrown. *)
Record H (h t : nat) (s : st) : Prop := {
  h_w : W ltb s;
  h_keys : distinct ltb (m_map (obj s));
  h_orphans : length (m_list (obj s)) <= length (m_map (obj s)) + t;
  h_high : length (m_list (obj s)) <= h + t;
  h_cap : m_capacity (obj s) <= h
}.

Lemma H_more h h' t t' s : h <= h' -> t <= t' -> H h t s -> H h' t' s.
Proof. intros L L' []. constructor; auto; lia. Qed.

Definition emplace_threw_c {A} (cf : cmp_faults) (x : exn A) : nat :=
  match x with Thrown => if in_emplace cf then 1 else 0 | Val _ => 0 end.

Lemma evict_H b h t s : H h t s -> m_list (obj s) <> [] ->
  exists s' x, evict_lru_c ltb b s = Ret (s', x) /\ H h t s' /\ m_capacity (obj s') = m_capacity (obj s) /\
    (x = Val tt -> S (length (m_list (obj s'))) = length (m_list (obj s))) /\
    (forall k, map_find ltb k (m_map (obj s)) = None -> map_find ltb k (m_map (obj s')) = None).
Proof.
  intros [Hw Hk Ho Hh Hc] L. destruct (evict_c_W ltb b s Hw L) as (s' & x & E & Hw' & _). exists s', x. split; [exact E|].
  revert E. unfold evict_lru_c, bind, get_obj. pose proof (list_last_in (m_list (obj s))) as X.
  destruct (list_last (m_list (obj s))) as [[n k]|]; [|contradiction]. unfold throw_if. destruct b.
  { intros E. injection E as <- <-. split; [constructor; assumption|]. split; [reflexivity|]. split; [discriminate|auto]. }
  unfold put_map, list_erase, bind, get_obj. simpl. destruct (existsb _ _); [|discriminate].
  intros E. injection E as <- <-. simpl in *. pose proof (erase_node_one n k _ (w_ids _ _ Hw) X) as E1.
  split; [|split; [reflexivity|split; [auto|intros k'; apply find_none_filter]]].
  pose proof (erase_at_most_one ltb swo k _ Hk). constructor; simpl; [exact Hw'|now apply distinct_filter|lia|lia|exact Hc].
Qed.

Lemma evict_while_H : forall fuel e h t s s' x, H h t s -> length (m_list (obj s)) <= fuel ->
  evict_while_c ltb e fuel s = Ret (s', x) -> H h t s'.
Proof.
  induction fuel as [|fuel IH]; intros e h t s s' x Hs L; cbn [evict_while_c]; unfold bind at 1, get_obj.
  - destruct (_ <? _) eqn:E; [discriminate|]. intros Q. injection Q as <- <-. exact Hs.
  - destruct (_ <? _) eqn:E; [|intros Q; injection Q as <- <-; exact Hs].
    apply Nat.ltb_lt in E. destruct (evict_H (throws_now e) h t s Hs) as (s1 & y & E1 & H1 & _ & L1 & _).
    { apply (map_list ltb); [exact (h_w _ _ _ Hs)|lia]. }
    unfold bind. rewrite E1. destruct y as [[]|].
    + apply IH; [exact H1|]. specialize (L1 eq_refl). lia.
    + intros Q. injection Q as <- <-. exact H1.
Qed.

Lemma tail_H cf k v h t s s' x : H h t s -> map_find ltb k (m_map (obj s)) = None ->
  S (length (m_list (obj s))) <= h + t ->
  bind (list_push_front k) (fun _ => bind (throw_if (in_emplace cf)) (fun _ => bind get_obj (fun c =>
    match list_begin (m_list c) with
    | Some b => bind (put_map (map_emplace ltb k (v, b) (m_map c))) (fun _ => ret true)
    | None => ub end))) s = Ret (s', x) ->
  W ltb s' -> H h (t + emplace_threw_c cf x) s'.
Proof.
  intros [Hw Hd Ho Hh Hc] Hn L3.
  unfold bind at 1, list_push_front. unfold bind at 1, throw_if. unfold emplace_threw_c. destruct (in_emplace cf).
  - intros E. injection E as <- <-. simpl. intros Hw'. constructor; simpl; auto; lia.
  - unfold bind, get_obj, put_map, ret. simpl. intros E. injection E as <- <-. simpl. intros Hw'.
    unfold map_emplace in *. rewrite Hn in *. constructor; simpl; [exact Hw'| |lia|lia|exact Hc].
    constructor; [|exact Hd]. rewrite Forall_forall. intros y Hy. simpl. exact (find_none _ _ Hn y Hy).
Qed.

Lemma move_H e h t s s' x : H h t s -> held ltb s e -> move_to_front ltb no_fault e s = Ret (s', x) -> W ltb s' ->
  H h t s' /\ x = Val tt.
Proof.
  intros [Hw Hd Ho Hh Hc] He E G. destruct (move_sizes ltb no_fault e s s' x Hw eq_refl He E) as (L1 & L2 & C & D & ->).
  split; [|reflexivity]. constructor; [exact G|auto| | |]; rewrite ?L1, ?L2, ?C; assumption.
Qed.

Lemma insert_H cf k v b h t s s' x : H h t s -> insert_c ltb cf k v b s = Ret (s', x) ->
  H h (t + emplace_threw_c cf x) s'.
Proof.
  intros Hs. pose proof (insert_c_W ltb swo cf k v b s (h_w _ _ _ Hs)) as G. intros E. rewrite E in G. cbn [ends] in G.
  revert E. unfold insert_c. unfold bind at 1.
  destruct (find_c_cases ltb cf k s) as [-> | ->].
  { intros E. injection E as <- <-. apply (H_more h h t); auto; lia. }
  destruct (map_find ltb k (m_map (obj s))) as [e|] eqn:Fe.
  - pose proof (find_held ltb _ _ _ (h_w _ _ _ Hs) Fe) as He. destruct b.
    + unfold bind at 1, get_obj at 1. unfold bind at 1, put_map at 1.
      pose proof (assign_W ltb swo s e v (h_w _ _ _ Hs) He) as H1.
      match type of H1 with W _ ?y => set (s1 := y) in * end.
      unfold bind. destruct (move_to_front ltb no_fault (fst e, (v, snd (snd e))) s1) as [[s2 y]| | |] eqn:E2; try discriminate.
      assert (Hs1 : H h t s1).
      { destruct Hs as [Hw Hd Ho Hh Hc]. constructor; [exact H1|apply distinct_set, Hd| |exact Hh|exact Hc].
        simpl. unfold map_set. rewrite map_length. exact Ho. }
      destruct (move_sizes ltb no_fault (fst e, (v, snd (snd e))) s1 s2 y H1 eq_refl He E2) as (_ & _ & _ & _ & ->).
      unfold ret. intros E. injection E as <- <-.
      destruct (move_H (fst e, (v, snd (snd e))) _ _ _ _ _ Hs1 He E2 G) as [Hs2 _]. simpl. rewrite Nat.add_0_r. exact Hs2.
    + intros E. injection E as <- <-. apply (H_more h h t); auto; lia.
  - unfold bind at 1, get_obj at 1. destruct (negb (m_capacity (obj s) =? 0)) eqn:Z.
    + unfold bind at 1. destruct (_ <=? _) eqn:L.
      * apply Nat.leb_le in L. apply negb_true_iff, Nat.eqb_neq in Z.
        destruct (evict_H (throws_now (in_erase cf)) h t s Hs) as (s1 & y & E1 & H1 & C1 & L1 & N1).
        { apply (map_list ltb); [exact (h_w _ _ _ Hs)|lia]. }
        rewrite E1. destruct y as [[]|].
        -- intros E. apply (tail_H cf k v h t s1 s' x); auto. specialize (L1 eq_refl). destruct Hs. lia.
        -- intros E. injection E as <- <-. apply (H_more h h t); auto; lia.
      * apply Nat.leb_gt in L. intros E. apply (tail_H cf k v h t s s' x); auto. destruct Hs. lia.
    + intros E. injection E as <- <-. apply (H_more h h t); auto; lia.
Qed.

Lemma call_H cf o h t s s' x : H h t s -> call_c ltb cf o s = Ret (s', x) ->
  H (raise h o) (t + emplace_threw_c cf x) s'.
Proof.
  intros Hs. pose proof (call_c_W ltb swo cf o s (h_w _ _ _ Hs)) as G. intros E. rewrite E in G. cbn [ends] in G. revert E.
  destruct o as [| | |k| |n|k v|k v|k v0|k]; unfold call_c; cbn [raise].
  - intros E. injection E as <- <-. apply (H_more h h t); auto; lia.
  - intros E. injection E as <- <-. apply (H_more h h t); auto; lia.
  - intros E. injection E as <- <-. apply (H_more h h t); auto; lia.
  - unfold contains_c. unfold bind at 1 2. destruct (find_c_cases ltb cf k s) as [-> | ->];
      intros E; injection E as <- <-; apply (H_more h h t); auto; lia.
  - intros E. injection E as <- <-. constructor; simpl; [exact G|constructor|lia|lia|destruct Hs; assumption].
  - unfold set_capacity_c. unfold bind at 1 2, put_capacity. cbn [obj m_capacity m_list]. unfold bind at 1, get_obj. cbn [obj m_capacity m_list].
    destruct (n =? 0).
    + intros E. injection E as <- <-. constructor; simpl; [exact G|constructor|lia|lia|lia].
    + match goal with |- match ?m ?s1 with _ => _ end = _ -> _ => 
        assert (X : H (Nat.max h n) t s1); [|destruct (m s1) as [[s2 y]| | |] eqn:E2; try discriminate] end.
      { destruct Hs as [Hw Hd Ho Hh Hc]. constructor; simpl; auto; try lia. destruct Hw. constructor; simpl; assumption. }
      apply (evict_while_H _ _ (Nat.max h n) t) in E2; [|exact X|simpl; lia].
      unfold ret. destruct y; intros E; injection E as <- <-; apply (H_more (Nat.max h n) _ t); auto; lia.
  - unfold bind, ret. destruct (insert_c ltb cf k v false s) as [[s1 [y|]]| | |] eqn:E1; try discriminate;
      intros E; injection E as <- <-; exact (insert_H cf k v false h t s s1 _ Hs E1).
  - unfold bind, ret. destruct (insert_c ltb cf k v true s) as [[s1 [y|]]| | |] eqn:E1; try discriminate;
      intros E; injection E as <- <-; exact (insert_H cf k v true h t s s1 _ Hs E1).
  - unfold get_c. unfold bind at 1 2. destruct (find_c_cases ltb cf k s) as [-> | ->].
    { intros E. injection E as <- <-. apply (H_more h h t); auto; lia. }
    destruct (map_find ltb k (m_map (obj s))) as [e|] eqn:Fe.
    + pose proof (find_held ltb _ _ _ (h_w _ _ _ Hs) Fe) as He.
      unfold bind. destruct (move_to_front ltb no_fault e s) as [[s2 y]| | |] eqn:E2; try discriminate.
      destruct (move_sizes ltb no_fault e s s2 y (h_w _ _ _ Hs) eq_refl He E2) as (_ & _ & _ & _ & ->).
      unfold ret. intros E. injection E as <- <-. destruct (move_H _ _ _ _ _ _ Hs He E2 G) as [Hs2 _].
      apply (H_more h h t); auto; lia.
    + intros E. injection E as <- <-. apply (H_more h h t); auto; lia.
  - unfold remove_c. unfold bind at 1 2. destruct (find_c_cases ltb cf k s) as [-> | ->].
    { intros E. injection E as <- <-. apply (H_more h h t); auto; lia. }
    destruct (map_find ltb k (m_map (obj s))) as [e|] eqn:Fe.
    + pose proof (find_held ltb _ _ _ (h_w _ _ _ Hs) Fe) as He. unfold bind at 1. rewrite (erase_held ltb s e (h_w _ _ _ Hs) He).
      unfold bind, get_obj, put_map, ret. simpl. intros E. injection E as <- <-.
      destruct He as (ke & Hi & _). pose proof (erase_node_one _ ke _ (w_ids _ _ (h_w _ _ _ Hs)) Hi) as L1.
      destruct Hs as [Hw Hd Ho Hh Hc]. pose proof (erase_at_most_one ltb swo (fst e) _ Hd).
      constructor; simpl; [exact G|now apply distinct_filter|lia|lia|exact Hc].
    + intros E. injection E as <- <-. apply (H_more h h t); auto; lia.
Qed.

Lemma run_H : forall ops h t s s' rs, H h t s -> run_c ltb s ops = Ret (s', rs) ->
  H (fold_left raise (map fst ops) h) (t + emplace_throws (combine (map (fun x => in_emplace (snd x)) ops) rs)) s'.
Proof.
  induction ops as [|[o f] ops IH]; intros h t s s' rs Hs; cbn [run_c].
  - intros E. injection E as <- <-. simpl. rewrite Nat.add_0_r. exact Hs.
  - destruct (call_c ltb f o s) as [[s1 x]| | |] eqn:E1; try discriminate.
    destruct (run_c ltb s1 ops) as [[s2 rs2]| | |] eqn:E2; try discriminate.
    intros E. injection E as <- <-.
    pose proof (call_H f o h t s s1 x Hs E1) as H1.
    pose proof (IH _ _ s1 s2 rs2 H1 E2) as H2.
    cbn [map combine fst snd fold_left]. unfold emplace_throws in *. cbn [filter fst snd].
    unfold emplace_threw_c in H2. destruct x as [y|].
    + rewrite Nat.add_0_r in H2. destruct (in_emplace f); exact H2.
    + destruct (in_emplace f); cbn [andb length].
      * rewrite <- Nat.add_assoc in H2. exact H2.
      * rewrite Nat.add_0_r in H2. exact H2.
Qed.

Theorem compare_outgrows cap (ops : list (lru_op K V * cmp_faults)) :
  exists s rs n,
    run_c ltb (mkSt 0 (new_cache cap)) ops = Ret (s, rs) /\
    run_ops ltb s [Size] = Ret (s, [RNat n]) /\
    n <= highest_capacity cap (map fst ops) + emplace_throws (combine (map (fun x => in_emplace (snd x)) ops) rs).
Proof.
  destruct (run_c_W ltb swo ops _ (W_new ltb cap)) as (s & rs & E & _).
  assert (H0 : H cap 0 (mkSt 0 (new_cache cap))).
  { constructor; simpl; [apply W_new|constructor|lia|lia|lia]. }
  pose proof (run_H ops cap 0 _ s rs H0 E) as [Hw Hd Ho Hh Hc].
  exists s, rs, (length (m_map (obj s))). split; [exact E|]. split; [reflexivity|].
  unfold highest_capacity. simpl in Hh. pose proof (linked_nodes ltb swo s Hw Hd). lia.
Qed.
End Bound.
