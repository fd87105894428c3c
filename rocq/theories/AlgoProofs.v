(** Proofs about reverse, sort, filter, map, round and pow. *)
From Coq Require Import List Bool Arith ZArith Permutation Lia Sorted.
From Verif Require Import Base ListUpdate SeqModel SeqProofs SmallModel SmallSpec SmallProofs AlgoModel AlgoSpec.
Import ListNotations.
Local Open Scope nat_scope.

(** * reverse *)
Section Reverse.
Context {A : Type}.
Lemma swap_ends (a b : list A) x m y : 
  iter_swap (a ++ x :: m ++ y :: b) (length a) (length a + S (length m)) = Ret (a ++ y :: m ++ x :: b).
Proof.
  unfold iter_swap.
  assert (E1 : nth_error (a ++ x :: m ++ y :: b) (length a) = Some x).
  { rewrite nth_error_app2, Nat.sub_diag by lia. reflexivity. }
  assert (E2 : nth_error (a ++ x :: m ++ y :: b) (length a + S (length m)) = Some y).
  { rewrite nth_error_app2 by lia. replace (length a + S (length m) - length a) with (S (length m)) by lia. cbn.
    rewrite nth_error_app2, Nat.sub_diag by lia. reflexivity. }
  rewrite E1, E2, set_nth_app. f_equal.
  replace (a ++ y :: m ++ y :: b) with ((a ++ y :: m) ++ y :: b) by (rewrite <- app_assoc; reflexivity).
  replace (length a + S (length m)) with (length (a ++ y :: m)) by (rewrite app_length; reflexivity).
  rewrite set_nth_app, <- app_assoc. reflexivity.
Qed.
Lemma reverse_loop_ok fuel : forall a m b : list A, length m < fuel ->
  reverse_loop fuel (length a) (length a + length m) (a ++ m ++ b) = Ret (a ++ rev m ++ b).
Proof.
  induction fuel as [|fuel IH]; intros a m b L; [lia|]. cbn [reverse_loop].
  destruct m as [|x m].
  { cbn [length]. rewrite Nat.add_0_r, Nat.eqb_refl. reflexivity. }
  replace (length a =? length a + length (x :: m)) with false by (symmetry; apply Nat.eqb_neq; cbn; lia).
  replace (length a + length (x :: m)) with (S (length a + length m)) by (cbn; lia).
  destruct (snoc_case m) as [->|(m' & y & ->)].
  { cbn [length]. rewrite Nat.add_0_r, Nat.eqb_refl. reflexivity. }
  rewrite app_length. cbn [length].
  replace (length a =? length a + (length m' + 1)) with false by (symmetry; apply Nat.eqb_neq; lia).
  replace (a ++ (x :: m' ++ [y]) ++ b) with (a ++ x :: m' ++ y :: b) by (cbn; rewrite <- app_assoc; reflexivity).
  replace (length a + (length m' + 1)) with (length a + S (length m')) by lia.
  rewrite swap_ends. cbn [obind].
  assert (L' : length m' < fuel) by (cbn in L; rewrite app_length in L; cbn in L; lia).
  pose proof (IH (a ++ [y]) m' (x :: b) L') as H. rewrite app_length in H. cbn [length] in H.
  replace (length a + S (length m')) with (length a + 1 + length m') by lia.
  rewrite <- !app_assoc in H. cbn [app] in H. rewrite H. cbn. rewrite rev_app_distr. cbn. rewrite <- app_assoc. reflexivity.
Qed.
End Reverse.
Section Reverse2.
Context {A : Type}.
Theorem reverse_ok (l : list A) : reverse l = Ret (rev l).
Proof. unfold reverse. pose proof (reverse_loop_ok (S (length l)) [] l [] ltac:(lia)) as H. cbn in H. rewrite !app_nil_r in H. exact H. Qed.
Lemma reverse_ra_loop_ok fuel : forall (a m b : list A), length m <= fuel -> m <> [] ->
  reverse_ra_loop fuel (length a) (length a + length m - 1) (a ++ m ++ b) = Ret (a ++ rev m ++ b).
Proof.
  induction fuel as [|fuel IH]; intros a m b L N; [destruct m; [congruence|cbn in L; lia]|]. cbn [reverse_ra_loop].
  destruct m as [|x m]; [congruence|]. destruct (snoc_case m) as [->|(m' & y & ->)].
  { cbn [length]. replace (length a <? length a + 1 - 1) with false by (symmetry; apply Nat.ltb_ge; lia). reflexivity. }
  cbn [length] in *. rewrite app_length in *. cbn [length] in *.
  replace (length a <? length a + S (length m' + 1) - 1) with true by (symmetry; apply Nat.ltb_lt; lia).
  replace (a ++ (x :: m' ++ [y]) ++ b) with (a ++ x :: m' ++ y :: b) by (cbn; rewrite <- app_assoc; reflexivity).
  replace (length a + S (length m' + 1) - 1) with (length a + S (length m')) by lia.
  rewrite swap_ends. cbn [obind].
  replace (a ++ rev (x :: m' ++ [y]) ++ b) with (a ++ y :: rev m' ++ x :: b)
    by (cbn; rewrite rev_app_distr; cbn; rewrite <- app_assoc; reflexivity).
  destruct m' as [|z m'].
  - cbn [length rev app]. destruct fuel; [lia|]. cbn [reverse_ra_loop].
    replace (length a + 1 <? length a + 1 - 1) with false by (symmetry; apply Nat.ltb_ge; lia). reflexivity.
  - pose proof (IH (a ++ [y]) (z :: m') (x :: b) ltac:(cbn [length] in *; lia) ltac:(discriminate)) as H.
    rewrite app_length in H. cbn [length] in *.
    replace (length a + S (S (length m')) - 1) with (length a + 1 + S (length m') - 1) by lia.
    rewrite <- !app_assoc in H. cbn [app] in H. exact H.
Qed.
Theorem reverse_ra_ok (l : list A) : reverse_ra l = Ret (rev l).
Proof.
  unfold reverse_ra. destruct l as [|x l]; [reflexivity|].
  pose proof (reverse_ra_loop_ok (length (x :: l)) [] (x :: l) [] ltac:(lia) ltac:(discriminate)) as H.
  cbn [app] in H. rewrite !app_nil_r in H. exact H.
Qed.
End Reverse2.

(** * sort *)
Section Sort.
Context {A : Type}.
Lemma swo_on (pred : A -> A -> bool) l : strict_weak_order pred -> strict_weak_on pred l.
Proof. intros [I T C]. split; [auto|]. split; [eauto|]. intros; eapply C; eauto. Qed.
Lemma sort_defined (pred : A -> A -> bool) l o : strict_weak_on pred l -> sort pred l o ->
  exists l', o = Ret l' /\ Permutation l l' /\
    (forall i j x y, i < j -> nth_error l' i = Some x -> nth_error l' j = Some y -> pred y x = false).
Proof. intros H [N|l' W P S]; [contradiction|eauto]. Qed.
Lemma sort_reflexive (pred : A -> A -> bool) l x : In x l -> pred x x = true -> sort pred l Ub.
Proof. intros H E. constructor. intros (I & _). rewrite I in E by exact H. discriminate. Qed.
End Sort.
(** sorting by keys that are integers *)
Lemma key_swo {A} (key : A -> Z) : strict_weak_order (fun x y => (key x <? key y)%Z).
Proof.
  split.
  - intros x. apply Z.ltb_irrefl.
  - intros x y z. rewrite !Z.ltb_lt. lia.
  - intros x y z. rewrite !Z.ltb_ge. lia.
Qed.
Lemma pairs_sorted {A} (R : A -> A -> Prop) (l : list A) : (forall i j x y, i < j -> nth_error l i = Some x -> nth_error l j = Some y -> R x y) ->
  StronglySorted R l.
Proof.
  induction l as [|a l IH]; intros H; [constructor|]. constructor.
  - apply IH. intros i j x y L Ex Ey. apply (H (S i) (S j)); [lia| |]; assumption.
  - apply Forall_forall. intros y Hy. apply In_nth_error in Hy. destruct Hy as (j & Ej). apply (H 0 (S j)); [lia|reflexivity|exact Ej].
Qed.
Lemma sort_by_key {A} (key : A -> Z) l o : sort (fun x y => (key x <? key y)%Z) l o ->
  exists l', o = Ret l' /\ Permutation l l' /\ StronglySorted Z.le (map key l').
Proof.
  intros H. apply sort_defined in H; [|apply swo_on, key_swo]. destruct H as (l' & -> & P & S). exists l'. split; [reflexivity|]. split; [exact P|].
  apply pairs_sorted. intros i j x y L Ex Ey. rewrite nth_error_map in Ex, Ey.
  destruct (nth_error l' i) as [u|] eqn:Eu; [|discriminate]. destruct (nth_error l' j) as [v|] eqn:Ev; [|discriminate].
  injection Ex as <-. injection Ey as <-. specialize (S i j u v L Eu Ev). apply Z.ltb_ge in S. exact S.
Qed.
(** the sorted list of integers is unique *)
Lemma sorted_unique (l l' : list Z) : StronglySorted Z.le l -> StronglySorted Z.le l' -> Permutation l l' -> l = l'.
Proof.
  revert l'. induction l as [|a l IH]; intros l' Sl Sl' P.
  - apply Permutation_nil in P. auto.
  - destruct l' as [|b l']; [apply Permutation_sym, Permutation_nil in P; discriminate|].
    inversion Sl as [|? ? S1 F1]; subst. inversion Sl' as [|? ? S2 F2]; subst.
    rewrite Forall_forall in F1, F2.
    assert (a = b).
    { assert (Ha : In a (b :: l')) by (eapply Permutation_in; [exact P|left; reflexivity]).
      assert (Hb : In b (a :: l)) by (eapply Permutation_in; [apply Permutation_sym; exact P|left; reflexivity]).
      destruct Ha as [Ha|Ha]; [auto|]. destruct Hb as [Hb|Hb]; [auto|]. specialize (F1 _ Hb). specialize (F2 _ Ha). lia. }
    subst b. f_equal. apply IH; auto. eapply Permutation_cons_inv; exact P.
Qed.
Lemma sort_integers l o1 o2 : sort Z.ltb l o1 -> sort Z.ltb l o2 -> o1 = o2.
Proof.
  intros H1 H2. destruct (sort_by_key (fun x => x) l o1 H1) as (l1 & -> & P1 & S1). destruct (sort_by_key (fun x => x) l o2 H2) as (l2 & -> & P2 & S2).
  rewrite map_id in S1, S2. f_equal. apply sorted_unique; auto. eapply Permutation_trans; [apply Permutation_sym; exact P1|exact P2].
Qed.
Lemma sort_exists l : exists l', sort Z.ltb l (Ret l').
Proof.
  assert (E : exists l', Permutation l l' /\ StronglySorted Z.le l').
  { induction l as [|a l (l' & P & S)]; [exists []; split; constructor|].
    assert (I : exists m, Permutation (a :: l') m /\ StronglySorted Z.le m /\ True).
    { clear P. induction l' as [|b l' IH]; [exists [a]; repeat constructor|]. inversion S as [|? ? S' F]; subst.
      destruct (Z_le_gt_dec a b).
      - exists (a :: b :: l'). split; [reflexivity|]. split; [|exact I]. constructor; [exact S|]. constructor; [exact l0|].
        eapply Forall_impl; [|exact F]. cbn. lia.
      - destruct (IH S') as (m & Pm & Sm & _). exists (b :: m). split.
        + eapply Permutation_trans; [apply perm_swap|]. constructor. exact Pm.
        + split; [|exact I]. constructor; [exact Sm|]. rewrite Forall_forall in *. intros x Hx.
          apply (Permutation_in _ (Permutation_sym Pm)) in Hx. destruct Hx as [<-|Hx]; [lia|auto]. }
    destruct I as (m & Pm & Sm & _). exists m. split; [|exact Sm]. eapply Permutation_trans; [|exact Pm]. constructor. exact P. }
  destruct E as (l' & P & S). exists l'. constructor; [apply swo_on; exact (key_swo (fun x => x))|exact P|].
  clear P. intros i j x y L Ex Ey. apply Z.ltb_ge. revert i j L Ex Ey. induction S as [|a m Sm IH F]; intros i j L Ex Ey.
  { destruct i; discriminate. }
  destruct j as [|j]; [lia|]. cbn in Ey. destruct i as [|i]; cbn in Ex.
  - injection Ex as <-. rewrite Forall_forall in F. apply F. eapply nth_error_In; exact Ey.
  - apply (IH i j); auto; lia.
Qed.
Lemma rev_sorted l : StronglySorted Z.ge l -> StronglySorted Z.le (rev l).
Proof.
  induction 1 as [|a l S IH F]; [constructor|]. cbn. clear S. rewrite Forall_forall in F.
  assert (G : forall x, In x (rev l) -> (x <= a)%Z). { intros x Hx. apply in_rev in Hx. specialize (F _ Hx). lia. }
  revert IH G. generalize (rev l). intros m Sm G. induction Sm as [|b m Sm IH Fm]; cbn; [repeat constructor|].
  constructor.
  - apply IH. intros x Hx. apply G. right. exact Hx.
  - apply Forall_app. split; [exact Fm|]. constructor; [apply G; left; reflexivity|constructor].
Qed.
(** sorting with is_greater is sorting and reversing *)
Lemma sort_greater l l1 l2 : sort Z.gtb l (Ret l1) -> sort Z.ltb l (Ret l2) -> l1 = rev l2.
Proof.
  intros H1 H2. destruct (sort_by_key (fun x => x) l _ H2) as (l2' & E & P2 & S2). injection E as <-. rewrite map_id in S2.
  inversion H1 as [|? W P1 S1]; subst.
  assert (S1' : StronglySorted Z.ge l1).
  { apply pairs_sorted. intros i j x y L Ex Ey. specialize (S1 i j x y L Ex Ey). rewrite Z.gtb_ltb in S1. apply Z.ltb_ge in S1. lia. }
  apply rev_sorted in S1'. rewrite <- (rev_involutive l1). f_equal. apply sorted_unique; auto.
  eapply Permutation_trans; [apply Permutation_sym, Permutation_rev|]. eapply Permutation_trans; [apply Permutation_sym; exact P1|exact P2].
Qed.
Lemma greater_swo : strict_weak_order Z.gtb.
Proof.
  split.
  - intros x. rewrite Z.gtb_ltb. apply Z.ltb_irrefl.
  - intros x y z. rewrite !Z.gtb_ltb, !Z.ltb_lt. lia.
  - intros x y z. rewrite !Z.gtb_ltb, !Z.ltb_ge. lia.
Qed.

(** * sorting ranges that do not overlap *)
Section Ranges.
Context {T : Type} (ltb leb eqb : T -> T -> bool).
Hypothesis ord : total_order ltb leb eqb.
Lemma apart_swo l : (forall a, In a l -> well_formed leb a) ->
  (forall a b, In a l -> In b l -> a <> b -> is_overlapping ltb eqb a b = false) ->
  strict_weak_on (is_less_no_overlap leb eqb) l.
Proof.
  intros W D. destruct (nless_partial_order ltb leb eqb ord) as (Ir & Tr & To).
  assert (Dec : forall a b : range T, a = b \/ a <> b).
  { intros [a1 a2] [b1 b2]. destruct (eqb a1 b1) eqn:E1; [|right; intros X; injection X as -> _; rewrite (proj2 (to_eqb _ _ _ ord b1 b1) eq_refl) in E1; discriminate].
    destruct (eqb a2 b2) eqn:E2; [|right; intros X; injection X as _ ->; rewrite (proj2 (to_eqb _ _ _ ord b2 b2) eq_refl) in E2; discriminate].
    left. f_equal; apply (to_eqb _ _ _ ord); assumption. }
  split; [auto|]. split; [intros x y z Hx Hy Hz; apply (Tr x y z); auto|].
  intros x y z Hx Hy Hz A B C E.
  assert (x = y). { destruct (Dec x y) as [|N]; [auto|]. destruct (To x y (W _ Hx) (W _ Hy) (D _ _ Hx Hy N)); congruence. }
  assert (y = z). { destruct (Dec y z) as [|N]; [auto|]. destruct (To y z (W _ Hy) (W _ Hz) (D _ _ Hy Hz N)); congruence. }
  subst. auto.
Qed.
Lemma sort_apart l o : (forall a, In a l -> well_formed leb a) ->
  (forall a b, In a l -> In b l -> a <> b -> is_overlapping ltb eqb a b = false) ->
  sort (is_less_no_overlap leb eqb) l o ->
  exists l', o = Ret l' /\ Permutation l l' /\
    forall i j a b, i < j -> nth_error l' i = Some a -> nth_error l' j = Some b -> a = b \/ leb (rend a) (rbegin b) = true.
Proof.
  intros W D H. destruct (sort_defined _ _ _ (apart_swo l W D) H) as (l' & -> & P & S). exists l'. split; [reflexivity|]. split; [exact P|].
  intros i j a b L Ea Eb. specialize (S i j a b L Ea Eb).
  assert (Ha : In a l) by (eapply Permutation_in; [apply Permutation_sym; exact P|eapply nth_error_In; exact Ea]).
  assert (Hb : In b l) by (eapply Permutation_in; [apply Permutation_sym; exact P|eapply nth_error_In; exact Eb]).
  destruct (nless_partial_order ltb leb eqb ord) as (_ & _ & To).
  destruct (is_overlapping ltb eqb a b) eqn:O.
  - left. assert (Dec : a = b \/ a <> b).
    { destruct (apart_swo l W D) as (Ir & _). destruct a as [a1 a2], b as [b1 b2].
      destruct (eqb a1 b1) eqn:E1; [|right; intros X; injection X as -> _; rewrite (proj2 (to_eqb _ _ _ ord b1 b1) eq_refl) in E1; discriminate].
      destruct (eqb a2 b2) eqn:E2; [|right; intros X; injection X as _ ->; rewrite (proj2 (to_eqb _ _ _ ord b2 b2) eq_refl) in E2; discriminate].
      left. f_equal; apply (to_eqb _ _ _ ord); assumption. }
    destruct Dec as [|N]; [auto|]. rewrite (D _ _ Ha Hb N) in O. discriminate.
  - right. destruct (To a b (W _ Ha) (W _ Hb) O) as [X|X]; [|congruence].
    unfold is_less_no_overlap in X. apply andb_true_iff in X. apply X.
Qed.
End Ranges.

(** * filter *)
Section Filter.
Context {A S : Type}.
Variable f : S -> A -> S * bool.
Lemma find_phase_ok : forall (rest before : list A) st, exists n,
  match find_phase f (length rest) (length before) st (before ++ rest) with
  | Ret (st', i) =>
      i = length before + n /\
      (n = length rest /\ filter_in_order f st rest = (st', rest) \/
       exists x rest', rest = firstn n rest ++ x :: rest' /\ length (firstn n rest) = n /\
         forall l', filter_in_order f st' rest' = l' -> filter_in_order f st rest = (fst l', firstn n rest ++ snd l'))
  | _ => False
  end.
Proof.
  induction rest as [|x rest IH]; intros before st; cbn [find_phase length].
  - exists 0. split; [lia|]. left. auto.
  - rewrite nth_error_app2, Nat.sub_diag by lia. cbn [nth_error]. cbn [filter_in_order].
    destruct (f st x) as [st1 keep] eqn:E. destruct keep; cbn [negb].
    + destruct (IH (before ++ [x]) st1) as (n & H). rewrite app_length in H. cbn [length] in H.
      rewrite <- app_assoc in H. cbn [app] in H. exists (Datatypes.S n).
      destruct (find_phase f (length rest) (length before + 1) st1 (before ++ x :: rest)) as [[st' i]| | |]; auto.
      destruct H as (-> & H). split; [lia|]. destruct H as [(-> & H)|(y & rest' & E1 & E2 & H)].
      * left. split; [reflexivity|]. rewrite H. reflexivity.
      * right. exists y, rest'. split; [cbn [firstn app]; f_equal; exact E1|]. split; [cbn [firstn length]; f_equal; exact E2|].
        intros l' Hl. rewrite (H _ Hl). reflexivity.
    + exists 0. split; [lia|]. right. exists x, rest. split; [reflexivity|]. split; [reflexivity|].
      intros l' <-. destruct (filter_in_order f st1 rest). reflexivity.
Qed.
Lemma shift_phase_ok junk : forall rest kept (gap : list A) st, gap <> [] ->
  exists tail, shift_phase f junk (length rest) (length kept + length gap) (length kept) st (kept ++ gap ++ rest) =
    Ret (fst (filter_in_order f st rest), length kept + length (snd (filter_in_order f st rest)),
         kept ++ snd (filter_in_order f st rest) ++ tail).
Proof.
  induction rest as [|x rest IH]; intros kept gap st N; cbn [shift_phase length filter_in_order].
  - exists gap. cbn. rewrite Nat.add_0_r, app_nil_r. reflexivity.
  - assert (En : nth_error (kept ++ gap ++ x :: rest) (length kept + length gap) = Some x).
    { rewrite app_assoc, <- app_length, nth_error_app2, Nat.sub_diag by lia. reflexivity. }
    rewrite En. destruct (f st x) as [st1 keep]. destruct keep; cbn [negb].
    + destruct gap as [|g gap]; [congruence|]. set (j := junk _). cbn [app]. rewrite set_nth_app.
      assert (E2 : set_nth (kept ++ x :: gap ++ x :: rest) (length kept + length (g :: gap)) j = (kept ++ [x]) ++ (gap ++ [j]) ++ rest).
      { replace (kept ++ x :: gap ++ x :: rest) with ((kept ++ x :: gap) ++ x :: rest) by (rewrite <- app_assoc; reflexivity).
        replace (length kept + length (g :: gap)) with (length (kept ++ x :: gap)) by (rewrite app_length; reflexivity).
        rewrite set_nth_app, <- !app_assoc. reflexivity. }
      rewrite E2. destruct (IH (kept ++ [x]) (gap ++ [j]) st1) as (tail & E); [destruct gap; discriminate|].
      exists tail. rewrite !app_length in E. cbn [length] in *.
      replace (length kept + Datatypes.S (length gap) + 1) with (length kept + 1 + (length gap + 1)) by lia. rewrite E.
      destruct (filter_in_order f st1 rest) as [st2 l2]. cbn [fst snd length]. rewrite <- !app_assoc. cbn [app]. do 3 f_equal. lia.
    + destruct (IH kept (gap ++ [x]) st1) as (tail & E); [destruct gap; discriminate|].
      exists tail. rewrite app_length in E. cbn [length] in E. rewrite <- app_assoc in E. cbn [app] in E.
      replace (length kept + length gap + 1) with (length kept + (length gap + 1)) by lia. rewrite E.
      destruct (filter_in_order f st1 rest) as [st2 l2]. reflexivity.
Qed.
Theorem filter_effects_ok junk st l : filter_effects f junk st l = Ret (filter_in_order f st l).
Proof.
  unfold filter_effects. destruct (find_phase_ok l [] st) as (n & H). cbn [app length] in H.
  destruct (find_phase f (length l) 0 st l) as [[st' i]| | |]; try contradiction. cbn [obind].
  destruct H as (-> & [(-> & H)|(x & rest & E1 & E2 & H)]).
  - rewrite Nat.add_0_l, Nat.eqb_refl, H. reflexivity.
  - rewrite Nat.add_0_l. set (pre := firstn n l) in *.
    assert (Ll : length l = n + Datatypes.S (length rest)). { rewrite E1, app_length, E2. reflexivity. }
    replace (n =? length l) with false by (symmetry; apply Nat.eqb_neq; lia).
    destruct (shift_phase_ok junk rest pre [x] st') as (tail & E); [discriminate|]. cbn [length app] in E. rewrite E2 in E.
    replace (length l - (n + 1)) with (length rest) by lia. rewrite <- E1 in E. rewrite E. cbn [obind].
    unfold erase_from. rewrite (proj2 (Nat.leb_le _ _)) by (rewrite !app_length; lia). cbn [obind].
    rewrite (H _ eq_refl). f_equal. f_equal. rewrite app_assoc, <- E2, <- app_length, firstn_app, Nat.sub_diag, firstn_all.
    cbn. apply app_nil_r.
Qed.
End Filter.

(** * map *)
Section Map.
Context {A B : Type} (less : B -> B -> bool).
Hypothesis swo : strict_weak_order less.
Lemma eqv_less_l x y z : less x y = false -> less y x = false -> less x z = less y z.
Proof.
  intros H1 H2. destruct (less x z) eqn:E1, (less y z) eqn:E2; auto.
  - exfalso. destruct (less z y) eqn:E3.
    + rewrite (swo_trans _ swo x z y E1 E3) in H1. discriminate.
    + destruct (swo_incomp _ swo x y z H1 H2 E2 E3). congruence.
  - exfalso. destruct (less z x) eqn:E3.
    + rewrite (swo_trans _ swo y z x E2 E3) in H2. discriminate.
    + destruct (swo_incomp _ swo y x z H2 H1 E1 E3). congruence.
Qed.
Lemma eqv_less_r x y z : less x y = false -> less y x = false -> less z x = less z y.
Proof.
  intros H1 H2. destruct (less z x) eqn:E1, (less z y) eqn:E2; auto.
  - exfalso. destruct (less y z) eqn:E3.
    + rewrite (swo_trans _ swo y z x E3 E1) in H2. discriminate.
    + destruct (swo_incomp _ swo x y z H1 H2 E3 E2). congruence.
  - exfalso. destruct (less x z) eqn:E3.
    + rewrite (swo_trans _ swo x z y E3 E2) in H1. discriminate.
    + destruct (swo_incomp _ swo y x z H2 H1 E3 E1). congruence.
Qed.
Lemma insert_in x s y : In y (tree_insert less x s) -> y = x \/ In y s.
Proof.
  induction s as [|z s IH]; cbn; [intuition|]. destruct (less x z); [cbn; intuition|]. destruct (less z x); [|cbn; intuition].
  intros [H|H]; [right; left; exact H|]. destruct (IH H); auto.
Qed.
Lemma insert_increasing x s : increasing less s -> increasing less (tree_insert less x s).
Proof.
  induction s as [|z s IH]; intros I; cbn; [repeat constructor|]. cbn in I. destruct I as (F & I).
  destruct (less x z) eqn:E; [|destruct (less z x) eqn:E2].
  - split; [|split; auto]. constructor; [exact E|]. eapply Forall_impl; [|exact F]. intros y. apply (swo_trans _ swo _ _ _ E).
  - split; [|auto]. apply Forall_forall. intros y Hy. apply insert_in in Hy. destruct Hy as [->|Hy]; [exact E2|].
    rewrite Forall_forall in F. auto.
  - split; auto.
Qed.
Definition eqv x y := negb (less x y) && negb (less y x).
Lemma first_equiv_cons x y l : first_equiv less x (y :: l) = if eqv x y then Some y else first_equiv less x l.
Proof. reflexivity. Qed.
Lemma first_equiv_none x s : Forall (fun y => less x y = true) s -> first_equiv less x s = None.
Proof. induction 1 as [|y s H _ IH]; [reflexivity|]. rewrite first_equiv_cons. unfold eqv. rewrite H. exact IH. Qed.
Lemma insert_find x s : increasing less s -> forall k,
  first_equiv less k (tree_insert less x s) =
  match first_equiv less k s with Some y => Some y | None => if eqv k x then Some x else None end.
Proof.
  induction s as [|z s IH]; intros I k; cbn [tree_insert].
  - rewrite first_equiv_cons. cbn. reflexivity.
  - cbn in I. destruct I as (F & I). destruct (less x z) eqn:E; [|destruct (less z x) eqn:E2].
    + rewrite (first_equiv_cons k x). destruct (eqv k x) eqn:Ek.
      * unfold eqv in Ek. apply andb_true_iff in Ek. rewrite !negb_true_iff in Ek. destruct Ek as (K1 & K2).
        rewrite first_equiv_none; [reflexivity|]. constructor; [rewrite (eqv_less_l k x); auto|].
        eapply Forall_impl; [|exact F]. intros y Hy. rewrite (eqv_less_l k x); auto. eapply (swo_trans _ swo); eauto.
      * destruct (first_equiv less k (z :: s)); reflexivity.
    + rewrite !first_equiv_cons. destruct (eqv k z); auto.
    + rewrite !first_equiv_cons. destruct (eqv k z) eqn:Ek; [reflexivity|].
      destruct (eqv k x) eqn:Ex; [|destruct (first_equiv less k s); reflexivity]. exfalso.
      unfold eqv in *. apply andb_true_iff in Ex. rewrite !negb_true_iff in Ex. destruct Ex as (K1 & K2).
      rewrite <- (eqv_less_r x z k), (eqv_less_l z x k), K1, K2 in Ek; auto. discriminate.
Qed.
Lemma first_equiv_app k a b : first_equiv less k (a ++ b) = match first_equiv less k a with Some y => Some y | None => first_equiv less k b end.
Proof. induction a as [|y a IH]; [reflexivity|]. cbn [app]. rewrite !first_equiv_cons, IH. destruct (eqv k y); reflexivity. Qed.
Theorem map_into_tree_ok (f : A -> B) source : forall s, increasing less s ->
  increasing less (map_into_tree less f source s) /\
  forall k, first_equiv less k (map_into_tree less f source s) = first_equiv less k (s ++ map f source).
Proof.
  unfold map_into_tree. induction source as [|x source IH]; intros s I; cbn [fold_left map].
  - rewrite app_nil_r. auto.
  - destruct (IH (tree_insert less (f x) s) (insert_increasing _ _ I)) as (I' & H). split; [exact I'|].
    intros k. rewrite H. rewrite !first_equiv_app, (insert_find _ _ I), first_equiv_cons.
    destruct (first_equiv less k s); [reflexivity|]. destruct (eqv k (f x)); reflexivity.
Qed.
End Map.
Lemma map_self_endless {A} (f : A -> A) fuel : forall i l, i < length l -> map_list_self f fuel i l = OutOfFuel.
Proof.
  induction fuel as [|fuel IH]; intros i l L; [reflexivity|]. cbn. replace (i =? length l) with false by (symmetry; apply Nat.eqb_neq; lia).
  destruct (nth_error l i) eqn:E; [|apply nth_error_None in E; lia]. apply IH. rewrite app_length. cbn. lia.
Qed.

(** * round and pow *)
Local Open Scope Z_scope.
Lemma nearest_even_multiple a d : 0 < d -> (d | a) -> nearest_even a d = a.
Proof.
  intros D (q & ->). unfold nearest_even. rewrite Z.mod_mul, Z.div_mul by lia.
  destruct (Z.ltb_spec (2 * 0) d); lia.
Qed.
Lemma nearest_even_error a d : 0 < d -> 2 * Z.abs (nearest_even a d - a) <= d.
Proof.
  intros D. unfold nearest_even. pose proof (Z.div_mod a d ltac:(lia)) as E. pose proof (Z.mod_pos_bound a d D) as B.
  generalize dependent (a mod d). generalize (a / d). intros q r E B. rewrite E. clear E.
  destruct (Z.ltb_spec (2 * r) d); [replace (d * q - (d * q + r)) with (- r) by lia; lia|].
  destruct (Z.ltb_spec d (2 * r)); [replace (d * (q + 1) - (d * q + r)) with (d - r) by lia; lia|].
  destruct (Z.even q); [replace (d * q - (d * q + r)) with (- r) by lia; lia|].
  replace (d * (q + 1) - (d * q + r)) with (d - r) by lia; lia.
Qed.
Lemma spacing n : 2 ^ 53 <= Z.abs n -> 0 < 2 ^ (Z.log2 (Z.abs n) - 52) /\ 2 ^ 52 * 2 ^ (Z.log2 (Z.abs n) - 52) <= Z.abs n.
Proof.
  intros H. assert (L : 53 <= Z.log2 (Z.abs n)). { apply Z.log2_le_mono in H. rewrite Z.log2_pow2 in H; lia. }
  split; [apply Z.pow_pos_nonneg; lia|]. rewrite <- Z.pow_add_r by lia.
  replace (52 + (Z.log2 (Z.abs n) - 52)) with (Z.log2 (Z.abs n)) by lia. apply Z.log2_spec. lia.
Qed.
Lemma to_double_error n : 2 ^ 53 * Z.abs (to_double n - n) <= Z.abs n.
Proof.
  unfold to_double. destruct (Z.ltb_spec (Z.abs n) (2 ^ 53)) as [L|L]; [rewrite Z.sub_diag; cbn [Z.abs]; lia|].
  destruct (spacing n L) as (P & Q). set (d := 2 ^ (Z.log2 (Z.abs n) - 52)) in *.
  pose proof (nearest_even_error (Z.abs n) d P) as E.
  assert (X : Z.abs (Z.sgn n * nearest_even (Z.abs n) d - n) = Z.abs (nearest_even (Z.abs n) d - Z.abs n)).
  { destruct (Z.abs_spec n) as [(? & A)|(? & A)].
    - rewrite A. rewrite Z.sgn_pos by lia. f_equal. lia.
    - rewrite A. rewrite Z.sgn_neg by lia. rewrite <- Z.abs_opp. f_equal. lia. }
  rewrite X. change (2 ^ 53) with (2 ^ 52 * 2). nia.
Qed.
Lemma to_double_exact n : to_double n = n <-> Z.abs n < 2 ^ 53 \/ (2 ^ (Z.log2 (Z.abs n) - 52) | n).
Proof.
  unfold to_double. destruct (Z.ltb_spec (Z.abs n) (2 ^ 53)) as [L|L]; [tauto|]. destruct (spacing n L) as (P & Q).
  set (d := 2 ^ (Z.log2 (Z.abs n) - 52)) in *. split.
  - intros E. right. rewrite <- E. unfold nearest_even. apply Z.divide_mul_r, Z.divide_factor_l.
  - intros [H|H]; [lia|]. rewrite nearest_even_multiple by (auto; apply Z.divide_abs_r; exact H). rewrite Z.mul_comm. apply Z.abs_sgn.
Qed.
Lemma to_double_small n : Z.abs n <= 2 ^ 53 -> to_double n = n.
Proof.
  intros H. apply to_double_exact. destruct (Z.eq_dec (Z.abs n) (2 ^ 53)) as [E|E]; [|left; lia]. right.
  rewrite E, Z.log2_pow2 by lia. apply Z.divide_abs_r. rewrite E. exists (2 ^ 52). reflexivity.
Qed.
Lemma pow_wrong (cpow : Z -> Z -> Z) : exists n, Z.abs n < 2 ^ 63 /\ pow cpow n 1 <> n.
Proof.
  destruct (Z.eq_dec (cpow (2 ^ 53) 1) (2 ^ 53)) as [E|E].
  - exists (2 ^ 53 + 1). split; [reflexivity|]. unfold pow. replace (to_double (2 ^ 53 + 1)) with (2 ^ 53) by reflexivity.
    change (to_double 1) with 1. rewrite E. discriminate.
  - exists (2 ^ 53). split; [reflexivity|]. exact E.
Qed.

(** * the comparisons of compare.hpp as sorting orders *)
Local Close Scope Z_scope.
Lemma sort_ignoring_case toupper l o : sort (SeqModel.is_iless toupper) l o ->
  exists l', o = Ret l' /\ Permutation l l' /\ StronglySorted Z.le (map toupper l').
Proof. apply sort_by_key. Qed.
Lemma sort_default l o : sort Z.ltb l o -> exists l', o = Ret l' /\ Permutation l l' /\ StronglySorted Z.le l'.
Proof. intros H. destruct (sort_by_key (fun x => x) l o H) as (l' & E & P & S). rewrite map_id in S. eauto. Qed.
Lemma sort_greater_reverses l o1 o2 : sort Z.gtb l o1 -> sort Z.ltb l o2 -> exists l', o2 = Ret l' /\ o1 = Ret (rev l').
Proof.
  intros H1 H2. destruct (sort_default _ _ H2) as (l2 & -> & _). exists l2. split; [reflexivity|].
  destruct (sort_defined _ _ _ (swo_on _ l greater_swo) H1) as (l1 & -> & _). f_equal. eapply sort_greater; eauto.
Qed.
Lemma sort_example : sort Z.ltb [3; 1; 2; 1]%Z (Ret [1; 1; 2; 3]%Z).
Proof.
  destruct (sort_exists [3; 1; 2; 1]%Z) as (l' & H). destruct (sort_default _ _ H) as (l2 & E & P & S). injection E as <-.
  replace ([1; 1; 2; 3]%Z) with l'; [exact H|]. apply sorted_unique; auto.
  - repeat (constructor; [|repeat constructor; lia]). constructor.
  - eapply Permutation_trans; [apply Permutation_sym; exact P|]. eapply Permutation_trans; [apply perm_swap|]. constructor.
    eapply Permutation_trans; [|apply perm_swap]. eapply Permutation_trans with (l' := [3; 1; 2]%Z).
    { constructor. apply perm_swap. }
    eapply Permutation_trans; [apply perm_swap|]. eapply Permutation_trans; [|apply perm_swap]. constructor. apply perm_swap.
Qed.
Lemma sort_overlapping : sort (is_less_no_overlap Z.leb Z.eqb) [Range 0 2; Range 1 4; Range 3 5]%Z Ub.
Proof.
  constructor. intros (_ & _ & C). destruct (C (Range 0 2) (Range 1 4) (Range 3 5))%Z as (X & _); try reflexivity; cbn; auto. discriminate.
Qed.
