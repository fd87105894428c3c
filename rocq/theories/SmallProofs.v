From Coq Require Import List Bool Arith ZArith Lia.
From Verif Require Import Base SeqModel SeqSpec SeqProofs SmallModel SmallSpec.
Import ListNotations.
Open Scope nat_scope.

(** * abs *)
Section Abs.
Open Scope Z_scope.
Lemma wrap_id bits sgn z : 0 < bits -> in_range bits sgn z -> wrap_to bits sgn z = z.
Proof.
  intros Hb H. unfold wrap_to, in_range in *.
  assert (P : 2 ^ bits = 2 * 2 ^ (bits - 1)) by (rewrite <- Z.pow_succ_r by lia; f_equal; lia).
  assert (Q : 0 < 2 ^ (bits - 1)) by (apply Z.pow_pos_nonneg; lia).
  destruct sgn; cbn [andb].
  - destruct (Z.leb_spec 0 z).
    + rewrite Z.mod_small by lia. destruct (Z.leb_spec (2 ^ (bits - 1)) z); lia.
    + assert (E : z mod 2 ^ bits = z + 2 ^ bits).
      { symmetry. apply Z.mod_unique with (-1); lia. }
      rewrite E. destruct (Z.leb_spec (2 ^ (bits - 1)) (z + 2 ^ bits)); lia.
  - apply Z.mod_small. lia.
Qed.

Theorem abs_ok bits sgn v : 0 < bits -> in_range bits sgn v -> (sgn = true -> v <> - 2 ^ (bits - 1)) ->
  abs bits sgn v = Ret (Z.abs v).
Proof.
  intros Hb H N. unfold abs. destruct (Z.ltb_spec v 0) as [L|L]; [|f_equal; lia].
  destruct sgn; [|unfold in_range in H; lia]. specialize (N eq_refl).
  assert (R : in_range bits true (- v)) by (unfold in_range in *; lia).
  unfold negate. destruct (bits <? 32).
  - rewrite wrap_id by assumption. f_equal. lia.
  - rewrite (proj2 (fits_ok bits true (- v)) R). f_equal. lia.
Qed.

Theorem abs_min bits : 0 < bits ->
  (bits < 32 -> abs bits true (- 2 ^ (bits - 1)) = Ret (- 2 ^ (bits - 1))) /\
  (32 <= bits -> abs bits true (- 2 ^ (bits - 1)) = Ub).
Proof.
  intros Hb.
  assert (Q : 0 < 2 ^ (bits - 1)) by (apply Z.pow_pos_nonneg; lia).
  assert (P : 2 ^ bits = 2 * 2 ^ (bits - 1)) by (rewrite <- Z.pow_succ_r by lia; f_equal; lia).
  unfold abs, negate. rewrite (proj2 (Z.ltb_lt _ _)) by lia. split; intros H.
  - rewrite (proj2 (Z.ltb_lt _ _)) by lia. f_equal. unfold wrap_to. cbn [andb].
    replace (- - 2 ^ (bits - 1)) with (2 ^ (bits - 1)) by lia.
    rewrite Z.mod_small by lia. rewrite Z.leb_refl. lia.
  - rewrite (proj2 (Z.ltb_ge _ _)) by lia.
    destruct (fits bits true (- - 2 ^ (bits - 1))) eqn:F; [|reflexivity].
    apply fits_ok in F. unfold in_range in F. lia.
Qed.

Lemma abs_differs : exists bits v, 0 < bits /\ in_range bits true v /\
  forall r, abs bits true v = Ret r -> r < 0.
Proof.
  exists 8, (-128). split; [lia|]. split; [unfold in_range; simpl; lia|].
  intros r E. vm_compute in E. injection E as <-. lia.
Qed.
End Abs.

(** * range *)
Section RangeProofs.
Context {T : Type} (ltb leb eqb : T -> T -> bool) (O : total_order ltb leb eqb).

Lemma to_asym x y : ltb x y = true -> ltb y x = false.
Proof.
  intros H. destruct (ltb y x) eqn:E; [|reflexivity].
  rewrite <- (to_irrefl _ _ _ O x). symmetry. eapply to_trans; eauto.
Qed.

(** comparing two elements: exactly one of three cases *)
Inductive cmp (x y : T) : Prop :=
| cmp_eq : x = y -> eqb x y = true -> eqb y x = true -> ltb x y = false -> ltb y x = false -> cmp x y
| cmp_lt : x <> y -> eqb x y = false -> eqb y x = false -> ltb x y = true -> ltb y x = false -> cmp x y
| cmp_gt : x <> y -> eqb x y = false -> eqb y x = false -> ltb x y = false -> ltb y x = true -> cmp x y.

Lemma cmp_dec x y : cmp x y.
Proof.
  assert (NE : forall x y, ltb x y = true -> x <> y).
  { intros a b H ->. rewrite (to_irrefl _ _ _ O) in H. discriminate. }
  assert (EF : forall x y, x <> y -> eqb x y = false).
  { intros a b N. destruct (eqb a b) eqn:E; [|reflexivity]. apply (to_eqb _ _ _ O) in E. congruence. }
  assert (ET : forall x, eqb x x = true) by (intros a; apply (to_eqb _ _ _ O); reflexivity).
  destruct (to_total _ _ _ O x y) as [->|[H|H]].
  - apply cmp_eq; auto; apply (to_irrefl _ _ _ O).
  - pose proof (NE _ _ H). apply cmp_lt; auto. apply to_asym. exact H.
  - pose proof (NE _ _ H). apply cmp_gt; auto. apply to_asym. exact H.
Qed.

Ltac rew := repeat match goal with H : _ = true |- _ => rewrite H in * | H : _ = false |- _ => rewrite H in * end.

Notation less := (is_less ltb eqb).
Notation nless := (is_less_no_overlap leb eqb).
Notation over := (is_overlapping ltb eqb).

Theorem less_lex a b : less a b = true <->
  (ltb (rbegin a) (rbegin b) = true \/ (rbegin a = rbegin b /\ ltb (rend a) (rend b) = true)).
Proof.
  unfold is_less. destruct (cmp_dec (rbegin a) (rbegin b)) as [E H1 H2 H3 H4|E H1 H2 H3 H4|E H1 H2 H3 H4]; rewrite H1.
  - split; [auto|]. intros [H|[_ H]]; [congruence|exact H].
  - rewrite H3. tauto.
  - rewrite H3. split; [discriminate|]. intros [H|[H _]]; congruence.
Qed.

Theorem less_total :
  (forall a, less a a = false) /\
  (forall a b c, less a b = true -> less b c = true -> less a c = true) /\
  (forall a b : range T, a = b \/ less a b = true \/ less b a = true).
Proof.
  split; [|split].
  - intros a. destruct (less a a) eqn:E; [|reflexivity]. apply less_lex in E.
    rewrite !(to_irrefl _ _ _ O) in E. destruct E as [E|[_ E]]; discriminate.
  - intros a b c. rewrite !less_lex. intros [H|[H H']] [K|[K K']].
    + left. eapply to_trans; eauto.
    + left. congruence.
    + left. congruence.
    + right. split; [congruence|eapply to_trans; eauto].
  - intros [b e] [b' e']. rewrite !less_lex. simpl.
    destruct (to_total _ _ _ O b b') as [->|[H|H]]; [|auto|auto].
    destruct (to_total _ _ _ O e e') as [->|[H|H]]; auto.
Qed.

Theorem operators_ok (a b : range T) :
  (op_eq eqb a b = true <-> a = b) /\ op_ne eqb a b = negb (op_eq eqb a b) /\
  op_gt ltb eqb a b = op_lt ltb eqb b a /\
  (op_le ltb eqb a b = true <-> op_lt ltb eqb a b = true \/ a = b) /\
  (op_ge ltb eqb a b = true <-> op_gt ltb eqb a b = true \/ a = b).
Proof.
  destruct less_total as (I & Tr & To).
  assert (As : forall x y, less x y = true -> less y x = false).
  { intros x y H. destruct (less y x) eqn:E; [|reflexivity]. rewrite <- (I x). symmetry. eapply Tr; eauto. }
  split; [|split; [reflexivity|split; [reflexivity|split]]].
  - unfold op_eq, is_equal. rewrite andb_true_iff, !(to_eqb _ _ _ O). destruct a, b. simpl. split.
    + intros []. congruence.
    + intros E. injection E. auto.
  - unfold op_le, op_lt. rewrite negb_true_iff. split.
    + intros H. destruct (To a b) as [E|[E|E]]; [auto|auto|congruence].
    + intros [H| ->]; [apply As; exact H|apply I].
  - unfold op_ge, op_gt. rewrite negb_true_iff. split.
    + intros H. destruct (To a b) as [E|[E|E]]; [auto|congruence|auto].
    + intros [H| ->]; [apply As; exact H|apply I].
Qed.

Notation well_formed := (well_formed leb).

Lemma le_cases x y : leb x y = true <-> x = y \/ ltb x y = true.
Proof.
  rewrite (to_leb _ _ _ O), negb_true_iff. destruct (cmp_dec x y); split; intros; auto; try congruence.
  destruct H4; congruence.
Qed.

Lemma lt_le_trans x y z : ltb x y = true -> leb y z = true -> ltb x z = true.
Proof. rewrite le_cases. intros H [->|K]; [exact H|eapply to_trans; eauto]. Qed.
Lemma le_lt_trans x y z : leb x y = true -> ltb y z = true -> ltb x z = true.
Proof. rewrite le_cases. intros [->|K] H; [exact H|eapply to_trans; eauto]. Qed.

Theorem partition a b : well_formed a -> well_formed b ->
  (nless a b = true /\ nless b a = false /\ over a b = false) \/
  (nless a b = false /\ nless b a = true /\ over a b = false) \/
  (nless a b = false /\ nless b a = false /\ over a b = true).
Proof.
  destruct a as [x e], b as [x' e']. unfold SmallSpec.well_formed, is_less_no_overlap, is_overlapping. simpl. intros Wa Wb.
  destruct (cmp_dec x x') as [E H1 H2 H3 H4|E H1 H2 H3 H4|E H1 H2 H3 H4]; rewrite H1, H2; simpl.
  - right. right. auto.
  - assert (K : ltb x e' = true) by (eapply lt_le_trans; eauto). rewrite K. simpl.
    rewrite !(to_leb _ _ _ O), K. destruct (ltb x' e); simpl; auto.
  - assert (K : ltb x' e = true) by (eapply lt_le_trans; eauto). rewrite K, andb_true_r.
    rewrite !(to_leb _ _ _ O), K. destruct (ltb x e'); simpl; auto.
Qed.

Theorem overlap_sym a b : over a b = over b a /\ over a a = true.
Proof.
  unfold is_overlapping. split.
  - rewrite (andb_comm (ltb (rbegin a) _)). f_equal.
    destruct (cmp_dec (rbegin a) (rbegin b)); congruence.
  - rewrite (proj2 (to_eqb _ _ _ O _ _)); reflexivity.
Qed.

Notation has := (has ltb leb).

Theorem overlap_shared_point a b : ltb (rbegin a) (rend a) = true -> ltb (rbegin b) (rend b) = true ->
  (over a b = true <-> exists p, has a p /\ has b p).
Proof.
  intros Na Nb. unfold is_overlapping, SmallSpec.has. split.
  - intros H. destruct (cmp_dec (rbegin a) (rbegin b)) as [E H1 H2 H3 H4|E H1 H2 H3 H4|E H1 H2 H3 H4].
    + exists (rbegin a). rewrite !le_cases. rewrite <- E in *. auto.
    + rewrite H1 in H. simpl in H. apply andb_prop in H. destruct H as [Ha Hb].
      exists (rbegin b). rewrite !le_cases. auto.
    + rewrite H1 in H. simpl in H. apply andb_prop in H. destruct H as [Ha Hb].
      exists (rbegin a). rewrite !le_cases. auto.
  - intros (p & [A1 A2] & [B1 B2]). apply orb_true_iff. right.
    rewrite (le_lt_trans _ _ _ A1 B2), (le_lt_trans _ _ _ B1 A2). reflexivity.
Qed.

Theorem nless_partial_order :
  (forall a, nless a a = false) /\
  (forall a b c, well_formed a -> well_formed b -> well_formed c ->
     nless a b = true -> nless b c = true -> nless a c = true) /\
  (forall a b, well_formed a -> well_formed b -> over a b = false -> nless a b = true \/ nless b a = true).
Proof.
  split; [|split].
  - intros a. unfold is_less_no_overlap. rewrite (proj2 (to_eqb _ _ _ O _ _)) by reflexivity. reflexivity.
  - intros [x e] [x' e'] [x'' e'']. unfold SmallSpec.well_formed, is_less_no_overlap. simpl.
    rewrite !andb_true_iff, !negb_true_iff. intros Wa Wb Wc [N1 L1] [N2 L2].
    assert (K : ltb x x' = true).
    { destruct (cmp_dec x x') as [E H1 H2 H3 H4|E H1 H2 H3 H4|E H1 H2 H3 H4]; [congruence|exact H3|].
      exfalso. rewrite (to_leb _ _ _ O) in L1. apply negb_true_iff in L1.
      rewrite (lt_le_trans _ _ _ H4 Wa) in L1. discriminate. }
    assert (K2 : leb e x'' = true).
    { rewrite le_cases in *. destruct L1 as [->|L1]; destruct Wb as [->|Wb]; destruct L2 as [->|L2]; auto;
        right; repeat (eassumption || (eapply to_trans; [exact O| |])); eauto using (to_trans _ _ _ O). }
    split; [|exact K2].
    assert (K3 : ltb x x'' = true).
    { eapply lt_le_trans; [exact K|]. rewrite le_cases in *.
      destruct Wb as [->|Wb]; destruct L2 as [->|L2]; auto. right. eapply (to_trans _ _ _ O); eauto. }
    destruct (cmp_dec x x''); congruence.
  - intros a b Wa Wb N. destruct (partition a b Wa Wb) as [(H & _)|[(_ & H & _)|(_ & _ & H)]]; [auto|auto|congruence].
Qed.
End RangeProofs.

Lemma Z_total_order : total_order Z.ltb Z.leb Z.eqb.
Proof.
  split.
  - apply Z.eqb_eq.
  - apply Z.ltb_irrefl.
  - intros x y z. rewrite !Z.ltb_lt. lia.
  - intros x y. rewrite !Z.ltb_lt. lia.
  - intros x y. apply Z.leb_antisym.
Qed.

Lemma reversed_both_less : exists a b : range Z,
  is_less_no_overlap Z.leb Z.eqb a b = true /\ is_less_no_overlap Z.leb Z.eqb b a = true.
Proof. exists (Range 5 0)%Z, (Range 3 4)%Z. split; reflexivity. Qed.

Lemma nless_not_swo : ~ (forall a b c : range Z,
  (rbegin a <= rend a)%Z -> (rbegin b <= rend b)%Z -> (rbegin c <= rend c)%Z ->
  let lt := is_less_no_overlap Z.leb Z.eqb in
  lt a b = false -> lt b a = false -> lt b c = false -> lt c b = false -> lt a c = false /\ lt c a = false).
Proof.
  intros H. destruct (H (Range 0 2) (Range 1 4) (Range 3 5))%Z; try reflexivity; simpl; try lia.
  discriminate.
Qed.

Open Scope Z_scope.
Theorem range_size_ok bits sgn (a : range Z) : 32 <= bits -> rbegin a <= rend a ->
  in_range bits sgn (rbegin a) -> in_range bits sgn (rend a) ->
  (sgn = true -> rend a - rbegin a < 2 ^ (bits - 1)) ->
  range_size bits sgn a = Ret (rend a - rbegin a).
Proof.
  intros Hb W Ha He N. unfold range_size, in_range in *. destruct sgn.
  - specialize (N eq_refl). rewrite (proj2 (fits_ok bits true _)); [reflexivity|]. unfold in_range.
    assert (0 < 2 ^ (bits - 1)) by (apply Z.pow_pos_nonneg; lia). lia.
  - f_equal. apply wrap_id; [lia|]. unfold in_range. lia.
Qed.

Theorem range_size_overflows : exists a : range Z, rbegin a <= rend a /\
  in_range 32 true (rbegin a) /\ in_range 32 true (rend a) /\ range_size 32 true a = Ub.
Proof. exists (Range (-1) 2147483647). repeat split; simpl; lia. Qed.

(** * file_name *)

Lemma file_name_loop_ok rest : forall path p f, Forall (fun c => c <> 0) path ->
  exists pre base, path = pre ++ base /\ no_slash base /\
    (pre = [] \/ exists pre' c, pre = pre' ++ [c] /\ (c = slash \/ c = backslash)) /\
    file_name_loop (path ++ 0 :: rest) p f = Ret (match pre with [] => f | _ => (p + length pre)%nat end).
Proof.
  induction path as [|c path IH]; intros p f NZ; simpl.
  - exists [], []. repeat split; auto. constructor.
  - inversion NZ as [|? ? N0 NZ']; subst. rewrite (proj2 (Z.eqb_neq _ _) N0).
    destruct (IH (S p) (if (c =? backslash) || (c =? slash) then (p + 1)%nat else f) NZ') as (pre & base & E & NS & K & R).
    rewrite R.
    destruct pre as [|x pre].
    + simpl in E. subst base.
      destruct ((c =? backslash) || (c =? slash)) eqn:C.
      * exists [c], path. repeat split; auto. right. exists [], c. split; [reflexivity|].
        apply orb_prop in C. rewrite !Z.eqb_eq in C. tauto.
      * exists [], (c :: path). apply orb_false_iff in C. rewrite !Z.eqb_neq in C.
        repeat split; auto. constructor; tauto.
    + exists (c :: x :: pre), base. simpl in E. subst path. repeat split; auto.
      * right. destruct K as [K|(pre' & y & K & Y)]; [discriminate|]. exists (c :: pre'), y. rewrite K. auto.
      * f_equal. simpl. lia.
Qed.

Theorem file_name_ok path rest : Forall (fun c => c <> 0) path ->
  exists n, file_name (path ++ 0 :: rest) = Ret n /\ (n <= length path)%nat /\ last_component path (skipn n path).
Proof.
  intros NZ. destruct (file_name_loop_ok rest path 0 0 NZ) as (pre & base & E & NS & K & R).
  exists (length pre). split; [unfold file_name; rewrite R; destruct pre; reflexivity|].
  subst path. split; [rewrite app_length; lia|].
  rewrite skipn_app, skipn_all, Nat.sub_diag. simpl.
  split; [eauto|]. split; [exact NS|].
  intros p b' Eq NS'.
  destruct (Nat.le_gt_cases (length b') (length base)) as [|G]; [assumption|exfalso].
  destruct K as [->|(pre' & c & -> & Hc)].
  - apply (f_equal (@length Z)) in Eq. simpl in Eq. rewrite app_length in Eq. lia.
  - assert (L : (length p <= length pre')%nat).
    { apply (f_equal (@length Z)) in Eq. rewrite !app_length in Eq. simpl in Eq. lia. }
    assert (I : In c b').
    { rewrite <- (firstn_skipn (length p) pre'), <- !app_assoc in Eq.
      assert (length (firstn (length p) pre') = length p) by (rewrite firstn_length; lia).
      assert (b' = skipn (length p) pre' ++ [c] ++ base).
      { apply (f_equal (skipn (length p))) in Eq.
        rewrite (skipn_app _ p), skipn_app, H, Nat.sub_diag, (skipn_all2 p), skipn_all2 in Eq by lia.
        simpl in Eq. symmetry. exact Eq. }
      subst b'. apply in_or_app. right. left. reflexivity. }
    unfold no_slash in NS'. rewrite Forall_forall in NS'. specialize (NS' _ I). unfold slash, backslash in Hc. tauto.
Qed.
