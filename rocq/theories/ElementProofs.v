(** Proofs about functions whose element operations or allocations throw. *)
From Coq Require Import List Bool Arith Lia.
From Verif Require Import Base ListUpdate SeqModel SeqProofs SmallProofs AlgoProofs StringModel StringSpec StringProofs CallbackModel ElementModel ElementSpec.
Import ListNotations.
Local Open Scope nat_scope.

Section Reverse.
Context {W A : Type} (E : elements W A).
(** the swap of two values *)
Definition swap2 (w : W) (x y : A) : W * A * A * ended unit :=
  match construct E w x with
  | (w, x, None) => (w, x, y, Threw)
  | (w, x, Some t) =>
      match assign E w x y with
      | (w, x, y, true) => (w, x, y, Threw)
      | (w, x, y, false) =>
          match assign E w y t with
          | (w, y, _, threw) => (w, x, y, if threw : bool then Threw else Returned tt)
          end
      end
  end.
Lemma set_second (a b : list A) x m y z : set_nth (a ++ x :: m ++ y :: b) (length a + S (length m)) z = a ++ x :: m ++ z :: b.
Proof.
  replace (a ++ x :: m ++ y :: b) with ((a ++ x :: m) ++ y :: b) by (rewrite <- app_assoc; reflexivity).
  replace (length a + S (length m)) with (length (a ++ x :: m)) by (rewrite app_length; reflexivity).
  rewrite set_nth_app, <- app_assoc. reflexivity.
Qed.
Lemma swap_at w (a b : list A) x m y :
  iter_swap_e E w (a ++ x :: m ++ y :: b) (length a) (length a + S (length m)) =
  match swap2 w x y with (w', x', y', r) => Ret (w', a ++ x' :: m ++ y' :: b, r) end.
Proof.
  unfold iter_swap_e, swap2.
  assert (E1 : nth_error (a ++ x :: m ++ y :: b) (length a) = Some x).
  { rewrite nth_error_app2, Nat.sub_diag by lia. reflexivity. }
  assert (E2 : nth_error (a ++ x :: m ++ y :: b) (length a + S (length m)) = Some y).
  { rewrite nth_error_app2 by lia. replace (length a + S (length m) - length a) with (S (length m)) by lia. cbn.
    rewrite nth_error_app2, Nat.sub_diag by lia. reflexivity. }
  rewrite E1, E2. destruct (construct E w x) as [[w1 x1] [t|]].
  2:{ rewrite set_nth_app. reflexivity. }
  destruct (assign E w1 x1 y) as [[[w2 x2] y2] [|]].
  { rewrite set_nth_app, set_second. reflexivity. }
  destruct (assign E w2 y2 t) as [[[w3 y3] t3] threw]. rewrite set_nth_app, set_second. reflexivity.
Qed.
(** the pairs from the outside in *)
Inductive reversed : W -> list A -> W -> list A -> ended unit -> Prop :=
| rev_empty w : reversed w [] w [] (Returned tt)
| rev_one w x : reversed w [x] w [x] (Returned tt)
| rev_pair w x m y w1 x1 y1 w2 m2 r : swap2 w x y = (w1, x1, y1, Returned tt) -> reversed w1 m w2 m2 r ->
    reversed w (x :: m ++ [y]) w2 (x1 :: m2 ++ [y1]) r
| rev_throw w x m y w1 x1 y1 : swap2 w x y = (w1, x1, y1, Threw) -> reversed w (x :: m ++ [y]) w1 (x1 :: m ++ [y1]) Threw.
Lemma reverse_loop_at fuel : forall w a m b, length m < fuel -> exists w' m' r,
  reverse_loop_e E fuel (length a) (length a + length m) w (a ++ m ++ b) = Ret (w', a ++ m' ++ b, r) /\ reversed w m w' m' r.
Proof.
  induction fuel as [|fuel IH]; intros w a m b L; [lia|]. cbn [reverse_loop_e].
  destruct m as [|x m].
  { cbn [length]. rewrite Nat.add_0_r, Nat.eqb_refl. exists w, [], (Returned tt). split; [reflexivity|constructor]. }
  replace (length a =? length a + length (x :: m)) with false by (symmetry; apply Nat.eqb_neq; cbn; lia).
  replace (length a + length (x :: m)) with (S (length a + length m)) by (cbn; lia).
  destruct (snoc_case m) as [->|(m' & y & ->)].
  { cbn [length]. rewrite Nat.add_0_r, Nat.eqb_refl. exists w, [x], (Returned tt). split; [reflexivity|constructor]. }
  rewrite app_length. cbn [length].
  replace (length a =? length a + (length m' + 1)) with false by (symmetry; apply Nat.eqb_neq; lia).
  replace (a ++ (x :: m' ++ [y]) ++ b) with (a ++ x :: m' ++ y :: b) by (cbn; rewrite <- app_assoc; reflexivity).
  replace (length a + (length m' + 1)) with (length a + S (length m')) by lia.
  rewrite swap_at. destruct (swap2 w x y) as [[[w1 x1] y1] r] eqn:S2. cbn [obind].
  assert (L' : length m' < fuel) by (cbn in L; rewrite app_length in L; cbn in L; lia).
  destruct r as [[]|].
  - destruct (IH w1 (a ++ [x1]) m' (y1 :: b) L') as (w2 & m2 & r & H & R). rewrite app_length in H. cbn [length] in H.
    replace (length a + S (length m')) with (length a + 1 + length m') by lia.
    rewrite <- !app_assoc in H. cbn [app] in H. rewrite H.
    exists w2, (x1 :: m2 ++ [y1]), r. split; [|eapply rev_pair; eauto]. cbn. rewrite <- app_assoc. reflexivity.
  - exists w1, (x1 :: m' ++ [y1]), Threw. split; [cbn; rewrite <- app_assoc; reflexivity|apply rev_throw; exact S2].
Qed.
Lemma reverse_run w l : exists w' l' r, reverse_e E w l = Ret (w', l', r) /\ reversed w l w' l' r.
Proof.
  unfold reverse_e. destruct (reverse_loop_at (S (length l)) w [] l [] ltac:(lia)) as (w' & l' & r & H & R).
  cbn [length app] in H. rewrite !app_nil_r in H. exists w', l', r. auto.
Qed.
Lemma reverse_ra_loop_at fuel : forall w a m b, length m <= fuel -> m <> [] -> exists w' m' r,
  reverse_ra_loop_e E fuel (length a) (length a + length m - 1) w (a ++ m ++ b) = Ret (w', a ++ m' ++ b, r) /\ reversed w m w' m' r.
Proof.
  induction fuel as [|fuel IH]; intros w a m b L N; [destruct m; [congruence|cbn in L; lia]|]. cbn [reverse_ra_loop_e].
  destruct m as [|x m]; [congruence|]. destruct (snoc_case m) as [->|(m' & y & ->)].
  { cbn [length]. replace (length a <? length a + 1 - 1) with false by (symmetry; apply Nat.ltb_ge; lia).
    exists w, [x], (Returned tt). split; [reflexivity|constructor]. }
  cbn [length] in *. rewrite app_length in *. cbn [length] in *.
  replace (length a <? length a + S (length m' + 1) - 1) with true by (symmetry; apply Nat.ltb_lt; lia).
  replace (a ++ (x :: m' ++ [y]) ++ b) with (a ++ x :: m' ++ y :: b) by (cbn; rewrite <- app_assoc; reflexivity).
  replace (length a + S (length m' + 1) - 1) with (length a + S (length m')) by lia.
  rewrite swap_at. destruct (swap2 w x y) as [[[w1 x1] y1] r] eqn:S2. cbn [obind].
  destruct r as [[]|].
  2:{ exists w1, (x1 :: m' ++ [y1]), Threw. split; [cbn; rewrite <- app_assoc; reflexivity|apply rev_throw; exact S2]. }
  destruct m' as [|z m'].
  - cbn [length app]. destruct fuel; [cbn in L; lia|]. cbn [reverse_ra_loop_e].
    replace (length a + 1 <? length a + 1 - 1) with false by (symmetry; apply Nat.ltb_ge; lia).
    exists w1, [x1; y1], (Returned tt). split; [reflexivity|]. apply (rev_pair w x [] y w1 x1 y1 w1 []); [exact S2|constructor].
  - destruct (IH w1 (a ++ [x1]) (z :: m') (y1 :: b)) as (w2 & m2 & r & H & R); [cbn [length] in *; lia|discriminate|].
    rewrite app_length in H. cbn [length] in *.
    replace (length a + S (S (length m')) - 1) with (length a + 1 + S (length m') - 1) by lia.
    rewrite <- !app_assoc in H. cbn [app] in H. cbn [app]. rewrite H.
    exists w2, (x1 :: m2 ++ [y1]), r. split; [cbn; rewrite <- app_assoc; reflexivity|]. apply (rev_pair w x (z :: m') y w1 x1 y1 w2 m2 r S2 R).
Qed.
Lemma reverse_ra_run w l : exists w' l' r, reverse_ra_e E w l = Ret (w', l', r) /\ reversed w l w' l' r.
Proof.
  unfold reverse_ra_e. destruct l as [|x l]; [exists w, [], (Returned tt); split; [reflexivity|constructor]|].
  destruct (reverse_ra_loop_at (length (x :: l)) w [] (x :: l) [] ltac:(lia) ltac:(discriminate)) as (w' & l' & r & H & R).
  cbn [app length] in *. rewrite !app_nil_r in H. exists w', l', r. auto.
Qed.
Lemma ends_inj (x : A) m y x1 m1 y1 : x :: m ++ [y] = x1 :: m1 ++ [y1] -> x = x1 /\ m = m1 /\ y = y1.
Proof. intros H. injection H as -> H. apply app_inj_tail in H as [-> ->]. auto. Qed.
Lemma reversed_fun w l w1 l1 r1 : reversed w l w1 l1 r1 -> forall w2 l2 r2, reversed w l w2 l2 r2 -> w1 = w2 /\ l1 = l2 /\ r1 = r2.
Proof.
  induction 1 as [w|w x|w x m y w1 x1 y1 w2 m2 r S R IH|w x m y w1 x1 y1 S]; intros w' l' r' R'.
  - inversion R'; auto.
  - inversion R' as [| |? ? m' ? ? ? ? ? ? ? ? ? E1|? ? m' ? ? ? ? ? E1]; subst; auto; destruct m'; discriminate.
  - inversion R' as [| ? ? E1|? x' m' y' ? ? ? ? ? ? S' R1 E1|? x' m' y' ? ? ? S' E1]; subst.
    + destruct m; discriminate.
    + apply app_inj_tail in H0 as [-> ->]. rewrite S in S'. injection S' as <- <- <-.
      destruct (IH _ _ _ R1) as (-> & -> & ->). auto.
    + apply app_inj_tail in H0 as [-> ->]. rewrite S in S'. discriminate.
  - inversion R' as [| ? ? E1|? x' m' y' ? ? ? ? ? ? S' R1 E1|? x' m' y' ? ? ? S' E1]; subst.
    + destruct m; discriminate.
    + apply app_inj_tail in H0 as [-> ->]. rewrite S in S'. discriminate.
    + apply app_inj_tail in H0 as [-> ->]. rewrite S in S'. injection S' as <- <- <-. auto.
Qed.
(** both versions do the same *)
Lemma reverse_same w l : reverse_ra_e E w l = reverse_e E w l.
Proof.
  destruct (reverse_run w l) as (w1 & l1 & r1 & -> & R1). destruct (reverse_ra_run w l) as (w2 & l2 & r2 & -> & R2).
  destruct (reversed_fun _ _ _ _ _ R1 _ _ _ R2) as (-> & -> & ->). reflexivity.
Qed.
Lemma swap2_returned w x y w' x' y' : proper E -> swap2 w x y = (w', x', y', Returned tt) -> x' = y /\ y' = x.
Proof.
  intros [PC PA] H. unfold swap2 in H. destruct (construct E w x) as [[w1 x1] [t|]] eqn:C; [|discriminate].
  destruct (assign E w1 x1 y) as [[[w2 x2] y2] [|]] eqn:A1; [discriminate|].
  destruct (assign E w2 y2 t) as [[[w3 y3] t3] [|]] eqn:A2; [discriminate|]. injection H as <- <- <-.
  apply PC in C as ->. apply PA in A1. apply PA in A2. auto.
Qed.
Lemma swap2_threw w x y w' x' y' : proper E -> strong E -> swap2 w x y = (w', x', y', Threw) ->
  (y' = y \/ x' = y) /\ (copying E -> y' = y /\ (x' = x \/ x' = y)).
Proof.
  intros [PC PA] [SC SA] H. unfold swap2 in H. destruct (construct E w x) as [[w1 x1] [t|]] eqn:C.
  2:{ injection H as <- <- <-. apply SC in C as ->. auto. }
  destruct (assign E w1 x1 y) as [[[w2 x2] y2] [|]] eqn:A1.
  { injection H as <- <- <-. destruct (SA _ _ _ _ _ _ A1) as [-> ->]. split; [auto|]. intros [CC CA]. apply CC in C as ->. auto. }
  destruct (assign E w2 y2 t) as [[[w3 y3] t3] [|]] eqn:A2; [|discriminate]. injection H as <- <- <-.
  pose proof (PA _ _ _ _ _ _ A1) as ->. destruct (SA _ _ _ _ _ _ A2) as [-> _]. split; [auto|].
  intros [CC CA]. apply CA in A1 as ->. auto.
Qed.
(** what happened to the list *)
Lemma reversed_what w l w' l' r : proper E -> reversed w l w' l' r ->
  (r = Returned tt /\ l' = rev l) \/
  (r = Threw /\ exists a x m y b x' y', l = a ++ x :: m ++ y :: b /\ length a = length b /\ l' = rev b ++ x' :: m ++ y' :: rev a /\
     (strong E -> (y' = y \/ x' = y) /\ (copying E -> y' = y /\ (x' = x \/ x' = y)))).
Proof.
  intros P. induction 1 as [w|w x|w x m y w1 x1 y1 w2 m2 r S R IH|w x m y w1 x1 y1 S]; [left; auto|left; auto| |].
  - destruct (swap2_returned _ _ _ _ _ _ P S) as [-> ->]. destruct IH as [(-> & ->)|(-> & a & x2 & m' & y2 & b & x' & y' & -> & LE & -> & K)].
    + left. split; [reflexivity|]. cbn. rewrite rev_app_distr. reflexivity.
    + right. split; [reflexivity|]. exists (x :: a), x2, m', y2, (b ++ [y]), x', y'. repeat split; auto.
      * cbn. rewrite <- !app_assoc. cbn. rewrite <- app_assoc. reflexivity.
      * rewrite app_length. cbn. lia.
      * rewrite rev_app_distr. cbn. rewrite <- !app_assoc. cbn. rewrite <- app_assoc. reflexivity.
      * apply K; auto.
      * intros. apply K; auto.
      * intros. apply K; auto.
  - right. split; [reflexivity|]. exists [], x, m, y, [], x1, y1. repeat split; auto.
    + eapply swap2_threw; eauto.
    + intros. eapply swap2_threw; eauto.
    + intros. eapply swap2_threw; eauto.
Qed.
Lemma reverse_what w l w' l' r : proper E -> reverse_e E w l = Ret (w', l', r) ->
  (r = Returned tt /\ l' = rev l) \/
  (r = Threw /\ exists a x m y b x' y', l = a ++ x :: m ++ y :: b /\ length a = length b /\ l' = rev b ++ x' :: m ++ y' :: rev a /\
     (strong E -> (y' = y \/ x' = y) /\ (copying E -> y' = y /\ (x' = x \/ x' = y)))).
Proof.
  intros P H. destruct (reverse_run w l) as (w1 & l1 & r1 & H1 & R). rewrite H1 in H. injection H as -> -> ->.
  eapply reversed_what; eauto.
Qed.
Lemma reverse_total w l : exists w' l' r, reverse_e E w l = Ret (w', l', r) /\ reverse_ra_e E w l = Ret (w', l', r).
Proof. destruct (reverse_run w l) as (w' & l' & r & H & _). exists w', l', r. rewrite reverse_same. auto. Qed.
End Reverse.

Section Filter.
Context {W A : Type} (E : elements W A) (pred : A -> bool).
Lemma first_dropped_at (l : list A) : (first_dropped pred l = length l /\ forallb pred l = true) \/
  (exists k d post, l = k ++ d :: post /\ forallb pred k = true /\ pred d = false /\ first_dropped pred l = length k).
Proof.
  induction l as [|x l IH]; [left; auto|]. cbn. destruct (pred x) eqn:P; cbn [negb andb].
  - destruct IH as [[-> ->]|(k & d & post & -> & K & D & ->)]; [left; auto|].
    right. exists (x :: k), d, post. cbn. rewrite P, K. auto.
  - right. exists [], x, l. auto.
Qed.
Lemma skipn_next n (l : list A) d m : skipn n l = d :: m -> skipn (n + 1) l = m.
Proof. revert l. induction n as [|n IH]; intros [|x l] H; cbn in *; try discriminate; [injection H; auto|auto]. Qed.
Lemma filter_all (l : list A) : forallb pred l = true -> filter pred l = l.
Proof. induction l as [|x l IH]; cbn; [auto|]. intros H. apply andb_true_iff in H as [-> H]. rewrite IH; auto. Qed.
(** [k] are the elements kept of [pre], [d :: mid] what is between them and the elements not yet looked at *)
Lemma shift_at : proper E -> forall post pre k d mid w w' l' r, k = filter pred pre -> length k + S (length mid) = length pre ->
  shift_e E pred (length post) (length pre) (length k) w (k ++ d :: mid ++ post) = Ret (w', l', r) ->
  (r = Returned (length (filter pred (pre ++ post))) /\ length l' = length (pre ++ post) /\
   firstn (length (filter pred (pre ++ post))) l' = filter pred (pre ++ post)) \/
  (r = Threw /\ exists pre2 x post2 t mid2 x', pre ++ post = pre2 ++ x :: post2 /\ pred x = true /\ length pre <= length pre2 /\
     l' = filter pred pre2 ++ t :: mid2 ++ x' :: post2 /\ length l' = length (pre ++ post) /\
     (strong E -> x' = x /\ (copying E -> d :: mid = skipn (length k) pre -> t :: mid2 = skipn (length (filter pred pre2)) pre2))).
Proof.
  intros P. induction post as [|x post IH]; intros pre k d mid w w' l' r K L H.
  { cbn in H. injection H as <- <- <-. left. rewrite !app_nil_r, <- K. split; [reflexivity|]. split.
    - rewrite app_length. cbn. lia.
    - rewrite firstn_app, Nat.sub_diag, firstn_all. cbn. apply app_nil_r. }
  cbn [length shift_e] in H.
  assert (N1 : nth_error (k ++ d :: mid ++ x :: post) (length pre) = Some x).
  { rewrite nth_error_app2 by lia. replace (length pre - length k) with (S (length mid)) by lia. cbn.
    rewrite nth_error_app2, Nat.sub_diag by lia. reflexivity. }
  assert (N2 : nth_error (k ++ d :: mid ++ x :: post) (length k) = Some d).
  { rewrite nth_error_app2, Nat.sub_diag by lia. reflexivity. }
  rewrite N1, N2 in H. rewrite negb_involutive in H. destruct (pred x) eqn:Px.
  - destruct (assign E w d x) as [[[w1 d1] x1] threw] eqn:AS.
    assert (S2 : set_nth (set_nth (k ++ d :: mid ++ x :: post) (length k) d1) (length pre) x1 = k ++ d1 :: mid ++ x1 :: post).
    { rewrite set_nth_app. replace (length pre) with (length k + S (length mid)) by lia. apply set_second. }
    cbv zeta in H. rewrite S2 in H. destruct threw.
    + injection H as <- <- <-. right. split; [reflexivity|]. exists pre, x, post, d1, mid, x1. rewrite <- K.
      repeat split; auto.
      * rewrite !app_length. cbn. rewrite app_length. cbn. lia.
      * destruct H as [_ SA]. apply SA in AS. tauto.
      * destruct H as [_ SA]. apply SA in AS as [-> ->]. auto.
    + pose proof (proj2 P _ _ _ _ _ _ AS) as ->.
      assert (Q : exists d2 mid2, mid ++ [x1] = d2 :: mid2) by (destruct mid; cbn; eauto). destruct Q as (d2 & mid2 & Q).
      replace (k ++ x :: mid ++ x1 :: post) with ((k ++ [x]) ++ d2 :: mid2 ++ post) in H.
      2:{ rewrite <- app_assoc. cbn. f_equal. f_equal. change (d2 :: mid2 ++ post) with ((d2 :: mid2) ++ post). rewrite <- Q, <- app_assoc. reflexivity. }
      replace (length pre + 1) with (length (pre ++ [x])) in H by (rewrite app_length; reflexivity).
      replace (length k + 1) with (length (k ++ [x])) in H by (rewrite app_length; reflexivity).
      apply IH in H.
      2:{ rewrite filter_app. cbn. rewrite Px, K. reflexivity. }
      2:{ apply (f_equal (@length A)) in Q. rewrite app_length in *. cbn in *. rewrite app_length. cbn. lia. }
      rewrite <- app_assoc in H. cbn [app] in H. destruct H as [H|(-> & pre2 & y & post2 & t & mid3 & y' & E1 & Py & LP & E2 & LL & S)]; [left; exact H|].
      right. split; [reflexivity|]. exists pre2, y, post2, t, mid3, y'. rewrite app_length in LP. cbn in LP. repeat split; auto; try lia; [apply S; auto|].
      intros C ED. apply (proj2 (S H)); auto. rewrite <- Q. destruct C as [_ CA]. apply CA in AS as ->.
      rewrite app_length. cbn [length]. rewrite skipn_app. replace (length k + 1 - length pre) with 0 by lia. cbn [skipn].
      f_equal. symmetry. apply skipn_next with d. auto.
  - replace (length pre + 1) with (length (pre ++ [x])) in H by (rewrite app_length; reflexivity).
    replace (k ++ d :: mid ++ x :: post) with (k ++ d :: (mid ++ [x]) ++ post) in H by (rewrite <- app_assoc; reflexivity).
    apply IH in H.
    2:{ rewrite filter_app. cbn. rewrite Px, app_nil_r. exact K. }
    2:{ rewrite !app_length. cbn. lia. }
    rewrite <- app_assoc in H. cbn [app] in H. destruct H as [H|(-> & pre2 & y & post2 & t & mid3 & y' & E1 & Py & LP & E2 & LL & S)]; [left; exact H|].
    right. split; [reflexivity|]. exists pre2, y, post2, t, mid3, y'. rewrite app_length in LP. cbn in LP. repeat split; auto; try lia; [apply S; auto|].
    intros C ED. apply (proj2 (S H)); auto. rewrite skipn_app. replace (length k - length pre) with 0 by lia. cbn. rewrite <- ED. reflexivity.
Qed.
Lemma shift_total : forall n i result w l, i + n <= length l -> result < i ->
  exists w' l' r, shift_e E pred n i result w l = Ret (w', l', r).
Proof.
  induction n as [|n IH]; intros i result w l L R; cbn [shift_e]; [eauto|].
  destruct (nth_error l i) as [x|] eqn:N1; [|apply nth_error_None in N1; lia].
  destruct (nth_error l result) as [t|] eqn:N2; [|apply nth_error_None in N2; lia].
  destruct (negb (negb (pred x))).
  - destruct (assign E w t x) as [[[w1 t1] x1] [|]]; [eauto|]. apply IH; [rewrite !set_nth_length; lia|lia].
  - apply IH; lia.
Qed.
Lemma filter_total w l : exists w' l' r, filter_e E pred w l = Ret (w', l', r).
Proof.
  unfold filter_e. destruct (first_dropped_at l) as [[-> _]|(k & d & post & -> & _ & _ & ->)].
  - rewrite Nat.eqb_refl. eauto.
  - rewrite app_length. cbn [length]. replace (length k =? length k + S (length post)) with false by (symmetry; apply Nat.eqb_neq; lia).
    replace (length k + S (length post) - length k - 1) with (length post) by lia.
    destruct (shift_total (length post) (length k + 1) (length k) w (k ++ d :: post)) as (w' & l' & r & ->);
      [rewrite app_length; cbn; lia|lia|]. cbn. destruct r; eauto.
Qed.
Lemma filter_what w l w' l' r : proper E -> filter_e E pred w l = Ret (w', l', r) ->
  (r = Returned tt /\ l' = filter pred l) \/
  (r = Threw /\ exists pre x post t mid x', l = pre ++ x :: post /\ pred x = true /\ l' = filter pred pre ++ t :: mid ++ x' :: post /\
     length l' = length l /\ (strong E -> x' = x /\ (copying E -> t :: mid = skipn (length (filter pred pre)) pre))).
Proof.
  intros P. unfold filter_e. destruct (first_dropped_at l) as [[-> F]|(k & d & post & -> & K & D & ->)].
  { rewrite Nat.eqb_refl. intros H. injection H as <- <- <-. left. rewrite filter_all; auto. }
  rewrite app_length. cbn [length]. replace (length k =? length k + S (length post)) with false by (symmetry; apply Nat.eqb_neq; lia).
  replace (length k + S (length post) - length k - 1) with (length post) by lia. intros H.
  destruct (shift_e E pred (length post) (length k + 1) (length k) w (k ++ d :: post)) as [[[w1 l1] r1]| | |] eqn:S; try discriminate.
  replace (length k + 1) with (length (k ++ [d])) in S by (rewrite app_length; reflexivity).
  assert (FK : filter pred (k ++ [d]) = k) by (rewrite filter_app, (filter_all k K); cbn; rewrite D, app_nil_r; reflexivity).
  apply (shift_at P post (k ++ [d]) k d []) in S; [|congruence|rewrite app_length; cbn; lia].
  rewrite <- app_assoc in S. cbn [app] in S. cbn [obind] in H.
  destruct S as [(-> & LL & FF)|(-> & pre & x & post2 & t & mid & x' & E1 & Px & _ & E2 & LL & S)].
  - injection H as <- <- <-. left. auto.
  - injection H as <- <- <-. right. split; [reflexivity|]. exists pre, x, post2, t, mid, x'. repeat split; auto.
    + rewrite LL, app_length. reflexivity.
    + apply S; auto.
    + intros C. apply (proj2 (S H)); auto. rewrite skipn_app, skipn_all, Nat.sub_diag. reflexivity.
Qed.
End Filter.

Section Strings.
Context {W A : Type} (eqb : A -> A -> bool) (D : forall x y, eqb x y = true <-> x = y) (fails : W -> nat -> W * bool).
Lemma cut_replace (pre u p v r : list A) : str_replace (pre ++ u ++ p ++ v) (length pre + length u) (length p) r = Ret ((pre ++ u ++ r) ++ v).
Proof.
  unfold str_replace. rewrite (proj2 (Nat.leb_le _ _)) by (rewrite !app_length; lia).
  assert (E1 : firstn (length pre + length u) (pre ++ u ++ p ++ v) = pre ++ u).
  { rewrite app_assoc, <- app_length. apply firstn_pre. }
  assert (E2 : skipn (length pre + length u + length p) (pre ++ u ++ p ++ v) = v).
  { rewrite (app_assoc u p), app_assoc.
    replace (length pre + length u + length p) with (length (pre ++ u ++ p)) by (rewrite !app_length; lia). apply skipn_pre. }
  rewrite E1, E2, <- !app_assoc. reflexivity.
Qed.
Lemma replace_loop_what f r : f <> [] -> forall n rest pre fuel w, length rest <= n -> length rest < fuel ->
  exists w' s' e, replace_loop_f eqb fails f r fuel w (pre ++ rest) (length pre) = Ret (w', pre ++ s', e) /\
    ((e = Returned tt /\ exists ps, pieces f rest ps /\ s' = interleaved r ps) \/
     (e = Threw /\ exists us v, cuts f rest us v /\ occurs f v /\ s' = concat (map (fun u => u ++ r) us) ++ v)) /\
    (length r <= length f -> (forall w n, n <= length (pre ++ rest) -> snd (fails w n) = false) -> e = Returned tt).
Proof.
  intros Hf. induction n as [|n IH]; intros rest pre fuel w Hn HF; (destruct fuel as [|fuel]; [lia|]); cbn [replace_loop_f];
    rewrite (find_pre eqb); destruct (search eqb f rest) as [i|] eqn:Es; cbn [option_map].
  - exfalso. apply (search_some eqb D) in Es. destruct Es as (u & v & [E _] & _).
    destruct rest; [|simpl in Hn; lia]. destruct u; [|discriminate]. destruct f; [congruence|discriminate].
  - exists w, rest, (Returned tt). repeat split; auto. left. split; [reflexivity|]. exists [rest]. split; [constructor; apply (search_none eqb D); exact Es|reflexivity].
  - destruct (search_some eqb D _ _ _ Es) as (u & v & C & L). pose proof C as [E _]. subst i. rewrite E.
    unfold str_replace_f. rewrite cut_replace. cbn [obind].
    destruct (fails w (length ((pre ++ u ++ r) ++ v))) as [w1 [|]] eqn:Fa; cbn [obind].
    + exists w1, rest, Threw. rewrite E. split; [reflexivity|]. split.
      * right. split; [reflexivity|]. exists [], (u ++ f ++ v). split; [constructor|]. split; [exists u, v; reflexivity|reflexivity].
      * intros LR NF. specialize (NF w (length ((pre ++ u ++ r) ++ v))). rewrite Fa in NF. cbn in NF.
        assert (true = false) by (apply NF; rewrite !app_length; lia). discriminate.
    + replace (match f with [] => S (length pre + length u + length r) | _ => length pre + length u + length r end)
        with (length (pre ++ u ++ r)) by (rewrite !app_length; destruct f; [congruence|lia]).
      assert (LV : length v < length rest) by (rewrite E, !app_length; destruct f; [congruence|cbn; lia]).
      destruct (IH v (pre ++ u ++ r) fuel w1) as (w' & s' & e & H & K & NF); [lia|lia|].
      exists w', (u ++ r ++ s'), e. split; [rewrite H, <- !app_assoc; reflexivity|]. split.
      * destruct K as [(-> & ps & P & ->)|(-> & us & v' & P & O & ->)]; [left|right]; split; auto.
        -- exists (u :: ps). split; [econstructor; [rewrite <- E|]; eauto|]. destruct ps; [inversion P|reflexivity].
        -- exists (u :: us), v'. split; [econstructor; [rewrite <- E|]; eauto|]. split; [exact O|]. cbn. rewrite <- !app_assoc. reflexivity.
      * intros LR HH. apply NF; [exact LR|]. intros w0 n0 Hn0. apply HH. rewrite !app_length in *. lia.
  - exists w, rest, (Returned tt). repeat split; auto. left. split; [reflexivity|]. exists [rest]. split; [constructor; apply (search_none eqb D); exact Es|reflexivity].
Qed.
Lemma replace_what w s f r : f <> [] -> exists w' s' e, replace_f eqb fails w s f r = Ret (w', s', e) /\
  ((e = Returned tt /\ exists ps, pieces f s ps /\ s' = interleaved r ps) \/
   (e = Threw /\ exists us v, cuts f s us v /\ occurs f v /\ s' = concat (map (fun u => u ++ r) us) ++ v)).
Proof.
  intros Hf. destruct (replace_loop_what f r Hf (length s) s [] (length s + 2) w) as (w' & s' & e & H & K & _); [lia|lia|].
  exists w', s', e. split; [exact H|exact K].
Qed.
Lemma replace_short w s f r : f <> [] -> length r <= length f -> (forall w n, n <= length s -> snd (fails w n) = false) ->
  exists w' s', replace_f eqb fails w s f r = Ret (w', s', Returned tt).
Proof.
  intros Hf L N. destruct (replace_loop_what f r Hf (length s) s [] (length s + 2) w) as (w' & s' & e & H & _ & K); [lia|lia|].
  exists w', s'. rewrite <- (K L N). exact H.
Qed.
Lemma replace_empty_loop_what r : forall rest pre fuel w, length rest + 1 < fuel ->
  exists w' s' e, replace_loop_f eqb fails [] r fuel w (pre ++ rest) (length pre) = Ret (w', pre ++ s', e) /\
    ((e = Returned tt /\ s' = r ++ flat_map (fun c => c :: r) rest) \/
     (e = Threw /\ exists a b, rest = a ++ b /\ s' = flat_map (fun c => r ++ [c]) a ++ b)).
Proof.
  induction rest as [|c rest IH]; intros pre fuel w Hf; (destruct fuel as [|fuel]; [lia|]);
    cbn [replace_loop_f]; rewrite find_pre; cbn [search prefixb option_map]; unfold str_replace_f.
  - rewrite (cut_replace pre [] [] [] r : str_replace (pre ++ []) (length pre + 0) (length (@nil A)) r = _). cbn [obind].
    destruct (fails w (length ((pre ++ [] ++ r) ++ []))) as [w1 [|]]; cbn [obind].
    + exists w1, [], Threw. split; [reflexivity|]. right. split; [reflexivity|]. exists [], []. auto.
    + destruct fuel as [|fuel]; [simpl in Hf; lia|]. cbn [replace_loop_f]. unfold str_find.
      rewrite (proj2 (Nat.leb_gt _ _)).
      2:{ rewrite !app_nil_r, !app_length. simpl. lia. }
      exists w1, r, (Returned tt). split; [rewrite app_nil_r; reflexivity|]. left. cbn. rewrite app_nil_r. auto.
  - rewrite (cut_replace pre [] [] (c :: rest) r : str_replace (pre ++ c :: rest) (length pre + 0) (length (@nil A)) r = _). cbn [obind].
    destruct (fails w (length ((pre ++ [] ++ r) ++ c :: rest))) as [w1 [|]]; cbn [obind].
    + exists w1, (c :: rest), Threw. split; [reflexivity|]. right. split; [reflexivity|]. exists [], (c :: rest). auto.
    + cbn [app].
      replace ((pre ++ r) ++ c :: rest) with ((pre ++ r ++ [c]) ++ rest) by (rewrite <- !app_assoc; reflexivity).
      replace (S (length pre + 0 + length r)) with (length (pre ++ r ++ [c])) by (rewrite !app_length; simpl; lia).
      destruct (IH (pre ++ r ++ [c]) fuel w1) as (w' & s' & e & H & K); [simpl in Hf; lia|].
      exists w', (r ++ [c] ++ s'), e. split; [rewrite H, <- !app_assoc; reflexivity|].
      destruct K as [[-> ->]|(-> & a & b & -> & ->)]; [left|right]; split; auto.
      exists (c :: a), b. split; [reflexivity|]. cbn. rewrite <- !app_assoc. reflexivity.
Qed.
Lemma replace_empty_what w s r : exists w' s' e, replace_f eqb fails w s [] r = Ret (w', s', e) /\
  ((e = Returned tt /\ s' = r ++ flat_map (fun c => c :: r) s) \/
   (e = Threw /\ exists a b, s = a ++ b /\ s' = flat_map (fun c => r ++ [c]) a ++ b)).
Proof. apply (replace_empty_loop_what r s []). lia. Qed.

(** replace_any_of *)
Definition subst1 (p : A -> bool) (r : list A) (c : A) : list A := if p c then r else [c].
Lemma subst1_none p r (u : list A) : Forall (fun c => p c = false) u -> flat_map (subst1 p r) u = u.
Proof. induction 1 as [|c u H F IH]; [reflexivity|]. cbn. unfold subst1 at 1. rewrite H, IH. reflexivity. Qed.
Lemma any_of_loop_what set r : forall n rest pre fuel w, length rest <= n -> length rest < fuel ->
  exists w' s' e, replace_any_of_loop_f eqb fails set r fuel w (pre ++ rest) (length pre) = Ret (w', pre ++ s', e) /\
    ((e = Returned tt /\ s' = flat_map (subst1 (mem eqb set) r) rest) \/
     (e = Threw /\ exists a c b, rest = a ++ c :: b /\ mem eqb set c = true /\ s' = flat_map (subst1 (mem eqb set) r) a ++ c :: b)).
Proof.
  induction n as [|n IH]; intros rest pre fuel w Hn Hf; (destruct fuel as [|fuel]; [lia|]);
    cbn [replace_any_of_loop_f]; unfold find_first_of; rewrite find_if_pre;
    destruct (index_if (mem eqb set) rest) as [i|] eqn:Ei; cbn [option_map].
  - destruct rest; [discriminate|simpl in Hn; lia].
  - apply index_if_none in Ei. exists w, rest, (Returned tt). rewrite subst1_none; auto.
  - apply index_if_some in Ei. destruct Ei as (u & x & v & -> & L & Px & F). subst i. unfold str_replace_f.
    rewrite (cut_replace pre u [x] v r : str_replace (pre ++ u ++ x :: v) (length pre + length u) 1 r = _). cbn [obind].
    destruct (fails w (length ((pre ++ u ++ r) ++ v))) as [w1 [|]]; cbn [obind].
    + exists w1, (u ++ x :: v), Threw. split; [reflexivity|]. right. split; [reflexivity|]. exists u, x, v.
      rewrite subst1_none; auto.
    + replace (length pre + length u + length r) with (length (pre ++ u ++ r)) by (rewrite !app_length; lia).
      rewrite app_length in Hn, Hf. simpl in Hn, Hf.
      destruct (IH v (pre ++ u ++ r) fuel w1) as (w' & s' & e & H & K); [lia|lia|].
      exists w', (u ++ r ++ s'), e. split; [rewrite H, <- !app_assoc; reflexivity|].
      assert (X : forall v, flat_map (subst1 (mem eqb set) r) (u ++ x :: v) = u ++ r ++ flat_map (subst1 (mem eqb set) r) v).
      { intros v0. rewrite flat_map_app, subst1_none by exact F. cbn. unfold subst1 at 1. rewrite Px. reflexivity. }
      destruct K as [[-> ->]|(-> & a & c & b & -> & Pc & ->)]; [left|right]; split; auto.
      exists (u ++ x :: a), c, b. rewrite X. split; [rewrite <- app_assoc; reflexivity|]. split; [exact Pc|]. rewrite <- !app_assoc. reflexivity.
  - apply index_if_none in Ei. exists w, rest, (Returned tt). rewrite subst1_none; auto.
Qed.
Lemma any_of_what w s set r (sepc : A -> bool) : (forall x, sepc x = true <-> In x set) ->
  exists w' s' e, replace_any_of_f eqb fails w s set r = Ret (w', s', e) /\
  ((e = Returned tt /\ s' = flat_map (fun c => if sepc c then r else [c]) s) \/
   (e = Threw /\ exists a c b, s = a ++ c :: b /\ sepc c = true /\ s' = flat_map (fun c => if sepc c then r else [c]) a ++ c :: b)).
Proof.
  intros H. assert (X : forall c, mem eqb set c = sepc c) by (intros c; apply eq_true_iff_eq; rewrite (mem_ok eqb D), H; reflexivity).
  assert (Y : forall l, flat_map (subst1 (mem eqb set) r) l = flat_map (fun c => if sepc c then r else [c]) l).
  { intros l. apply flat_map_ext. intros c. unfold subst1. rewrite X. reflexivity. }
  destruct (any_of_loop_what set r (length s) s [] (S (length s)) w) as (w' & s' & e & R & K); [lia|lia|].
  exists w', s', e. split; [exact R|]. destruct K as [[-> ->]|(-> & a & c & b & E & Pc & ->)]; [left|right]; split; auto.
  exists a, c, b. rewrite <- X, Y. auto.
Qed.
(** calling replace_any_of again after it threw *)
Lemma any_of_again w s set r w' s' : (forall x, In x r -> ~ In x set) ->
  replace_any_of_f eqb fails w s set r = Ret (w', s', Threw) -> replace_any_of eqb s' set r = replace_any_of eqb s set r.
Proof.
  intros R H. destruct (any_of_loop_what set r (length s) s [] (S (length s)) w) as (w1 & s1 & e & H1 & K); [lia|lia|].
  unfold replace_any_of_f in H. cbn [app length] in H1. rewrite H1 in H. injection H as -> -> ->.
  destruct K as [[K _]|(_ & a & c & b & -> & Pc & ->)]; [discriminate|].
  rewrite !(replace_any_of_all eqb D _ set r (mem eqb set)) by (intros x; apply (mem_ok eqb D)). f_equal.
  rewrite !flat_map_app. f_equal. clear H1. induction a as [|x a IH]; [reflexivity|]. cbn. rewrite flat_map_app, IH. f_equal.
  unfold subst1. destruct (mem eqb set x) eqn:M; [|cbn; rewrite M; reflexivity].
  change (flat_map (subst1 (mem eqb set) r) r = r). apply subst1_none. apply Forall_forall. intros y Y.
  destruct (mem eqb set y) eqn:M2; [|reflexivity]. apply (mem_ok eqb D) in M2. exfalso. eapply R; eauto.
Qed.
End Strings.
