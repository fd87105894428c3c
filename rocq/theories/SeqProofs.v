From Coq Require Import List Bool Arith ZArith Lia.
From Verif Require Import Base StringModel StringSpec StringProofs SeqModel SeqSpec.
Import ListNotations.
Open Scope nat_scope.

Section Search.
Context {A B : Type}.

Lemma match_front_ok (p : A -> B -> bool) l r : match_front p l r = true <-> occurs_at p l r 0.
Proof.
  revert l. induction r as [|y r IH]; intros l; simpl.
  - split; [|reflexivity]. intros _. split; [simpl; lia|]. intros [|k] x z _ E; discriminate.
  - destruct l as [|x l]; [split; [discriminate|intros [L _]; simpl in L; lia]|].
    rewrite andb_true_iff, IH. split.
    + intros [P [L H]]. split; [simpl in *; lia|]. intros [|k] a b Ea Eb; simpl in *.
      * congruence.
      * eapply H; eauto.
    + intros [L H]. split; [apply (H 0 x y); reflexivity|]. split; [simpl in *; lia|].
      intros k a b Ea Eb. apply (H (S k) a b); assumption.
Qed.

Lemma occurs_at_cons (p : A -> B -> bool) x l r i : occurs_at p (x :: l) r (S i) <-> occurs_at p l r i.
Proof. unfold occurs_at. simpl. split; intros [L H]; (split; [lia|exact H]). Qed.

Lemma occurs_at_end (p : A -> B -> bool) r j : occurs_at p [] r j -> r = [] /\ j = 0.
Proof. intros [L _]. simpl in L. destruct r; [split; [reflexivity|simpl in L; lia]|simpl in L; lia]. Qed.

Theorem find_sequence_ok (p : A -> B -> bool) l r :
  let i := find_sequence p l r in
  (occurs_at p l r i /\ forall j, j < i -> ~ occurs_at p l r j) \/
  (i = length l /\ forall j, ~ occurs_at p l r j).
Proof.
  unfold find_sequence. cbv zeta. induction l as [|x l IH]; simpl.
  - destruct (match_front p [] r) eqn:M.
    + left. apply match_front_ok in M. split; [exact M|lia].
    + right. split; [reflexivity|]. intros j O. destruct (occurs_at_end _ _ _ O) as [-> _]. discriminate.
  - destruct (match_front p (x :: l) r) eqn:M.
    + left. apply match_front_ok in M. split; [exact M|lia].
    + assert (N0 : ~ occurs_at p (x :: l) r 0) by (rewrite <- match_front_ok, M; discriminate).
      destruct IH as [[O H]|[E H]].
      * left. split; [apply occurs_at_cons; exact O|]. intros [|j] L; [exact N0|].
        rewrite occurs_at_cons. apply H. lia.
      * right. split; [lia|]. intros [|j]; [exact N0|]. rewrite occurs_at_cons. apply H.
Qed.

Lemma find_end_loop_ok (p : A -> B -> bool) r : r <> [] -> forall l i best,
  let e := find_end_loop p l r i best in
  (exists k, e = i + k /\ occurs_at p l r k /\ forall j, k < j -> ~ occurs_at p l r j) \/
  (e = best /\ forall j, ~ occurs_at p l r j).
Proof.
  intros Hr. induction l as [|x l IH]; intros i best; cbv zeta; simpl.
  - right. assert (N : forall j, ~ occurs_at p [] r j).
    { intros j O. apply occurs_at_end in O. destruct O. congruence. }
    split; [|exact N]. destruct (match_front p [] r) eqn:M; [|reflexivity].
    apply match_front_ok in M. exfalso. eapply N; eauto.
  - specialize (IH (S i) (if match_front p (x :: l) r then i else best)). cbv zeta in IH.
    destruct IH as [(k & E & O & H)|[E H]].
    + left. exists (S k). rewrite E. split; [lia|]. split; [apply occurs_at_cons; exact O|].
      intros [|j] L; [lia|]. rewrite occurs_at_cons. apply H. lia.
    + destruct (match_front p (x :: l) r) eqn:M.
      * left. exists 0. split; [lia|]. apply match_front_ok in M. split; [exact M|].
        intros [|j] L; [lia|]. rewrite occurs_at_cons. apply H.
      * right. split; [exact E|]. intros [|j]; [rewrite <- match_front_ok, M; discriminate|].
        rewrite occurs_at_cons. apply H.
Qed.

Theorem rfind_sequence_ok (p : A -> B -> bool) l r :
  let i := rfind_sequence p l r in
  (r = [] -> i = length l) /\
  (r <> [] -> (occurs_at p l r i /\ forall j, i < j -> ~ occurs_at p l r j) \/
              (i = length l /\ forall j, ~ occurs_at p l r j)).
Proof.
  cbv zeta. unfold rfind_sequence, std_find_end. split; [intros ->; reflexivity|]. intros Hr.
  destruct r as [|y r]; [congruence|].
  destruct (find_end_loop_ok p (y :: r) Hr l 0 (length l)) as [(k & E & O & H)|[E H]]; cbv zeta in *; rewrite E.
  - left. auto.
  - right. auto.
Qed.

Theorem contains_sequence_ok (p : A -> B -> bool) l r :
  contains_sequence p l r = true <-> exists i, occurs_at p l r i.
Proof.
  unfold contains_sequence. destruct r as [|y r].
  - split; [|reflexivity]. intros _. exists 0. split; [simpl; lia|]. intros [|k] a b _ E; discriminate.
  - rewrite negb_true_iff, Nat.eqb_neq. destruct (find_sequence_ok p l (y :: r)) as [[O H]|[E H]].
    + split; [eauto|]. intros _ E. rewrite E in O. destruct O as [L _]. simpl in L. lia.
    + split; [intros N; congruence|]. intros [i O]. exfalso. eapply H; eauto.
Qed.

(** ** single elements *)
Theorem find_if_ok (p : A -> bool) l : let i := find_if p l in
  (exists x, nth_error l i = Some x /\ p x = true /\ forall j y, j < i -> nth_error l j = Some y -> p y = false) \/
  (i = length l /\ forall y, In y l -> p y = false).
Proof.
  unfold find_if. cbv zeta. induction l as [|x l IH]; simpl.
  - right. split; [reflexivity|]. tauto.
  - destruct (p x) eqn:P.
    + left. exists x. split; [reflexivity|]. split; [exact P|]. lia.
    + destruct IH as [(z & E & Pz & H)|[E H]].
      * left. exists z. split; [exact E|]. split; [exact Pz|]. intros [|j] y L Ej; simpl in Ej; [congruence|].
        apply (H j); [lia|exact Ej].
      * right. split; [lia|]. intros y [<-|I]; auto.
Qed.

Theorem rfind_if_ok (p : A -> bool) l : let i := rfind_if p l in
  (exists x, nth_error l i = Some x /\ p x = true /\ forall j y, i < j -> nth_error l j = Some y -> p y = false) \/
  (i = length l /\ forall y, In y l -> p y = false).
Proof.
  unfold rfind_if. cbv zeta. pose proof (find_if_ok p (rev l)) as H. unfold find_if in H. cbv zeta in H.
  set (k := std_find_if p (rev l)) in *. rewrite rev_length in H.
  destruct H as [(x & E & P & H)|[E H]].
  - assert (L : k < length l).
    { rewrite <- (rev_length l). apply nth_error_Some. congruence. }
    destruct (Nat.eqb_spec k (length l)) as [|_]; [lia|].
    assert (R : forall j, j < length l -> nth_error (rev l) j = nth_error l (length l - j - 1)).
    { intros j Hj. rewrite (nth_error_nth' _ x) by (rewrite rev_length; exact Hj).
      rewrite rev_nth by exact Hj. rewrite (nth_error_nth' l x) by lia. do 2 f_equal. lia. }
    left. exists x. rewrite <- R by exact L. split; [exact E|]. split; [exact P|].
    intros j y Lj Ej. assert (Hj : j < length l) by (apply nth_error_Some; congruence).
    apply (H (length l - j - 1)); [lia|]. rewrite R by lia. rewrite <- Ej. f_equal. lia.
  - rewrite (proj2 (Nat.eqb_eq _ _) E). right. split; [reflexivity|]. intros y I. apply H. apply in_rev in I. exact I.
Qed.

Theorem contains_elem_ok (eqb : A -> B -> bool) l e :
  contains_elem eqb l e = true <-> exists x, In x l /\ eqb x e = true.
Proof.
  unfold contains_elem. rewrite negb_true_iff, Nat.eqb_neq. unfold find_elem.
  destruct (find_if_ok (fun x => eqb x e) l) as [(x & E & P & _)|[E H]]; unfold find_if in *.
  - split; [|intros _ E2; rewrite E2 in E; assert (nth_error l (length l) <> None) by congruence;
               apply nth_error_Some in H; lia].
    intros _. exists x. split; [eapply nth_error_In; eauto|exact P].
  - split; [congruence|]. intros (x & I & P). rewrite (H x I) in P. discriminate.
Qed.

(** ** equals, starts_with, ends_with *)
Theorem equals_ok (p : A -> B -> bool) l r : equals p l r = true <-> Forall2 (fun x y => p x y = true) l r.
Proof.
  unfold equals. revert r. induction l as [|x l IH]; intros [|y r]; simpl.
  - split; [constructor|reflexivity].
  - split; [discriminate|inversion 1].
  - split; [discriminate|inversion 1].
  - rewrite andb_true_iff, IH. split; [intros []; constructor; assumption|inversion 1; auto].
Qed.

Lemma starts_with_match (p : A -> B -> bool) l r : starts_with_generic p l r = match_front p l r.
Proof.
  revert l. induction r as [|y r IH]; intros [|x l]; simpl; try reflexivity.
  destruct (p x y); simpl; [apply IH|reflexivity].
Qed.

Lemma ends_with_match (p : A -> B -> bool) l r : ends_with_loop p l r = match_front p l r.
Proof. apply (starts_with_match p). Qed.

Theorem starts_with_ok (p : A -> B -> bool) l r : starts_with_generic p l r = true <-> occurs_at p l r 0.
Proof. rewrite starts_with_match. apply match_front_ok. Qed.

Lemma nth_error_rev {X} (l : list X) j : j < length l -> nth_error (rev l) j = nth_error l (length l - 1 - j).
Proof.
  intros Hj. destruct l as [|x l]; [simpl in Hj; lia|]. set (m := x :: l) in *.
  rewrite (nth_error_nth' _ x) by (rewrite rev_length; exact Hj).
  rewrite rev_nth by exact Hj. rewrite (nth_error_nth' m x) by lia. do 2 f_equal. lia.
Qed.

Theorem ends_with_ok (p : A -> B -> bool) l r :
  ends_with_generic p l r = true <-> length r <= length l /\ occurs_at p l r (length l - length r).
Proof.
  unfold ends_with_generic. rewrite ends_with_match, match_front_ok. unfold occurs_at.
  rewrite !rev_length. split.
  - intros [L H]. simpl in L. split; [exact L|]. split; [lia|]. intros k x y Ex Ey.
    assert (Hk : k < length r) by (apply nth_error_Some; congruence).
    apply (H (length r - 1 - k)); simpl; rewrite nth_error_rev by lia.
    + rewrite <- Ex. f_equal. lia.
    + rewrite <- Ey. f_equal. lia.
  - intros [L [_ H]]. split; [simpl; exact L|]. simpl. intros k x y Ex Ey.
    assert (Hk : k < length r) by (rewrite <- (rev_length r); apply nth_error_Some; congruence).
    rewrite nth_error_rev in Ex by lia. rewrite nth_error_rev in Ey by lia. apply (H (length r - 1 - k)); [|exact Ey].
    rewrite <- Ex. f_equal. lia.
Qed.

Lemma equal3_match (q : B -> A -> bool) (p : A -> B -> bool) : (forall x y, q y x = p x y) ->
  forall r l, length r <= length l -> std_equal3 q r l = Ret (match_front p l r).
Proof.
  intros S. induction r as [|y r IH]; intros [|x l] L; simpl in *; try reflexivity; [lia|].
  rewrite S. destruct (p x y); simpl; [apply IH; lia|reflexivity].
Qed.

Lemma match_front_length (p : A -> B -> bool) l r : match_front p l r = true -> length r <= length l.
Proof. intros M. apply match_front_ok in M. destruct M as [L _]. exact L. Qed.

Theorem starts_with_paths (q : B -> A -> bool) (p : A -> B -> bool) l r : (forall x y, q y x = p x y) ->
  starts_with_cxx20 q l r = Ret (starts_with_generic p l r).
Proof.
  intros S. unfold starts_with_cxx20. rewrite starts_with_match.
  destruct (Nat.leb_spec (length r) (length l)) as [L|L].
  - apply equal3_match; assumption.
  - destruct (match_front p l r) eqn:M; [apply match_front_length in M; lia|reflexivity].
Qed.

Lemma occurs_at_skipn (p : A -> B -> bool) l r i : i <= length l ->
  occurs_at p (skipn i l) r 0 <-> occurs_at p l r i.
Proof.
  intros L. unfold occurs_at. rewrite skipn_length.
  assert (N : forall k, nth_error (skipn i l) k = nth_error l (i + k)).
  { clear L. revert l. induction i as [|i IH]; intros l k; [reflexivity|].
    destruct l; [destruct k; reflexivity|]. apply IH. }
  split; intros [L2 H]; (split; [lia|]); intros k x y Ex Ey; eapply H; eauto.
  - rewrite N. exact Ex.
  - rewrite N in Ex. exact Ex.
Qed.

Theorem ends_with_paths (q : B -> A -> bool) (p : A -> B -> bool) l r : (forall x y, q y x = p x y) ->
  ends_with_cxx20 q l r = Ret (ends_with_generic p l r).
Proof.
  intros S. unfold ends_with_cxx20. cbv zeta.
  destruct (Nat.leb_spec (length r) (length l)) as [L|L].
  - rewrite (equal3_match q p S) by (rewrite skipn_length; lia). f_equal.
    apply eq_true_iff_eq. rewrite match_front_ok, occurs_at_skipn, ends_with_ok by lia. tauto.
  - destruct (ends_with_generic p l r) eqn:M; [apply ends_with_ok in M; lia|reflexivity].
Qed.
End Search.

Section Equality.
Context {A : Type} (eqb : A -> A -> bool) (eqb_ok : forall x y, eqb x y = true <-> x = y).

Lemma match_front_prefix l r : match_front eqb l r = true <-> exists t, l = r ++ t.
Proof.
  revert l. induction r as [|y r IH]; intros l; simpl.
  - split; [exists l; reflexivity|reflexivity].
  - destruct l as [|x l]; [split; [discriminate|intros [t E]; discriminate]|].
    rewrite andb_true_iff, eqb_ok, IH. split.
    + intros [-> [t ->]]. exists t. reflexivity.
    + intros [t E]. injection E as -> ->. eauto.
Qed.

Theorem starts_with_prefix l r :
  (starts_with_generic eqb l r = true <-> exists t, l = r ++ t) /\
  starts_with_cxx20 eqb l r = Ret (starts_with_generic eqb l r).
Proof.
  split; [rewrite starts_with_match; apply match_front_prefix|].
  apply starts_with_paths. intros x y. apply eq_true_iff_eq. rewrite !eqb_ok. split; auto.
Qed.

Theorem ends_with_suffix l r :
  (ends_with_generic eqb l r = true <-> exists t, l = t ++ r) /\
  ends_with_cxx20 eqb l r = Ret (ends_with_generic eqb l r).
Proof.
  split.
  - unfold ends_with_generic. rewrite ends_with_match, match_front_prefix. split.
    + intros [t E]. exists (rev t). apply (f_equal (@rev A)) in E. rewrite rev_app_distr, !rev_involutive in E. exact E.
    + intros [t ->]. exists (rev t). apply rev_app_distr.
  - apply ends_with_paths. intros x y. apply eq_true_iff_eq. rewrite !eqb_ok. split; auto.
Qed.
End Equality.

Lemma paths_differ : exists (pred : nat -> nat -> bool) l r,
  starts_with_cxx20 pred l r <> Ret (starts_with_generic pred l r) /\
  ends_with_cxx20 pred l r <> Ret (ends_with_generic pred l r).
Proof. exists Nat.ltb, [1], [2]. split; discriminate. Qed.

(** * filter *)
Section FilterProofs.
Context {A : Type}.

Lemma set_nth_length (l : list A) i x : length (set_nth l i x) = length l.
Proof. revert i. induction l as [|y l IH]; intros [|i]; simpl; auto. Qed.

Lemma set_nth_app (l1 : list A) y l2 x : set_nth (l1 ++ y :: l2) (length l1) x = l1 ++ x :: l2.
Proof. induction l1 as [|z l1 IH]; simpl; [reflexivity|]. f_equal. exact IH. Qed.

Lemma remove_if_loop_ok junk (pred : A -> bool) : forall rest kept gap n, n = length rest ->
  exists tail, remove_if_loop junk pred n (length kept + length gap) (length kept) (kept ++ gap ++ rest) =
    Ret (kept ++ filter (fun x => negb (pred x)) rest ++ tail,
         length kept + length (filter (fun x => negb (pred x)) rest)).
Proof.
  induction rest as [|x rest IH]; intros kept gap n ->; simpl.
  - exists gap. rewrite app_nil_r, Nat.add_0_r. reflexivity.
  - assert (En : nth_error (kept ++ gap ++ x :: rest) (length kept + length gap) = Some x).
    { rewrite app_assoc, <- app_length, nth_error_app2, Nat.sub_diag by lia. reflexivity. }
    rewrite En. destruct (pred x) eqn:P; simpl.
    + destruct (IH kept (gap ++ [x]) _ eq_refl) as (tail & E). exists tail. rewrite <- E.
      rewrite app_length, <- app_assoc. simpl. f_equal. lia.
    + destruct (Nat.eqb_spec (length kept) (length kept + length gap)) as [G|G].
      * assert (gap = []) by (destruct gap; [reflexivity|simpl in G; lia]). subst gap.
        destruct (IH (kept ++ [x]) [] _ eq_refl) as (tail & E). exists tail.
        rewrite app_length in E. simpl in E. simpl. rewrite <- !app_assoc in E. simpl in E.
        replace (S (length kept + 0)) with (length kept + 1 + 0) by lia.
        replace (S (length kept)) with (length kept + 1) by lia. rewrite E. do 2 f_equal. lia.
      * destruct gap as [|g gap]; [simpl in G; lia|].
        simpl app. rewrite set_nth_app.
        set (j := junk _).
        assert (E2 : set_nth (kept ++ x :: gap ++ x :: rest) (length kept + length (g :: gap)) j =
                     (kept ++ [x]) ++ (gap ++ [j]) ++ rest).
        { replace (kept ++ x :: gap ++ x :: rest) with ((kept ++ x :: gap) ++ x :: rest)
            by (rewrite <- app_assoc; reflexivity).
          replace (length kept + length (g :: gap)) with (length (kept ++ x :: gap)) by (rewrite app_length; reflexivity).
          rewrite set_nth_app, <- !app_assoc. reflexivity. }
        rewrite E2. destruct (IH (kept ++ [x]) (gap ++ [j]) _ eq_refl) as (tail & E). exists tail.
        rewrite !app_length in E. simpl in E. simpl.
        replace (S (length kept + S (length gap))) with (length kept + 1 + (length gap + 1)) by lia.
        replace (S (length kept)) with (length kept + 1) by lia. rewrite E. rewrite <- !app_assoc. simpl. do 2 f_equal. lia.
Qed.

Theorem filter_container_ok junk (pred : A -> bool) l : filter_container junk pred l = Ret (filter pred l).
Proof.
  unfold filter_container, std_remove_if.
  destruct (remove_if_loop_ok junk (fun x => negb (pred x)) l [] [] _ eq_refl) as (tail & E).
  simpl in E. rewrite E. cbn [obind fst snd].
  assert (F : filter (fun x => negb (negb (pred x))) l = filter pred l).
  { apply filter_ext. intros. apply negb_involutive. }
  rewrite F. unfold erase_from. rewrite (proj2 (Nat.leb_le _ _)) by (rewrite app_length; lia).
  rewrite firstn_app, firstn_all, Nat.sub_diag. simpl. rewrite app_nil_r. reflexivity.
Qed.

Lemma count_if_loop_ok (pred : A -> bool) l : forall n, count_if_loop pred l n = n + length (filter pred l).
Proof.
  induction l as [|x l IH]; intros n; simpl; [lia|]. rewrite IH. destruct (pred x); simpl; lia.
Qed.

Theorem count_ok (pred : A -> bool) l : count_if pred l = length (filter pred l).
Proof. apply count_if_loop_ok. Qed.

Theorem any_ok (pred : A -> bool) l : any pred l = true <-> exists x, In x l /\ pred x = true.
Proof.
  induction l as [|x l IH]; simpl.
  - split; [discriminate|intros (x & [] & _)].
  - destruct (pred x) eqn:P; [split; [exists x; auto|reflexivity]|]. rewrite IH. split.
    + intros (y & I & Py). exists y. auto.
    + intros (y & [<-|I] & Py); [congruence|]. exists y. auto.
Qed.

Theorem all_ok (pred : A -> bool) l : all pred l = true <-> forall x, In x l -> pred x = true.
Proof.
  induction l as [|x l IH]; simpl.
  - split; [intros _ x []|reflexivity].
  - destruct (pred x) eqn:P; simpl.
    + rewrite IH. split; [intros H y [<-|I]; auto|auto].
    + split; [discriminate|]. intros H. rewrite (H x) in P by auto. discriminate.
Qed.

Theorem any_all_dual (pred : A -> bool) l : any pred l = negb (all (fun x => negb (pred x)) l).
Proof. induction l as [|x l IH]; simpl; [reflexivity|]. destruct (pred x); simpl; auto. Qed.

Theorem map_into_ok {S B : Type} (f : S -> A -> S * B) : forall l st d,
  map_into f st l d = (fst (in_order f st l), d ++ snd (in_order f st l)).
Proof.
  induction l as [|x l IH]; intros st d; simpl; [rewrite app_nil_r; reflexivity|].
  destruct (f st x) as [st1 y]. rewrite IH. destruct (in_order f st1 l) as [st2 ys]. simpl.
  rewrite <- app_assoc. reflexivity.
Qed.

Lemma in_order_pure {B : Type} (f : A -> B) l : in_order (fun (_ : unit) x => (tt, f x)) tt l = (tt, map f l).
Proof. induction l as [|x l IH]; simpl; [reflexivity|]. rewrite IH. reflexivity. Qed.

(** ** min and max *)
Lemma min_loop_ok (less : A -> A -> bool) : strict_weak_order less -> forall rest pre i b,
  first_min less pre i b ->
  exists i' x, min_loop less (length pre) rest (Some (i, b)) = Some (i', x) /\ first_min less (pre ++ rest) i' x.
Proof.
  intros O. induction rest as [|y rest IH]; intros pre i b M; simpl.
  - exists i, b. rewrite app_nil_r. auto.
  - replace (length pre + 1) with (length (pre ++ [y])) by (rewrite app_length; reflexivity).
    replace (pre ++ y :: rest) with ((pre ++ [y]) ++ rest) by (rewrite <- app_assoc; reflexivity).
    destruct M as (Ei & Hm & Hf).
    assert (Li : i < length pre) by (apply nth_error_Some; congruence).
    assert (NE : forall j z, nth_error (pre ++ [y]) j = Some z -> (nth_error pre j = Some z /\ j < length pre) \/ (j = length pre /\ z = y)).
    { intros j z E. destruct (Nat.lt_ge_cases j (length pre)) as [L|L].
      - rewrite nth_error_app1 in E by exact L. auto.
      - rewrite nth_error_app2 in E by exact L. destruct (j - length pre) as [|k] eqn:D.
        + simpl in E. right. split; [lia|congruence].
        + simpl in E. destruct k; discriminate. }
    destruct (less y b) eqn:C.
    + apply IH. split; [|split].
      * rewrite nth_error_app2, Nat.sub_diag by lia. reflexivity.
      * intros j z E. apply NE in E. destruct E as [[E L]|[-> ->]]; [|apply swo_irrefl; exact O].
        destruct (less z y) eqn:D; [|reflexivity].
        rewrite <- (Hm _ _ E). symmetry. eapply swo_trans; eauto.
      * intros j z L E. apply NE in E. destruct E as [[E _]|[-> ->]]; [|lia].
        destruct (less y z) eqn:D; [reflexivity|exfalso].
        pose proof (Hm _ _ E) as Hz.
        destruct (less z y) eqn:D2; [rewrite (swo_trans _ O z y b D2 C) in Hz; discriminate|].
        destruct (less b z) eqn:D3; [rewrite (swo_trans _ O y b z C D3) in D; discriminate|].
        destruct (swo_incomp _ O y z b D D2 Hz D3). congruence.
    + apply IH. split; [|split].
      * rewrite nth_error_app1 by exact Li. exact Ei.
      * intros j z E. apply NE in E. destruct E as [[E L]|[-> ->]]; [eapply Hm; eauto|exact C].
      * intros j z L E. apply NE in E. destruct E as [[E _]|[-> ->]]; [eapply Hf; eauto|lia].
Qed.

Theorem min_ok (less : A -> A -> bool) l : strict_weak_order less -> l <> [] ->
  exists i x, min_of less l = Ret (i, x) /\ first_min less l i x.
Proof.
  intros O N. destruct l as [|x l]; [congruence|]. unfold min_of. simpl.
  destruct (min_loop_ok less O l [x] 0 x) as (i & y & E & M).
  { split; [reflexivity|]. split; [|lia]. intros [|[|j]] y E; simpl in E; try discriminate.
    injection E as <-. apply swo_irrefl; exact O. }
  simpl in E. rewrite E. eauto.
Qed.

Lemma max_is_min (less : A -> A -> bool) : forall l i b,
  max_loop less i l b = min_loop (fun x y => less y x) i l b.
Proof. induction l as [|x l IH]; intros i b; simpl; [reflexivity|]. apply IH. Qed.

Lemma swo_flip (less : A -> A -> bool) : strict_weak_order less -> strict_weak_order (fun x y => less y x).
Proof.
  intros O. split.
  - intros x. apply (swo_irrefl _ O).
  - intros x y z H1 H2. eapply (swo_trans _ O); eauto.
  - intros x y z H1 H2 H3 H4. destruct (swo_incomp _ O x y z) as [? ?]; auto.
Qed.

Theorem max_ok (less : A -> A -> bool) l : strict_weak_order less -> l <> [] ->
  exists i x, max_of less l = Ret (i, x) /\ first_max less l i x.
Proof.
  intros O N. destruct (min_ok (fun x y => less y x) l (swo_flip _ O) N) as (i & x & E & M).
  exists i, x. split; [|exact M]. unfold max_of. rewrite max_is_min. exact E.
Qed.

(** ** slice *)
Lemma filter_none {X} (f : X -> bool) l : (forall x, In x l -> f x = false) -> filter f l = [].
Proof.
  induction l as [|x l IH]; intros H; simpl; [reflexivity|]. rewrite (H x) by (left; reflexivity).
  apply IH. intros y I. apply H. right. exact I.
Qed.

Lemma index_filter : forall (c : list A) k (lo hi : Z), (Z.of_nat k <= hi)%Z -> (hi <= Z.of_nat (k + length c))%Z ->
  (Z.of_nat k <= lo)%Z -> (lo <= hi)%Z ->
  map snd (filter (fun p => (lo <=? Z.of_nat (fst p))%Z && (Z.of_nat (fst p) <? hi)%Z) (combine (seq k (length c)) c)) =
  firstn (Z.to_nat (hi - lo)) (skipn (Z.to_nat (lo - Z.of_nat k)) c).
Proof.
  induction c as [|x c IH]; intros k lo hi H1 H2 H3 H4; simpl combine.
  - simpl. rewrite skipn_nil, firstn_nil. reflexivity.
  - cbn [length seq combine filter fst].
    destruct (Z.eqb_spec hi (Z.of_nat k)) as [E|NE].
    + assert (lo = hi) by lia. subst lo hi. rewrite Z.sub_diag. simpl firstn.
      rewrite Z.leb_refl, Z.ltb_irrefl. simpl.
      rewrite filter_none; [reflexivity|]. intros [i y] I. simpl. apply in_combine_l in I. apply in_seq in I.
      apply andb_false_intro2. apply Z.ltb_ge. lia.
    + destruct (Z.leb_spec lo (Z.of_nat k)) as [L|L].
      * assert (lo = Z.of_nat k) by lia. subst lo. rewrite (proj2 (Z.ltb_lt _ _)) by lia. cbn [andb map].
        rewrite Z.sub_diag. simpl skipn.
        replace (Z.to_nat (hi - Z.of_nat k)) with (S (Z.to_nat (hi - Z.of_nat (S k)))) by lia.
        simpl firstn. f_equal.
        assert (EQ : filter (fun p : nat * A => (Z.of_nat k <=? Z.of_nat (fst p))%Z && (Z.of_nat (fst p) <? hi)%Z) (combine (seq (S k) (length c)) c) =
                     filter (fun p : nat * A => (Z.of_nat (S k) <=? Z.of_nat (fst p))%Z && (Z.of_nat (fst p) <? hi)%Z) (combine (seq (S k) (length c)) c)).
        { apply filter_ext_in. intros [i y] I. simpl. apply in_combine_l in I. apply in_seq in I.
          rewrite (proj2 (Z.leb_le (Z.of_nat k) _)) by lia. rewrite (proj2 (Z.leb_le (Z.pos (Pos.of_succ_nat k)) _)) by lia. reflexivity. }
        rewrite EQ, IH; try lia.
        -- rewrite Z.sub_diag. reflexivity.
        -- simpl length in H2. lia.
      * cbn [andb]. rewrite IH; try lia.
        -- f_equal. replace (Z.to_nat (lo - Z.of_nat k)) with (S (Z.to_nat (lo - Z.of_nat (S k)))) by lia. reflexivity.
        -- simpl length in H2. lia.
Qed.

Lemma index_filter_empty (c : list A) (lo hi : Z) : (hi <= lo)%Z ->
  map snd (filter (fun p => (lo <=? Z.of_nat (fst p))%Z && (Z.of_nat (fst p) <? hi)%Z) (combine (seq 0 (length c)) c)) = [].
Proof.
  intros H. rewrite filter_none; [reflexivity|]. intros [i y] I. simpl.
  destruct (Z.leb_spec lo (Z.of_nat i)); [|reflexivity]. simpl. apply Z.ltb_ge. lia.
Qed.

Lemma index_filter_ext (c : list A) (lo hi lo' hi' : Z) :
  (forall i, (0 <= i < Z.of_nat (length c))%Z -> ((lo <= i < hi)%Z <-> (lo' <= i < hi')%Z)) ->
  map snd (filter (fun p => (lo <=? Z.of_nat (fst p))%Z && (Z.of_nat (fst p) <? hi)%Z) (combine (seq 0 (length c)) c)) =
  map snd (filter (fun p => (lo' <=? Z.of_nat (fst p))%Z && (Z.of_nat (fst p) <? hi')%Z) (combine (seq 0 (length c)) c)).
Proof.
  intros H. f_equal. apply filter_ext_in. intros [i y] I. simpl. apply in_combine_l in I. apply in_seq in I.
  apply eq_true_iff_eq. rewrite !andb_true_iff, !Z.leb_le, !Z.ltb_lt. apply H. lia.
Qed.

Lemma slice_bounds (conv : option (Z -> A)) (c : list A) (start stop : Z) :
  (Z.of_nat (length c) < 2 ^ 63)%Z -> (- 2 ^ 63 <= start < 2 ^ 63)%Z -> (- 2 ^ 63 <= stop < 2 ^ 63)%Z ->
  (slice conv c start stop = Ret [] /\ py_slice c start stop = []) \/
  exists a b, (0 <= a < b)%Z /\ (b <= Z.of_nat (length c))%Z /\ slice conv c start stop = Ret (braces conv c a b) /\
    py_slice c start stop = firstn (Z.to_nat (b - a)) (skipn (Z.to_nat a) c).
Proof.
  intros Hc Ha Hb. unfold slice, py_slice, py_bound. set (n := Z.of_nat (length c)) in *.
  assert (Hn : (0 <= n)%Z) by (unfold n; lia).
  assert (P63 : (2 ^ 63 = 9223372036854775808)%Z) by reflexivity.
  assert (LL : forall z, (- 2 ^ 63 <= z < 2 ^ 63)%Z -> llong z = Ret z).
  { intros z Hz. unfold llong, llong_ok. rewrite (proj2 (Z.leb_le _ _)), (proj2 (Z.ltb_lt _ _)) by lia. reflexivity. }
  set (a := if (start <? 0)%Z then (if (start + n <? 0)%Z then 0 else start + n)%Z else start).
  assert (Ea : (if (start <? 0)%Z then (let* s := llong (start + n) in Ret (if (s <? 0)%Z then 0%Z else s))%outcome else Ret start) = Ret a).
  { unfold a. destruct (Z.ltb_spec start 0); [|reflexivity]. rewrite LL by lia. reflexivity. }
  rewrite Ea. cbn [obind].
  set (b := if (stop <? 0)%Z then (stop + n)%Z else (if (n <? stop)%Z then n else stop)).
  assert (Eb : (if (stop <? 0)%Z then llong (stop + n) else Ret (if (n <? stop)%Z then n else stop)) = Ret b).
  { unfold b. destruct (Z.ltb_spec stop 0); [|reflexivity]. rewrite LL by lia. reflexivity. }
  rewrite Eb. cbn [obind].
  assert (A0 : (0 <= a)%Z) by (unfold a; destruct (Z.ltb_spec start 0); [destruct (Z.ltb_spec (start + n) 0)|]; lia).
  assert (Bn : (b <= n)%Z) by (unfold b; destruct (Z.ltb_spec stop 0); [|destruct (Z.ltb_spec n stop)]; lia).
  rewrite (index_filter_ext c _ _ a b).
  2: { fold n. intros i Hi. unfold a, b.
       destruct (Z.ltb_spec start 0); [destruct (Z.ltb_spec (start + n) 0)|];
       (destruct (Z.ltb_spec stop 0); [|destruct (Z.ltb_spec n stop)]); lia. }
  destruct (Z.leb_spec b a) as [L|L].
  - left. rewrite index_filter_empty by lia. auto.
  - right. exists a, b. split; [lia|]. split; [exact Bn|]. unfold advance. rewrite Z.add_0_l.
    rewrite (proj2 (Z.leb_le 0 a)), (proj2 (Z.leb_le a n)) by lia. cbn [andb obind].
    rewrite LL by lia. cbn [obind].
    replace (a + (b - a))%Z with b by lia.
    rewrite (proj2 (Z.leb_le 0 b)), (proj2 (Z.leb_le b n)) by lia. cbn [andb obind].
    split; [reflexivity|]. rewrite (index_filter c 0 a b) by (fold n; lia). rewrite Z.sub_0_r. reflexivity.
Qed.
Theorem slice_ok (c : list A) (start stop : Z) :
  (Z.of_nat (length c) < 2 ^ 63)%Z -> (- 2 ^ 63 <= start < 2 ^ 63)%Z -> (- 2 ^ 63 <= stop < 2 ^ 63)%Z ->
  slice None c start stop = Ret (py_slice c start stop).
Proof.
  intros Hc Ha Hb. destruct (slice_bounds None c start stop Hc Ha Hb) as [(E1 & E2)|(a & b & _ & _ & E1 & E2)]; rewrite E1, E2; reflexivity.
Qed.
Lemma slice_any_ok (conv : Z -> A) (c : list A) (start stop : Z) :
  (Z.of_nat (length c) < 2 ^ 63)%Z -> (- 2 ^ 63 <= start < 2 ^ 63)%Z -> (- 2 ^ 63 <= stop < 2 ^ 63)%Z ->
  (py_slice c start stop = [] -> slice (Some conv) c start stop = Ret []) /\
  (py_slice c start stop <> [] -> exists a b, (0 <= a < b)%Z /\ (b <= Z.of_nat (length c))%Z /\
     py_slice c start stop = firstn (Z.to_nat (b - a)) (skipn (Z.to_nat a) c) /\ slice (Some conv) c start stop = Ret [conv a; conv b]).
Proof.
  intros Hc Ha Hb. destruct (slice_bounds (Some conv) c start stop Hc Ha Hb) as [(E1 & E2)|(a & b & L1 & L2 & E1 & E2)].
  - split; [auto|]. intros N. contradiction.
  - split; [|intros _; exists a, b; auto]. intros N. exfalso. rewrite N in E2. apply (f_equal (@length A)) in E2.
    rewrite firstn_length, skipn_length in E2. cbn in E2. lia.
Qed.
End FilterProofs.

(** a container whose elements can be made from iterators *)
Lemma slice_any_differs : exists (conv : Z -> Z) (c : list Z) start stop,
  slice (Some conv) c start stop <> Ret (py_slice c start stop).
Proof. exists (fun i => i), [7;8;9]%Z, 0%Z, 3%Z. discriminate. Qed.

(** * sum *)
Section SumProofs.
Open Scope Z_scope.

Lemma fits_ok bits sgn z : fits bits sgn z = true <-> in_range bits sgn z.
Proof. unfold fits, in_range. destruct sgn; rewrite andb_true_iff, Z.leb_le, Z.ltb_lt; reflexivity. Qed.

Theorem sum_signed bits : 32 <= bits -> forall c v,
  ((forall c1 c2, c = c1 ++ c2 -> c1 <> [] -> in_range bits true (v + total c1)) ->
     sum bits true c v = Ret (v + total c)) /\
  (forall c1 c2, c = c1 ++ c2 -> c1 <> [] -> ~ in_range bits true (v + total c1) -> sum bits true c v = Ub).
Proof.
  intros Hb. induction c as [|x c IH]; intros v; simpl.
  - split; [intros _; f_equal; lia|]. intros [|] c2 E N _; [congruence|discriminate].
  - assert (W : bits <? 32 = false) by (apply Z.ltb_ge; lia).
    unfold add_assign. rewrite W. destruct (fits bits true (v + x)) eqn:F; cbn [obind].
    + destruct (IH (v + x)) as [IH1 IH2]. split.
      * intros H. rewrite IH1; [f_equal; lia|]. intros c1 c2 E N.
        replace (v + x + total c1) with (v + total (x :: c1)) by (simpl; lia).
        apply (H (x :: c1) c2); [rewrite E; reflexivity|discriminate].
      * intros c1 c2 E N R. destruct c1 as [|y c1]; [congruence|]. simpl in E. injection E as -> E.
        destruct c1 as [|z c1].
        { exfalso. apply R. simpl. rewrite Z.add_0_r. apply (fits_ok bits true). exact F. }
        apply (IH2 (z :: c1) c2); [exact E|discriminate|].
        intros R2. apply R. replace (v + total (y :: z :: c1)) with (v + y + total (z :: c1)) by (simpl; lia). exact R2.
    + split; [|reflexivity]. intros H. exfalso.
      assert (H2 : in_range bits true (v + total [x])) by (apply (H [x] c eq_refl); discriminate).
      replace (v + total [x]) with (v + x) in H2 by (unfold total; simpl; lia). apply fits_ok in H2. congruence.
Qed.

Lemma wrap_range bits sgn z : 0 < bits -> in_range bits sgn (wrap_to bits sgn z).
Proof.
  intros Hb. unfold wrap_to, in_range.
  assert (P : 2 ^ bits = 2 * 2 ^ (bits - 1)).
  { rewrite <- Z.pow_succ_r by lia. f_equal. lia. }
  assert (Q : 0 < 2 ^ (bits - 1)) by (apply Z.pow_pos_nonneg; lia).
  pose proof (Z.mod_pos_bound z (2 ^ bits) ltac:(lia)).
  destruct sgn; simpl; [destruct (Z.leb_spec (2 ^ (bits - 1)) (z mod 2 ^ bits)); lia|lia].
Qed.

Lemma wrap_congr bits sgn z : exists k, wrap_to bits sgn z = z + k * 2 ^ bits.
Proof.
  unfold wrap_to. destruct (Z.eqb_spec (2 ^ bits) 0) as [E|N].
  - rewrite E, Zmod_0_r. exists 0. destruct (_ && _); lia.
  - pose proof (Z.div_mod z (2 ^ bits) N). destruct (_ && _).
    + exists (- (z / 2 ^ bits) - 1). lia.
    + exists (- (z / 2 ^ bits)). lia.
Qed.

Theorem sum_modular bits sgn : 0 < bits -> (sgn = false \/ bits < 32) -> forall c v, in_range bits sgn v ->
  exists r k, sum bits sgn c v = Ret r /\ in_range bits sgn r /\ r = v + total c + k * 2 ^ bits.
Proof.
  intros Hb Hs. induction c as [|x c IH]; intros v Hv; simpl.
  - exists v, 0. split; [reflexivity|]. split; [exact Hv|lia].
  - assert (E : add_assign bits sgn v x = Ret (wrap_to bits sgn (v + x))).
    { unfold add_assign. destruct (Z.ltb_spec bits 32); [reflexivity|].
      destruct Hs as [->|]; [reflexivity|lia]. }
    rewrite E. cbn [obind].
    destruct (IH _ (wrap_range bits sgn (v + x) Hb)) as (r & k & E2 & R & K).
    destruct (wrap_congr bits sgn (v + x)) as (k2 & K2).
    exists r, (k + k2). split; [exact E2|]. split; [exact R|]. rewrite K, K2. lia.
Qed.
End SumProofs.

(** * compare *)
Section CompareProofs.
Open Scope Z_scope.
Context (up : Z -> Z).

Lemma iequal_eq l r : is_iequal up l r = (up l =? up r).
Proof.
  unfold is_iequal. destruct (Z.eqb_spec l r) as [->|]; [rewrite Z.eqb_refl|]; reflexivity.
Qed.

Theorem compare_ok :
  (forall a, is_iequal up a a = true) /\
  (forall a b, is_iequal up a b = is_iequal up b a) /\
  (forall a b c, is_iequal up a b = true -> is_iequal up b c = true -> is_iequal up a c = true) /\
  strict_weak_order (is_iless up) /\
  (forall a b, is_iequal up a b = negb (is_iless up a b) && negb (is_iless up b a)) /\
  (forall a b, is_not_iequal up a b = negb (is_iequal up a b)) /\
  (forall a b, is_igreater up a b = is_iless up b a) /\
  (forall a b, is_iless_equal up a b = negb (is_igreater up a b)) /\
  (forall a b, is_igreater_equal up a b = negb (is_iless up a b)).
Proof.
  split; [intros a; rewrite iequal_eq; apply Z.eqb_refl|].
  split; [intros a b; rewrite !iequal_eq; apply Z.eqb_sym|].
  split; [intros a b c; rewrite !iequal_eq, !Z.eqb_eq; congruence|].
  split.
  { split.
    - intros x. apply Z.ltb_irrefl.
    - intros x y z. unfold is_iless. rewrite !Z.ltb_lt. lia.
    - intros x y z. unfold is_iless. rewrite !Z.ltb_ge. lia. }
  split.
  { intros a b. rewrite iequal_eq. unfold is_iless.
    destruct (Z.eqb_spec (up a) (up b)), (Z.ltb_spec (up a) (up b)), (Z.ltb_spec (up b) (up a)); simpl; lia || reflexivity. }
  split; [intros a b; unfold is_not_iequal, is_iequal; rewrite negb_orb; reflexivity|].
  split; [intros a b; unfold is_igreater, is_iless; apply Z.gtb_ltb|].
  split.
  - intros a b. unfold is_iless_equal, is_igreater. rewrite Z.gtb_ltb.
    destruct (Z.eqb_spec a b) as [->|N]; [rewrite Z.ltb_irrefl; reflexivity|].
    destruct (Z.leb_spec (up a) (up b)), (Z.ltb_spec (up b) (up a)); simpl; lia || reflexivity.
  - intros a b. unfold is_igreater_equal, is_iless. rewrite Z.geb_leb.
    destruct (Z.eqb_spec a b) as [->|N]; [rewrite Z.ltb_irrefl; reflexivity|].
    destruct (Z.leb_spec (up b) (up a)), (Z.ltb_spec (up a) (up b)); simpl; lia || reflexivity.
Qed.

Lemma match_front_up l r : match_front (is_iequal up) l r = match_front Z.eqb (map up l) (map up r).
Proof.
  revert l. induction r as [|y r IH]; intros [|x l]; simpl; try reflexivity.
  rewrite iequal_eq, IH. reflexivity.
Qed.

Lemma iequals_up l r : iequals up l r = equals Z.eqb (upper up l) (upper up r).
Proof.
  unfold iequals, equals, upper. revert r. induction l as [|x l IH]; intros [|y r]; simpl; try reflexivity.
  rewrite iequal_eq, IH. reflexivity.
Qed.

Lemma ifind_up l r : ifind up l r = find_sequence Z.eqb (upper up l) (upper up r).
Proof.
  unfold ifind, find_sequence, upper. induction l as [|x l IH].
  - simpl. rewrite match_front_up. reflexivity.
  - cbn [std_search map]. rewrite match_front_up, IH. reflexivity.
Qed.

Lemma find_end_up r : forall l i b,
  find_end_loop (is_iequal up) l r i b = find_end_loop Z.eqb (map up l) (map up r) i b.
Proof.
  induction l as [|x l IH]; intros i b; cbn [find_end_loop map]; rewrite match_front_up; [reflexivity|].
  rewrite IH. reflexivity.
Qed.

Lemma irfind_up l r : irfind up l r = rfind_sequence Z.eqb (upper up l) (upper up r).
Proof.
  unfold irfind, rfind_sequence, std_find_end, upper. destruct r as [|y r]; [rewrite map_length; reflexivity|].
  rewrite find_end_up. cbn [map]. rewrite map_length. reflexivity.
Qed.

Lemma icontains_up l r : icontains up l r = contains_sequence Z.eqb (upper up l) (upper up r).
Proof.
  unfold icontains, contains_sequence. destruct r as [|y r]; [reflexivity|].
  fold (ifind up l (y :: r)). rewrite ifind_up. unfold upper. rewrite map_length. reflexivity.
Qed.

Definition starts_with_on (cxx20 : bool) (l r : list Z) : outcome bool :=
  if cxx20 then starts_with_cxx20 Z.eqb l r else Ret (starts_with_generic Z.eqb l r).
Definition ends_with_on (cxx20 : bool) (l r : list Z) : outcome bool :=
  if cxx20 then ends_with_cxx20 Z.eqb l r else Ret (ends_with_generic Z.eqb l r).

Lemma iequal_sym x y : is_iequal up x y = is_iequal up y x.
Proof. rewrite !iequal_eq. apply Z.eqb_sym. Qed.

Lemma istarts_with_up cxx20 l r : istarts_with up cxx20 l r = starts_with_on cxx20 (upper up l) (upper up r).
Proof.
  assert (E : starts_with_generic (is_iequal up) l r = starts_with_generic Z.eqb (upper up l) (upper up r)).
  { rewrite !starts_with_match. apply match_front_up. }
  destruct cxx20; simpl; [|rewrite E; reflexivity].
  rewrite (starts_with_paths _ (is_iequal up)) by (intros; apply iequal_sym).
  rewrite (starts_with_paths _ Z.eqb) by (intros; apply Z.eqb_sym). rewrite E. reflexivity.
Qed.

Lemma iends_with_up cxx20 l r : iends_with up cxx20 l r = ends_with_on cxx20 (upper up l) (upper up r).
Proof.
  assert (E : ends_with_generic (is_iequal up) l r = ends_with_generic Z.eqb (upper up l) (upper up r)).
  { unfold ends_with_generic. rewrite !ends_with_match, match_front_up. unfold upper. rewrite !map_rev. reflexivity. }
  destruct cxx20; simpl; [|rewrite E; reflexivity].
  rewrite (ends_with_paths _ (is_iequal up)) by (intros; apply iequal_sym).
  rewrite (ends_with_paths _ Z.eqb) by (intros; apply Z.eqb_sym). rewrite E. reflexivity.
Qed.
End CompareProofs.

Lemma for_each_ok {A S : Type} (f : S -> A -> S) : forall l st, for_each f st l = fold_left f l st.
Proof. induction l as [|x l IH]; intros st; simpl; auto. Qed.

Lemma map_pure_ok {A B : Type} (f : A -> B) l d :
  map_into (fun (_ : unit) x => (tt, f x)) tt l d = (tt, d ++ map f l).
Proof. rewrite map_into_ok, in_order_pure. reflexivity. Qed.

Lemma count_value_ok {A B : Type} (eqb : A -> B -> bool) l v :
  count eqb l v = length (filter (fun x => eqb x v) l).
Proof. unfold count. rewrite count_if_loop_ok. reflexivity. Qed.

Lemma empty_min_max {A : Type} (less : A -> A -> bool) : min_of less [] = Ub /\ max_of less [] = Ub.
Proof. split; reflexivity. Qed.

Lemma min2_ok {A : Type} (less : A -> A -> bool) : strict_weak_order less -> forall l r,
  (min2 less l r = true <-> less r l = true) /\ (max2 less l r = true <-> less l r = true) /\
  (less (if min2 less l r then l else r) (if min2 less l r then r else l) = false) /\
  (less (if max2 less l r then r else l) (if max2 less l r then l else r) = false).
Proof.
  intros O l r. unfold min2, max2. split; [tauto|]. split; [tauto|].
  assert (N : forall x y, less x y = true -> less y x = false).
  { intros x y H. destruct (less y x) eqn:E; [|reflexivity].
    rewrite <- (swo_irrefl _ O x). symmetry. eapply swo_trans; eauto. }
  split.
  - destruct (less r l) eqn:E; auto.
  - destruct (less l r) eqn:E; auto.
Qed.

Lemma is_lower_ok {A : Type} (up low : A -> bool) s :
  is_lower up s = Ret (forallb (fun c => negb (up c)) s) /\
  is_upper low s = Ret (forallb (fun c => negb (low c)) s).
Proof.
  assert (N : forall (b : A -> bool) s, negb (existsb b s) = forallb (fun c => negb (b c)) s).
  { clear. intros b s. induction s as [|c s IH]; simpl; [reflexivity|]. rewrite negb_orb, IH. reflexivity. }
  unfold is_lower, is_upper. split; rewrite <- N; apply (StringProofs.none_of_loop_spec _ s s []); auto.
Qed.

(** '1' is neither upper nor lower case *)
Lemma is_lower_differs : exists (up low : nat -> bool) s, (forall c, up c && low c = false) /\
  is_lower up s <> Ret (forallb low s) /\ is_upper low s <> Ret (forallb up s).
Proof.
  exists (fun c => (65 <=? c) && (c <=? 90)), (fun c => (97 <=? c) && (c <=? 122)), [49].
  split; [|split; discriminate]. intros c.
  destruct (Nat.leb_spec 65 c), (Nat.leb_spec c 90), (Nat.leb_spec 97 c), (Nat.leb_spec c 122); try reflexivity; lia.
Qed.

Lemma slice_to_ok {A : Type} (c : list A) (stop : Z) :
  (Z.of_nat (length c) < 2 ^ 63)%Z -> (- 2 ^ 63 <= stop < 2 ^ 63)%Z -> slice_to None c stop = Ret (py_slice c 0 stop).
Proof. intros H1 H2. apply slice_ok; [exact H1| |exact H2]. split; reflexivity || discriminate. Qed.

(** lower, upper *)
Lemma case_change_ok {A : Type} (low up : A -> A) (s : list A) :
  (forall i, nth_error (lower low s) i = option_map low (nth_error s i)) /\
  (forall i, nth_error (upper up s) i = option_map up (nth_error s i)).
Proof. split; intros i; apply nth_error_map. Qed.
Lemma lower_is_lower {A : Type} (low up : A -> A) (isup islow : A -> bool) (s : list A) :
  ((forall c, isup (low c) = false) -> is_lower isup (lower low s) = Ret true) /\
  ((forall c, islow (up c) = false) -> is_upper islow (upper up s) = Ret true).
Proof.
  split; intros H; [rewrite (proj1 (is_lower_ok isup islow (lower low s)))|rewrite (proj2 (is_lower_ok isup islow (upper up s)))]; f_equal;
    apply forallb_forall; intros x X; apply in_map_iff in X; destruct X as (y & <- & _); rewrite H; reflexivity.
Qed.
Lemma ascii_up_lower c : (97 <=? (if (97 <=? c)%Z && (c <=? 122)%Z then (c - 32)%Z else c))%Z && ((if (97 <=? c)%Z && (c <=? 122)%Z then (c - 32)%Z else c) <=? 122)%Z = false.
Proof.
  destruct (Z.leb_spec 97 c), (Z.leb_spec c 122); cbn [andb]; apply andb_false_iff; rewrite !Z.leb_gt; lia.
Qed.

Lemma find_variants_ok {A B : Type} (eqb : A -> B -> bool) (p : A -> bool) (l : list A) (e : B) :
  first_match p l (find_if p l) /\ first_match (fun x => negb (p x)) l (find_if_not p l) /\ first_match (fun x => eqb x e) l (find_elem eqb l e) /\
  last_match p l (rfind_if p l) /\ last_match (fun x => negb (p x)) l (rfind_if_not p l) /\ last_match (fun x => eqb x e) l (rfind_elem eqb l e).
Proof. exact (conj (find_if_ok _ _) (conj (find_if_ok _ _) (conj (find_if_ok _ _) (conj (rfind_if_ok _ _) (conj (rfind_if_ok _ _) (rfind_if_ok _ _)))))). Qed.
