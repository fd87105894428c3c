(** Lists of thread states and of events: replacing the n-th element, order of elements. *)
From Coq Require Import List Arith Lia Permutation.
Import ListNotations.

Fixpoint update {A} (n : nat) (x : A) (l : list A) : list A :=
  match l, n with
  | [], _ => []
  | _ :: l, O => x :: l
  | y :: l, S n => y :: update n x l
  end.
(** sum of [f] over the list *)
Fixpoint sum_of {A} (f : A -> nat) (l : list A) : nat :=
  match l with [] => 0 | x :: l => f x + sum_of f l end.

(** [x] comes before [y] in [l] *)
Definition before {A} (l : list A) (x y : A) : Prop := exists l1 l2 l3, l = l1 ++ x :: l2 ++ y :: l3.

Section Lemmas.
Context {A : Type}.
Lemma update_length n (x : A) l : length (update n x l) = length l.
Proof. revert n. induction l; intros []; simpl; auto. Qed.
Lemma update_same n (x y : A) l : nth_error l n = Some y -> nth_error (update n x l) n = Some x.
Proof. revert n. induction l; intros []; simpl; auto; discriminate. Qed.
Lemma update_other n m (x : A) l : n <> m -> nth_error (update n x l) m = nth_error l m.
Proof. revert n m. induction l; intros [] [] N; simpl; auto; try congruence. Qed.
Lemma update_inv n m (x y : A) l : nth_error (update n x l) m = Some y ->
  (m = n /\ y = x /\ n < length l) \/ (m <> n /\ nth_error l m = Some y).
Proof.
  intros H. destruct (Nat.eq_dec n m) as [->|N].
  - left. destruct (nth_error l m) eqn:E.
    + rewrite (update_same _ _ _ _ E) in H. split; [reflexivity|]. split; [congruence|].
      apply nth_error_Some. congruence.
    + apply nth_error_None in E. assert (nth_error (update m x l) m = None) by (apply nth_error_None; rewrite update_length; exact E).
      congruence.
  - right. rewrite update_other in H by exact N. auto.
Qed.
Lemma sum_update (f : A -> nat) n x y l : nth_error l n = Some y -> sum_of f (update n x l) + f y = sum_of f l + f x.
Proof.
  revert n. induction l as [|a l IH]; intros [|n] H; simpl in *; try discriminate.
  - injection H as ->. lia.
  - specialize (IH _ H). lia.
Qed.
Lemma sum_app (f : A -> nat) l l' : sum_of f (l ++ l') = sum_of f l + sum_of f l'.
Proof. induction l; simpl; lia. Qed.
Lemma sum_ge (f : A -> nat) n y l : nth_error l n = Some y -> f y <= sum_of f l.
Proof. revert n. induction l; intros [|n] H; simpl in *; try discriminate; [injection H as ->; lia|specialize (IHl _ H); lia]. Qed.
Lemma sum_ge2 (f : A -> nat) n m x y l : n <> m -> nth_error l n = Some x -> nth_error l m = Some y -> f x + f y <= sum_of f l.
Proof.
  revert n m. induction l as [|a l IH]; intros [|n] [|m] N Hn Hm; simpl in *; try discriminate; try lia.
  - injection Hn as ->. pose proof (sum_ge f _ _ _ Hm). lia.
  - injection Hm as ->. pose proof (sum_ge f _ _ _ Hn). lia.
  - assert (n <> m) by lia. specialize (IH n m H Hn Hm). lia.
Qed.
Lemma sum_zero (f : A -> nat) l : (forall n y, nth_error l n = Some y -> f y = 0) -> sum_of f l = 0.
Proof.
  induction l as [|a l IH]; intros H; simpl; [reflexivity|]. rewrite (H 0 a eq_refl), IH; [reflexivity|].
  intros n y Hn. apply (H (S n) y Hn).
Qed.
Lemma sum_pos (f : A -> nat) l : 0 < sum_of f l -> exists n y, nth_error l n = Some y /\ 0 < f y.
Proof.
  induction l as [|a l IH]; simpl; intros H; [lia|].
  destruct (f a) eqn:E.
  - destruct IH as (n & y & Hn & Hy); [lia|]. exists (S n), y. auto.
  - exists 0, a. split; [reflexivity|lia].
Qed.
End Lemmas.

Lemma snoc_case {A} (l : list A) : l = [] \/ exists l0 x, l = l0 ++ [x].
Proof. destruct l as [|x l]; [auto|]. right. destruct (exists_last (l := x :: l)) as (l0 & y & E); [discriminate|eauto]. Qed.
Lemma before_app_l {A} (l l' : list A) x y : before l x y -> before (l ++ l') x y.
Proof.
  intros (l1 & l2 & l3 & ->). exists l1, l2, (l3 ++ l').
  rewrite <- !app_assoc. simpl. rewrite <- !app_assoc. reflexivity.
Qed.
Lemma before_last {A} (l : list A) x y : In x l -> before (l ++ [y]) x y.
Proof. intros H. apply in_split in H. destruct H as (l1 & l2 & ->). exists l1, l2, []. rewrite <- app_assoc. reflexivity. Qed.
Lemma before_snoc {A} (l : list A) x y z : before (l ++ [z]) x y -> before l x y \/ (y = z /\ In x l).
Proof.
  intros (l1 & l2 & l3 & E). destruct (snoc_case l3) as [->|(l3' & w & ->)].
  - right. assert (E' : l ++ [z] = (l1 ++ x :: l2) ++ [y]) by (rewrite <- app_assoc; exact E).
    apply app_inj_tail in E'. destruct E' as [-> ->]. split; [reflexivity|]. apply in_elt.
  - left. assert (E' : l ++ [z] = (l1 ++ x :: l2 ++ y :: l3') ++ [w]).
    { rewrite E. rewrite <- !app_assoc. simpl. rewrite <- !app_assoc. reflexivity. }
    apply app_inj_tail in E'. destruct E' as [-> _]. exists l1, l2, l3'. reflexivity.
Qed.
Lemma before_in {A} (l : list A) x y : before l x y -> In x l /\ In y l.
Proof. intros (l1 & l2 & l3 & ->). split; [apply in_elt|]. apply in_or_app. right. right. apply in_elt. Qed.

Lemma NoDup_snoc {A} (l : list A) x : NoDup l -> ~ In x l -> NoDup (l ++ [x]).
Proof.
  intros N X. rewrite <- (rev_involutive (l ++ [x])). apply NoDup_rev. rewrite rev_app_distr. simpl.
  constructor; [rewrite <- in_rev; exact X|]. apply NoDup_rev. exact N.
Qed.

(** Sums and counts *)
Lemma sum_repeat {A} (f : A -> nat) x n : sum_of f (repeat x n) = n * f x.
Proof. induction n; simpl; lia. Qed.
Lemma sum_map {A B} (f : B -> nat) (g : A -> B) l : sum_of f (map g l) = sum_of (fun x => f (g x)) l.
Proof. induction l; simpl; lia. Qed.
Lemma sum_ext {A} (f g : A -> nat) l : (forall x, f x = g x) -> sum_of f l = sum_of g l.
Proof. intros H. induction l; simpl; [reflexivity|]. rewrite H, IHl. reflexivity. Qed.
Lemma sum_le {A} (f g : A -> nat) l : (forall x, f x <= g x) -> sum_of f l <= sum_of g l.
Proof. intros H. induction l; simpl; [lia|]. specialize (H a). lia. Qed.

Definition cnt (l : list nat) (x : nat) : nat := count_occ Nat.eq_dec l x.
Arguments cnt : simpl never.
Lemma cnt_app l l' x : cnt (l ++ l') x = cnt l x + cnt l' x.
Proof. apply count_occ_app. Qed.
Definition one (t x : nat) : nat := if Nat.eq_dec t x then 1 else 0.
Lemma cnt_cons t l x : cnt (t :: l) x = one t x + cnt l x.
Proof. unfold cnt, one. simpl. destruct (Nat.eq_dec t x); reflexivity. Qed.
Lemma cnt_nil x : cnt [] x = 0.
Proof. reflexivity. Qed.
Lemma one_self t : one t t = 1.
Proof. unfold one. destruct (Nat.eq_dec t t); congruence. Qed.
Lemma one_other t x : x <> t -> one t x = 0.
Proof. unfold one. destruct (Nat.eq_dec t x); congruence. Qed.
Lemma one_next n x : one n x + (if x <? n then 1 else 0) = if x <? S n then 1 else 0.
Proof. unfold one. destruct (Nat.eq_dec n x), (Nat.ltb_spec x n), (Nat.ltb_spec x (S n)); lia. Qed.
Lemma cnt_in l x : In x l <-> 0 < cnt l x.
Proof. apply count_occ_In. Qed.
Lemma flat_map_snoc {A B} (f : A -> list B) l x : flat_map f (l ++ [x]) = flat_map f l ++ f x.
Proof. rewrite flat_map_app. simpl. rewrite app_nil_r. reflexivity. Qed.
Lemma same_perm l l' : (forall x, cnt l x = cnt l' x) -> Permutation l l'.
Proof. intros H. apply (Permutation_count_occ Nat.eq_dec). exact H. Qed.
