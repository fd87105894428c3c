(** Proofs about filter with a predicate that throws or carries its own state. *)
From Coq Require Import List Bool Arith Lia Permutation.
From Verif Require Import Base SeqModel CallbackModel CallbackSpec CallbackProofs.
Import ListNotations.
Open Scope outcome_scope.

Section Filter.
Context {A S : Type} (f : S -> A -> S * option bool) (junk : nat -> A).
Local Notation find_c := (find_c f).
Local Notation shift_c := (shift_c f).

Lemma nth_mid (l : list A) x r : nth_error (l ++ x :: r) (length l) = Some x.
Proof. rewrite nth_error_app2 by lia. rewrite Nat.sub_diag. reflexivity. Qed.
Lemma set_mid (l : list A) y x r : set_nth (l ++ y :: r) (length l) x = l ++ x :: r.
Proof. induction l; cbn; congruence. Qed.

(** std::find_if *)
Lemma find_run pre : forall st st1 rest dn m, calls f st pre (repeat true (length pre)) st1 ->
  find_c (length pre + m) (length dn) st (dn ++ pre ++ rest) = find_c m (length dn + length pre) st1 (dn ++ pre ++ rest).
Proof.
  induction pre as [|x pre IH]; intros st st1 rest dn m C; cbn in C; inversion C as [|? ? s1 ? ? ? ? E C1]; subst; [rewrite Nat.add_0_r; reflexivity|].
  cbn [length plus CallbackModel.find_c app]. rewrite nth_mid, E. cbn [negb].
  specialize (IH s1 st1 rest (dn ++ [x]) m C1). rewrite <- app_assoc, app_length in IH. cbn [length app] in IH. rewrite IH. f_equal. lia.
Qed.
Lemma find_all_kept l st st' : calls f st l (repeat true (length l)) st' -> find_c (length l) 0 st l = Ret (st', Returned (length l)).
Proof.
  intros C. pose proof (find_run l st st' [] [] 0 C) as H. cbn [length app plus] in H. rewrite Nat.add_0_r, app_nil_r in H. rewrite H. reflexivity.
Qed.
Lemma find_dropped st l pre x post st' : stops_at false f st l pre x post st' -> find_c (length l) 0 st l = Ret (st', Returned (length pre)).
Proof.
  intros (-> & st1 & C & F). pose proof (find_run pre st st1 (x :: post) [] (Datatypes.S (length post)) C) as H. cbn [length app plus] in H.
  rewrite app_length. cbn [length]. rewrite H. cbn. rewrite nth_mid, F. reflexivity.
Qed.
Lemma find_throws st l pre x post st' : throws_at f st l pre (repeat true (length pre)) x post st' -> find_c (length l) 0 st l = Ret (st', Threw).
Proof.
  intros (-> & st1 & C & F). pose proof (find_run pre st st1 (x :: post) [] (Datatypes.S (length post)) C) as H. cbn [length app plus] in H.
  rewrite app_length. cbn [length]. rewrite H. cbn. rewrite nth_mid, F. reflexivity.
Qed.

Lemma kept_le (l : list A) ks : length ks = length l -> length (kept l ks) <= length l.
Proof. revert ks. induction l as [|x l IH]; intros [|k ks] L; cbn in *; try discriminate; [lia|]. injection L as L. specialize (IH _ L). destruct k; cbn; lia. Qed.
Lemma left_length (l : list A) ks i : length ks = length l -> length (left_behind junk i l ks) = length l.
Proof. revert ks i. induction l as [|x l IH]; intros [|k ks] i L; cbn in *; try discriminate; [lia|]. injection L as L. rewrite IH by exact L. reflexivity. Qed.
Lemma app_inv_len {T} (a b c d : list T) : length a = length c -> a ++ b = c ++ d -> a = c /\ b = d.
Proof.
  revert c. induction a as [|x a IH]; intros [|y c] L E; cbn in *; try discriminate; [auto|]. injection L as L. injection E as -> E. destruct (IH _ L E) as [-> ->]. auto.
Qed.

(** the loop that moves *)
Lemma shift_run st l ks st1 : calls f st l ks st1 -> forall K g G rest m,
  shift_c junk (length l + m) (length K + Datatypes.S (length G)) (length K) st (K ++ (g :: G) ++ l ++ rest) =
  shift_c junk m (length K + Datatypes.S (length G) + length l) (length K + length (kept l ks)) st1
    (K ++ kept l ks ++ skipn (length (kept l ks)) ((g :: G) ++ left_behind junk (length K + Datatypes.S (length G)) l ks) ++ rest).
Proof.
  induction 1 as [st|st x st1 k l ks st2 E C IH]; intros K g G rest m.
  - cbn. rewrite !Nat.add_0_r, app_nil_r. reflexivity.
  - cbn [length plus CallbackModel.shift_c].
    assert (N : nth_error (K ++ (g :: G) ++ (x :: l) ++ rest) (length K + Datatypes.S (length G)) = Some x).
    { rewrite app_assoc. replace (length K + Datatypes.S (length G)) with (length (K ++ g :: G)) by (rewrite app_length; reflexivity). apply nth_mid. }
    rewrite N, E. destruct k; cbn [negb kept left_behind length].
    + assert (Q : set_nth (set_nth (K ++ (g :: G) ++ (x :: l) ++ rest) (length K) x) (length K + Datatypes.S (length G)) (junk (length K + Datatypes.S (length G))) =
                  (K ++ [x]) ++ (G ++ [junk (length K + Datatypes.S (length G))]) ++ l ++ rest).
      { cbn [app]. rewrite set_mid. replace (K ++ x :: G ++ x :: l ++ rest) with ((K ++ x :: G) ++ x :: l ++ rest) by (rewrite <- app_assoc; reflexivity).
        replace (length K + Datatypes.S (length G)) with (length (K ++ x :: G)) at 1 by (rewrite app_length; reflexivity).
        rewrite set_mid, <- !app_assoc. cbn. rewrite <- ?app_assoc. reflexivity. }
      rewrite Q. destruct (G ++ [junk (length K + Datatypes.S (length G))]) as [|g' G'] eqn:EG; [destruct G; discriminate|].
      assert (LG : length G' = length G) by (apply (f_equal (@length A)) in EG; rewrite app_length in EG; cbn in EG; lia).
      specialize (IH (K ++ [x]) g' G' rest m). rewrite app_length in IH. cbn [length] in IH. rewrite LG in IH.
      replace (length K + Datatypes.S (length G) + 1) with (length K + 1 + Datatypes.S (length G)) by lia. rewrite IH.
      replace (length K + 1 + length (kept l ks)) with (length K + Datatypes.S (length (kept l ks))) by lia.
      replace (length K + 1 + Datatypes.S (length G) + length l) with (length K + Datatypes.S (length G) + Datatypes.S (length l)) by lia.
      replace (length K + 1 + Datatypes.S (length G)) with (length K + Datatypes.S (length G) + 1) by lia. f_equal. rewrite <- app_assoc. cbn [app]. f_equal. f_equal. f_equal. f_equal.
      cbn [skipn]. rewrite app_comm_cons, <- EG, <- app_assoc. reflexivity.
    + specialize (IH K g (G ++ [x]) rest m). rewrite app_length in IH. cbn [length] in IH.
      replace (length K + Datatypes.S (length G + 1)) with (length K + Datatypes.S (length G) + 1) in IH by lia.
      replace (K ++ (g :: G) ++ (x :: l) ++ rest) with (K ++ (g :: G ++ [x]) ++ l ++ rest) by (cbn; rewrite <- app_assoc; reflexivity). rewrite IH.
      replace (length K + Datatypes.S (length G) + 1 + length l) with (length K + Datatypes.S (length G) + Datatypes.S (length l)) by lia.
      f_equal. f_equal. f_equal. f_equal. f_equal. cbn. rewrite <- app_assoc. reflexivity.
Qed.
Lemma shift_ok st l ks st1 K g : calls f st l ks st1 ->
  exists G, shift_c junk (length l) (length K + 1) (length K) st (K ++ g :: l) = Ret (st1, K ++ kept l ks ++ G, Returned (length K + length (kept l ks))).
Proof.
  intros C. pose proof (shift_run _ _ _ _ C K g [] [] 0) as H. cbn [length app] in H. rewrite Nat.add_0_r, !app_nil_r in H. rewrite H. cbn. eauto.
Qed.
Lemma shift_throws st l ks st1 K g x post st' : calls f st l ks st1 -> f st1 x = (st', None) ->
  shift_c junk (length (l ++ x :: post)) (length K + 1) (length K) st (K ++ g :: l ++ x :: post) =
  Ret (st', K ++ kept l ks ++ skipn (length (kept l ks)) (g :: left_behind junk (length K + 1) l ks) ++ x :: post, Threw).
Proof.
  intros C F. pose proof (shift_run _ _ _ _ C K g [] (x :: post) (Datatypes.S (length post))) as H. cbn [length app] in H. rewrite app_length. cbn [length]. rewrite H.
  cbn [CallbackModel.shift_c]. 
  set (M := skipn (length (kept l ks)) (g :: left_behind junk (length K + 1) l ks)).
  assert (L : length K + 1 + length l = length (K ++ kept l ks ++ M)).
  { unfold M. pose proof (kept_le l ks (calls_length _ _ _ _ _ C)). pose proof (left_length l ks (length K + 1) (calls_length _ _ _ _ _ C)) as E.
    rewrite !app_length, skipn_length. cbn [length]. lia. }
  rewrite L. replace (K ++ kept l ks ++ M ++ x :: post) with ((K ++ kept l ks ++ M) ++ x :: post) by (rewrite <- !app_assoc; reflexivity).
  rewrite nth_mid, F. rewrite <- !app_assoc. reflexivity.
Qed.

(** filter *)
Lemma kept_all (l : list A) : kept l (repeat true (length l)) = l.
Proof. induction l; cbn; congruence. Qed.
Lemma kept_app (l1 l2 : list A) ks1 ks2 : length ks1 = length l1 -> kept (l1 ++ l2) (ks1 ++ ks2) = kept l1 ks1 ++ kept l2 ks2.
Proof.
  revert ks1. induction l1 as [|x l1 IH]; intros [|k ks1] L; cbn in *; try discriminate; [reflexivity|]. injection L as L. rewrite (IH _ L). destruct k; reflexivity.
Qed.
Lemma left_app l1 l2 ks1 ks2 : length ks1 = length l1 -> forall i, left_behind junk i (l1 ++ l2) (ks1 ++ ks2) = left_behind junk i l1 ks1 ++ left_behind junk (i + length l1) l2 ks2.
Proof.
  revert ks1. induction l1 as [|x l1 IH]; intros [|k ks1] L i; cbn in *; try discriminate; [rewrite Nat.add_0_r; reflexivity|].
  injection L as L. rewrite (IH _ L). f_equal. f_equal. f_equal. lia.
Qed.
(** what is left of [l] when the call for the element after [l] throws *)
Definition remains (l : list A) (ks : list bool) : list A := kept l ks ++ skipn (length (kept l ks)) (left_behind junk 0 l ks).

Lemma split_trues ks : ks = repeat true (length ks) \/ exists n ks', ks = repeat true n ++ false :: ks'.
Proof.
  induction ks as [|[|] ks IH]; [left; reflexivity| |right; exists 0, ks; reflexivity].
  destruct IH as [->|(n & ks' & ->)]; [left; cbn; rewrite repeat_length; reflexivity|right; exists (Datatypes.S n), ks'; reflexivity].
Qed.
Lemma calls_split st l ks1 ks2 st' : calls f st l (ks1 ++ ks2) st' ->
  exists l1 l2 st1, l = l1 ++ l2 /\ calls f st l1 ks1 st1 /\ calls f st1 l2 ks2 st'.
Proof.
  revert st l. induction ks1 as [|k ks1 IH]; intros st l C.
  - exists [], l, st. split; [reflexivity|]. split; [constructor|exact C].
  - cbn in C. inversion C as [|? x s1 ? l0 ? ? E C1]; subst. destruct (IH _ _ C1) as (l1 & l2 & st1 & -> & D1 & D2).
    exists (x :: l1), l2, st1. split; [reflexivity|]. split; [econstructor; eauto|exact D2].
Qed.
Lemma split_first_drop st l n ks st' : calls f st l (repeat true n ++ false :: ks) st' ->
  exists pre x post st1, l = pre ++ x :: post /\ length pre = n /\ stops_at false f st l pre x post st1 /\ calls f st1 post ks st'.
Proof.
  intros C. destruct (calls_split _ _ _ _ _ C) as (pre & l2 & st1 & -> & C1 & C2). inversion C2 as [|? x s1 ? post ? ? E C3]; subst.
  pose proof (calls_length _ _ _ _ _ C1) as L. rewrite repeat_length in L. exists pre, x, post, s1. subst n. split; [reflexivity|]. split; [reflexivity|].
  split; [|exact C3]. split; [reflexivity|]. exists st1. split; [exact C1|exact E].
Qed.

(** both phases *)
Lemma filter_found carried st pre x post st1 : stops_at false f st (pre ++ x :: post) pre x post st1 ->
  forall ks st2, calls f (if carried : bool then st else st1) post ks st2 ->
  filter_c f carried junk st (pre ++ x :: post) = Ret (st2, pre ++ kept post ks, Returned tt).
Proof.
  intros Sa ks st2 C. unfold filter_c. rewrite (find_dropped _ _ _ _ _ _ Sa). cbn [obind].
  replace (length pre =? length (pre ++ x :: post)) with false by (symmetry; apply Nat.eqb_neq; rewrite app_length; cbn; lia).
  replace (length (pre ++ x :: post) - (length pre + 1)) with (length post) by (rewrite app_length; cbn; lia).
  destruct (shift_ok _ _ _ _ pre x C) as (G & ->). cbn [obind]. unfold erase_from.
  replace (length pre + length (kept post ks) <=? length (pre ++ kept post ks ++ G)) with true by (symmetry; apply Nat.leb_le; rewrite !app_length; lia).
  cbn [obind]. rewrite app_assoc. replace (length pre + length (kept post ks)) with (length (pre ++ kept post ks)) by apply app_length.
  rewrite firstn_app, Nat.sub_diag, firstn_all. cbn. rewrite app_nil_r. reflexivity.
Qed.
Lemma filter_found_throws carried st pre x post st1 : stops_at false f st (pre ++ x :: post) pre x post st1 ->
  forall p1 ks z p2 st2, throws_at f (if carried : bool then st else st1) post p1 ks z p2 st2 ->
  filter_c f carried junk st (pre ++ x :: post) = Ret (st2, remains (pre ++ x :: p1) (repeat true (length pre) ++ false :: ks) ++ z :: p2, Threw).
Proof.
  intros Sa p1 ks z p2 st2 (-> & s3 & C & F). unfold filter_c. rewrite (find_dropped _ _ _ _ _ _ Sa). cbn [obind].
  replace (length pre =? length (pre ++ x :: p1 ++ z :: p2)) with false by (symmetry; apply Nat.eqb_neq; rewrite app_length; cbn; lia).
  replace (length (pre ++ x :: p1 ++ z :: p2) - (length pre + 1)) with (length (p1 ++ z :: p2)) by (rewrite !app_length; cbn [length]; rewrite !app_length; cbn [length]; lia).
  rewrite (shift_throws _ _ _ _ pre x z p2 st2 C F). cbn [obind]. f_equal. f_equal. f_equal. unfold remains.
  rewrite kept_app, kept_all, left_app by apply repeat_length. cbn [kept left_behind].
  rewrite app_length, skipn_app, left_length by apply repeat_length. rewrite (skipn_all2 (left_behind junk 0 pre _)) by (rewrite left_length by apply repeat_length; lia).
  replace (length pre + length (kept p1 ks) - length pre) with (length (kept p1 ks)) by lia. cbn [app plus]. rewrite <- !app_assoc. reflexivity.
Qed.
Lemma remains_all l : remains l (repeat true (length l)) = l.
Proof. unfold remains. rewrite kept_all, skipn_all2 by (rewrite left_length by apply repeat_length; lia). apply app_nil_r. Qed.

Lemma filter_returns st l ks st' : calls f st l ks st' -> filter_c f false junk st l = Ret (st', kept l ks, Returned tt).
Proof.
  intros C. pose proof (calls_length _ _ _ _ _ C) as L. destruct (split_trues ks) as [E|(n & ks' & ->)].
  - rewrite E, L in C |- *. unfold filter_c. rewrite (find_all_kept _ _ _ C). cbn [obind]. rewrite Nat.eqb_refl, kept_all. reflexivity.
  - destruct (split_first_drop _ _ _ _ _ C) as (pre & x & post & st1 & -> & <- & Sa & C2). rewrite (filter_found false _ _ _ _ _ Sa _ _ C2).
    rewrite kept_app, kept_all by apply repeat_length. reflexivity.
Qed.
Lemma filter_thrown st l pre ks x post st' : throws_at f st l pre ks x post st' ->
  filter_c f false junk st l = Ret (st', remains pre ks ++ x :: post, Threw).
Proof.
  intros (-> & st1 & C & F). pose proof (calls_length _ _ _ _ _ C) as L. destruct (split_trues ks) as [E|(n & ks' & ->)].
  - rewrite E, L in C |- *. unfold filter_c. rewrite (find_throws st (pre ++ x :: post) pre x post st'). 2: split; [reflexivity|exists st1; auto].
    cbn [obind]. rewrite remains_all. reflexivity.
  - destruct (split_first_drop _ _ _ _ _ C) as (p & d & q & s2 & -> & <- & (_ & Sa) & C2). rewrite <- app_assoc. cbn [app].
    rewrite (filter_found_throws false st p d (q ++ x :: post) s2 (conj eq_refl Sa) q ks' x post st'); [reflexivity|].
    split; [reflexivity|]. exists st1. split; assumption.
Qed.
Lemma filter_spec st l st' l' r : filter_c f false junk st l = Ret (st', l', r) <->
  (exists ks, r = Returned tt /\ calls f st l ks st' /\ l' = kept l ks) \/
  (exists pre ks x post, r = Threw /\ throws_at f st l pre ks x post st' /\
     l' = kept pre ks ++ skipn (length (kept pre ks)) (left_behind junk 0 pre ks) ++ x :: post).
Proof.
  split.
  - intros H. destruct (calls_or_throws f l st) as [(ks & st1 & C)|(pre & ks & x & post & st1 & T)].
    + rewrite (filter_returns _ _ _ _ C) in H. injection H as <- <- <-. left. eauto.
    + rewrite (filter_thrown _ _ _ _ _ _ _ T) in H. injection H as <- <- <-. right. exists pre, ks, x, post. split; [reflexivity|]. split; [exact T|].
      unfold remains. rewrite <- app_assoc. reflexivity.
  - intros [(ks & -> & C & ->)|(pre & ks & x & post & -> & T & ->)]; [exact (filter_returns _ _ _ _ C)|].
    rewrite (filter_thrown _ _ _ _ _ _ _ T). unfold remains. rewrite <- app_assoc. reflexivity.
Qed.
Lemma filter_defined carried st l : exists st' l' r, filter_c f carried junk st l = Ret (st', l', r).
Proof.
  destruct (all_c f st l) as [s1 e] eqn:E. apply all_spec in E. destruct E as [(-> & C)|[(pre & x & post & -> & Sa)|(pre & x & post & -> & T)]].
  - unfold filter_c. rewrite (find_all_kept _ _ _ C). cbn [obind]. rewrite Nat.eqb_refl. eauto.
  - assert (l = pre ++ x :: post) by (destruct Sa; assumption). subst l.
    destruct (calls_or_throws f post (if carried then st else s1)) as [(ks & st1 & C)|(p1 & ks & z & p2 & st1 & T)].
    + rewrite (filter_found _ _ _ _ _ _ Sa _ _ C). eauto.
    + rewrite (filter_found_throws _ _ _ _ _ _ Sa _ _ _ _ _ T). eauto.
  - unfold filter_c. rewrite (find_throws _ _ _ _ _ _ T). cbn [obind]. eauto.
Qed.

(** consequences for the elements *)
Lemma filter_throws_keeps st l st' l' : filter_c f false junk st l = Ret (st', l', Threw) ->
  exists pre ks x post, throws_at f st l pre ks x post st' /\ length l' = length l /\
  skipn (length pre) l' = x :: post /\ firstn (length (kept pre ks)) l' = kept pre ks.
Proof.
  intros H. apply filter_spec in H. destruct H as [(ks & D & _)|(pre & ks & x & post & _ & T & ->)]; [discriminate|].
  exists pre, ks, x, post. split; [exact T|]. destruct T as (-> & s1 & C & _). pose proof (calls_length _ _ _ _ _ C) as L. pose proof (kept_le _ _ L) as KL. pose proof (left_length pre ks 0 L) as LL.
  rewrite app_assoc. assert (P : length (kept pre ks ++ skipn (length (kept pre ks)) (left_behind junk 0 pre ks)) = length pre) by (rewrite app_length, skipn_length; lia).
  split; [rewrite !(app_length _ (x :: post)), P; reflexivity|]. split.
  - rewrite skipn_app, P, Nat.sub_diag, skipn_all2 by lia. reflexivity.
  - rewrite <- app_assoc, firstn_app, Nat.sub_diag, firstn_all. cbn. apply app_nil_r.
Qed.
Lemma filter_throws_unchanged st l pre x post st' : throws_at f st l pre (repeat true (length pre)) x post st' ->
  filter_c f false junk st l = Ret (st', l, Threw).
Proof. intros T. rewrite (filter_thrown _ _ _ _ _ _ _ T), remains_all. destruct T as (-> & _). reflexivity. Qed.

(** a predicate whose answers do not depend on its state *)
Lemma filter_stateless (p : A -> bool) carried st l : (forall s x, exists s', f s x = (s', Some (p x))) ->
  exists st', filter_c f carried junk st l = Ret (st', filter p l, Returned tt).
Proof.
  intros P. assert (C : forall l s, exists s', calls f s l (map p l) s').
  { intros l0. induction l0 as [|x l0 IH]; intros s; [exists s; constructor|]. destruct (P s x) as (s1 & E). destruct (IH s1) as (s2 & C). exists s2. cbn. econstructor; eauto. }
  assert (K : forall l, kept l (map p l) = filter p l) by (intros l0; induction l0 as [|x l0 IH]; cbn; [reflexivity|rewrite IH; reflexivity]).
  destruct (C l st) as (s1 & C1). destruct (split_trues (map p l)) as [E|(n & ks' & E)].
  - exists s1. rewrite map_length in E. pose proof (K l) as K1. rewrite E in C1, K1. rewrite kept_all in K1. unfold filter_c. rewrite (find_all_kept _ _ _ C1). cbn [obind]. rewrite Nat.eqb_refl.
    rewrite <- K1. reflexivity.
  - rewrite E in C1. destruct (split_first_drop _ _ _ _ _ C1) as (pre & x & post & s2 & -> & <- & Sa & C2).
    destruct (C post (if carried then st else s2)) as (s3 & C3). exists s3. rewrite (filter_found carried _ _ _ _ _ Sa _ _ C3), K.
    rewrite map_app in E. cbn in E. apply app_inv_len in E; [|rewrite map_length, repeat_length; reflexivity]. destruct E as [E1 E2]. injection E2 as E2 _.
    rewrite <- (K (pre ++ x :: post)), map_app, E1. cbn [map]. rewrite kept_app, kept_all by apply repeat_length. cbn. rewrite E2, K. reflexivity.
Qed.
End Filter.

(** where moving is copying, no new values appear *)
Lemma left_copied {A} (junk : nat -> A) (l : list A) : forall ks i, length ks = length l -> (forall j x, nth_error l j = Some x -> junk (i + j) = x) -> left_behind junk i l ks = l.
Proof.
  induction l as [|x l IH]; intros [|k ks] i L J; cbn in *; try discriminate; [reflexivity|]. injection L as L. rewrite (IH ks (i + 1) L).
  - f_equal. destruct k; [|reflexivity]. rewrite <- (Nat.add_0_r i). apply J. reflexivity.
  - intros j y N. rewrite <- (J (Datatypes.S j) y N). f_equal. lia.
Qed.
Lemma kept_in {A} (l : list A) ks y : In y (kept l ks) -> In y l.
Proof. revert ks. induction l as [|x l IH]; intros [|[|] ks]; cbn; try tauto; [intros [H|H]; [auto|right; eauto]|intros H; right; eauto]. Qed.
Lemma filter_copies {A S} (f : S -> A -> S * option bool) (junk : nat -> A) st l st' l' : (forall i x, nth_error l i = Some x -> junk i = x) ->
  filter_c f false junk st l = Ret (st', l', Threw) -> forall y, In y l' -> In y l.
Proof.
  intros J H y I. apply filter_spec in H. destruct H as [(ks & D & _)|(pre & ks & x & post & _ & (-> & s1 & C & _) & ->)]; [discriminate|].
  rewrite left_copied in I.
  - apply in_app_or in I. destruct I as [I|I]; [apply in_or_app; left; exact (kept_in _ _ _ I)|]. apply in_app_or in I. apply in_or_app. destruct I as [I|I]; [left|right; exact I].
    rewrite <- (firstn_skipn (length (kept pre ks)) pre). apply in_or_app. right. exact I.
  - exact (calls_length _ _ _ _ _ C).
  - intros j z N. apply J. rewrite nth_error_app1; [exact N|]. apply nth_error_Some. cbn [plus]. rewrite N. discriminate.
Qed.
