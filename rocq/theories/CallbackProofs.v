(** Proofs about callbacks that throw. *)
From Coq Require Import List Bool Arith Lia.
From Verif Require Import Base SeqModel CallbackModel CallbackSpec.
Import ListNotations.
Open Scope outcome_scope.

Section Calls.
Context {A B S : Type}.
Lemma calls_length (f : S -> A -> S * option B) st l ys st' : calls f st l ys st' -> length ys = length l.
Proof. induction 1; cbn; congruence. Qed.
Lemma calls_fun (f : S -> A -> S * option B) st l ys st' : calls f st l ys st' -> forall zs st'', calls f st l zs st'' -> zs = ys /\ st'' = st'.
Proof.
  induction 1 as [st|st x st1 y l ys st2 E C IH]; intros zs st'' D; inversion D; subst; [auto|].
  match goal with H : f st x = _ |- _ => rewrite E in H; injection H as <- <- end.
  match goal with H : calls f st1 l _ _ |- _ => destruct (IH _ _ H) as [-> ->] end. auto.
Qed.
Lemma calls_app (f : S -> A -> S * option B) st l1 ys1 st1 l2 ys2 st2 :
  calls f st l1 ys1 st1 -> calls f st1 l2 ys2 st2 -> calls f st (l1 ++ l2) (ys1 ++ ys2) st2.
Proof. induction 1; cbn; intros; [assumption|]. econstructor; eauto. Qed.
(** either all calls return or one throws *)
Lemma calls_or_throws (f : S -> A -> S * option B) l : forall st,
  (exists ys st', calls f st l ys st') \/ (exists pre ys x post st', throws_at f st l pre ys x post st').
Proof.
  induction l as [|x l IH]; intros st.
  - left. exists [], st. constructor.
  - destruct (f st x) as [st1 [y|]] eqn:E.
    + destruct (IH st1) as [(ys & st' & C)|(pre & ys & z & post & st' & L & st2 & C & T)].
      * left. exists (y :: ys), st'. econstructor; eauto.
      * right. exists (x :: pre), (y :: ys), z, post, st'. split; [cbn; congruence|]. exists st2. split; [econstructor; eauto|exact T].
    + right. exists [], [], x, l, st1. split; [reflexivity|]. exists st. split; [constructor|exact E].
Qed.
End Calls.

Section Stops.
Context {A S : Type} (f : S -> A -> S * option bool).
Lemma any_spec l : forall st st' r, any_c f st l = (st', r) <->
  (r = Returned false /\ calls f st l (repeat false (length l)) st') \/
  (exists pre x post, r = Returned true /\ stops_at true f st l pre x post st') \/
  (exists pre x post, r = Threw /\ throws_at f st l pre (repeat false (length pre)) x post st').
Proof.
  induction l as [|x l IH]; intros st st' r; cbn [any_c length repeat].
  - split.
    + intros H. injection H as <- <-. left. split; [reflexivity|constructor].
    + intros [(-> & C)|[(pre & y & post & _ & (L & _))|(pre & y & post & _ & (L & _))]]; [|destruct pre; discriminate|destruct pre; discriminate].
      inversion C; subst. reflexivity.
  - destruct (f st x) as [st1 [[|]|]] eqn:E.
    + split.
      * intros H. injection H as <- <-. right. left. exists [], x, l. split; [reflexivity|]. split; [reflexivity|]. exists st. split; [constructor|exact E].
      * intros [(-> & C)|[(pre & y & post & -> & (L & st2 & C & F))|(pre & y & post & -> & (L & st2 & C & F))]].
        -- inversion C; subst. congruence.
        -- destruct pre as [|z pre]; cbn in L; injection L as <- ->; inversion C; subst; congruence.
        -- destruct pre as [|z pre]; cbn in L; injection L as <- ->; inversion C; subst; congruence.
    + rewrite IH. split.
      * intros [(-> & C)|[(pre & y & post & -> & (-> & st2 & C & F))|(pre & y & post & -> & (-> & st2 & C & F))]].
        -- left. split; [reflexivity|]. econstructor; eauto.
        -- right. left. exists (x :: pre), y, post. split; [reflexivity|]. split; [reflexivity|]. exists st2. split; [econstructor; eauto|exact F].
        -- right. right. exists (x :: pre), y, post. split; [reflexivity|]. split; [reflexivity|]. exists st2. split; [econstructor; eauto|exact F].
      * intros [(-> & C)|[(pre & y & post & -> & (L & st2 & C & F))|(pre & y & post & -> & (L & st2 & C & F))]].
        -- left. split; [reflexivity|]. inversion C; subst. rewrite E in *. congruence.
        -- destruct pre as [|z pre]; cbn in L; injection L as <- ->; inversion C; subst; [congruence|].
           right. left. exists pre, y, post. split; [reflexivity|]. split; [reflexivity|]. exists st2. split; [|exact F]. match goal with H : f st x = (?s, _), K : calls f ?s _ _ _ |- _ => rewrite E in H; injection H as <-; exact K end.
        -- destruct pre as [|z pre]; cbn in L; injection L as <- ->; inversion C; subst; [congruence|].
           right. right. exists pre, y, post. split; [reflexivity|]. split; [reflexivity|]. exists st2. split; [|exact F]. match goal with H : f st x = (?s, _), K : calls f ?s _ _ _ |- _ => rewrite E in H; injection H as <-; exact K end.
    + split.
      * intros H. injection H as <- <-. right. right. exists [], x, l. split; [reflexivity|]. split; [reflexivity|]. exists st. split; [constructor|exact E].
      * intros [(-> & C)|[(pre & y & post & -> & (L & st2 & C & F))|(pre & y & post & -> & (L & st2 & C & F))]].
        -- inversion C; subst. congruence.
        -- destruct pre as [|z pre]; cbn in L; injection L as <- ->; inversion C; subst; congruence.
        -- destruct pre as [|z pre]; cbn in L; injection L as <- ->; inversion C; subst; congruence.
Qed.
End Stops.

(** all and find_if in terms of any *)
Section Reduce.
Context {A S : Type}.
Definition flip (f : S -> A -> S * option bool) st x := match f st x with (st, o) => (st, option_map negb o) end.
Definition flip_result (e : ended bool) := match e with Returned b => Returned (negb b) | Threw => Threw end.
Lemma flip_calls f l : forall st ks st', calls f st l ks st' -> calls (flip f) st l (map negb ks) st'.
Proof.
  intros st ks st' C. induction C as [st|st x st1 y l ys st2 E C IH]; cbn; [constructor|]. econstructor; [|exact IH]. unfold flip. rewrite E. reflexivity.
Qed.
Lemma flip_flip f st x : flip (flip f) st x = f st x.
Proof. unfold flip. destruct (f st x) as [st' [b|]]; cbn; [rewrite negb_involutive|]; reflexivity. Qed.
Lemma calls_ext {B} (f g : S -> A -> S * option B) : (forall st x, f st x = g st x) -> forall st l ys st', calls f st l ys st' -> calls g st l ys st'.
Proof. intros H st l ys st' C. induction C; econstructor; eauto. rewrite <- H. assumption. Qed.
Lemma map_negb_repeat b n : map negb (repeat b n) = repeat (negb b) n.
Proof. induction n; cbn; congruence. Qed.
Lemma all_flip f l : forall st, all_c f st l = match any_c (flip f) st l with (st, e) => (st, flip_result e) end.
Proof.
  induction l as [|x l IH]; intros st; cbn; [reflexivity|]. unfold flip at 1. destruct (f st x) as [st1 [[|]|]]; cbn; auto.
Qed.
Lemma flip_stops b f st l pre x post st' : stops_at b f st l pre x post st' <-> stops_at (negb b) (flip f) st l pre x post st'.
Proof.
  assert (H : forall b g, stops_at b g st l pre x post st' -> stops_at (negb b) (flip g) st l pre x post st').
  { intros c g (L & st1 & C & F). split; [exact L|]. exists st1. split.
    - apply flip_calls in C. rewrite map_negb_repeat in C. exact C.
    - unfold flip. rewrite F. reflexivity. }
  split; [apply H|]. intros K. apply H in K. rewrite negb_involutive in K. destruct K as (L & st1 & C & F).
  split; [exact L|]. exists st1. split; [exact (calls_ext _ _ (flip_flip f) _ _ _ _ C)|rewrite flip_flip in F; exact F].
Qed.
Lemma flip_throws f st l pre ks x post st' : throws_at f st l pre ks x post st' <-> throws_at (flip f) st l pre (map negb ks) x post st'.
Proof.
  assert (H : forall g ks, throws_at g st l pre ks x post st' -> throws_at (flip g) st l pre (map negb ks) x post st').
  { intros g js (L & st1 & C & F). split; [exact L|]. exists st1. split; [exact (flip_calls _ _ _ _ _ C)|]. unfold flip. rewrite F. reflexivity. }
  split; [apply H|]. intros K. apply H in K. rewrite map_map in K. rewrite (map_ext _ (fun b => b)), map_id in K by apply negb_involutive.
  destruct K as (L & st1 & C & F). split; [exact L|]. exists st1. split; [exact (calls_ext _ _ (flip_flip f) _ _ _ _ C)|rewrite flip_flip in F; exact F].
Qed.
Lemma all_spec (f : S -> A -> S * option bool) l st st' r : all_c f st l = (st', r) <->
  (r = Returned true /\ calls f st l (repeat true (length l)) st') \/
  (exists pre x post, r = Returned false /\ stops_at false f st l pre x post st') \/
  (exists pre x post, r = Threw /\ throws_at f st l pre (repeat true (length pre)) x post st').
Proof.
  rewrite all_flip. destruct (any_c (flip f) st l) as [st1 e] eqn:E.
  assert (X : (st1, flip_result e) = (st', r) <-> any_c (flip f) st l = (st', flip_result r)).
  { rewrite E. split; intros H; injection H as H1 H2; subst; f_equal; [destruct e as [[|]|]; reflexivity|]. destruct r as [[|]|]; reflexivity. }
  rewrite X, any_spec. split.
  - intros [(R & C)|[(pre & x & post & R & T)|(pre & x & post & R & T)]].
    + left. destruct r as [[|]|]; try discriminate. split; [reflexivity|]. apply flip_calls in C. rewrite map_negb_repeat in C. exact (calls_ext _ _ (flip_flip f) _ _ _ _ C).
    + right. left. destruct r as [[|]|]; try discriminate. exists pre, x, post. split; [reflexivity|]. apply flip_stops. exact T.
    + right. right. destruct r as [[|]|]; try discriminate. exists pre, x, post. split; [reflexivity|]. apply flip_throws. rewrite map_negb_repeat. exact T.
  - intros [(-> & C)|[(pre & x & post & -> & T)|(pre & x & post & -> & T)]].
    + left. split; [reflexivity|]. apply flip_calls in C. rewrite map_negb_repeat in C. exact C.
    + right. left. exists pre, x, post. split; [reflexivity|]. apply flip_stops in T. exact T.
    + right. right. exists pre, x, post. split; [reflexivity|]. apply flip_throws in T. rewrite map_negb_repeat in T. exact T.
Qed.
(** find_if stops where any does *)
Lemma find_any (f : S -> A -> S * option bool) l : forall st i, find_if_c f st i l =
  match any_c f st l with
  | (st', Threw) => (st', Threw)
  | (st', Returned false) => (st', Returned (i + length l))
  | (st', Returned true) => (st', match find_if_c f st i l with (_, e) => e end)
  end.
Proof.
  induction l as [|x l IH]; intros st i; cbn; [rewrite Nat.add_0_r; reflexivity|]. destruct (f st x) as [st1 [[|]|]]; cbn; [reflexivity| |reflexivity].
  rewrite IH. destruct (any_c f st1 l) as [st2 [[|]|]]; [reflexivity|f_equal; f_equal; lia|reflexivity].
Qed.
Lemma find_stop (f : S -> A -> S * option bool) pre : forall st i x post st', stops_at true f st (pre ++ x :: post) pre x post st' -> find_if_c f st i (pre ++ x :: post) = (st', Returned (i + length pre)).
Proof.
  induction pre as [|y pre IH]; intros st i x post st' (_ & st1 & C & F); cbn in C |- *; inversion C; subst.
  - rewrite F. rewrite Nat.add_0_r. reflexivity.
  - match goal with H : f st y = _ |- _ => rewrite H end. rewrite (IH _ (i + 1) x post st'); [f_equal; f_equal; lia|].
    split; [reflexivity|]. exists st1. split; assumption.
Qed.
Lemma find_spec (f : S -> A -> S * option bool) l st st' r : find_if_c f st 0 l = (st', r) <->
  (r = Returned (length l) /\ calls f st l (repeat false (length l)) st') \/
  (exists pre x post, r = Returned (length pre) /\ stops_at true f st l pre x post st') \/
  (exists pre x post, r = Threw /\ throws_at f st l pre (repeat false (length pre)) x post st').
Proof.
  rewrite find_any. destruct (any_c f st l) as [st1 e] eqn:E. pose proof (proj1 (any_spec f l st st1 e) E) as H. split.
  - destruct H as [(-> & C)|[(pre & x & post & -> & T)|(pre & x & post & -> & T)]].
    + intros X. injection X as <- <-. left. split; [reflexivity|exact C].
    + destruct T as (-> & T). rewrite (find_stop f pre st 0 x post st1 (conj eq_refl T)). intros X. injection X as <- <-. right. left.
      exists pre, x, post. split; [reflexivity|]. split; [reflexivity|exact T].
    + intros X. injection X as <- <-. right. right. exists pre, x, post. split; [reflexivity|exact T].
  - intros [(-> & C)|[(pre & x & post & -> & T)|(pre & x & post & -> & T)]].
    + pose proof (proj2 (any_spec f l st st' _) (or_introl (conj eq_refl C))) as X. rewrite E in X. injection X as -> ->. reflexivity.
    + assert (X : any_c f st l = (st', Returned true)) by (apply any_spec; right; left; exists pre, x, post; auto).
      rewrite E in X. injection X as -> ->. destruct T as (-> & T). rewrite (find_stop f pre st 0 x post st' (conj eq_refl T)). reflexivity.
    + assert (X : any_c f st l = (st', Threw)) by (apply any_spec; right; right; exists pre, x, post; auto).
      rewrite E in X. injection X as -> ->. reflexivity.
Qed.
End Reduce.

(** functions that call for every element *)
Section Every.
Context {A B S : Type}.
Lemma count_ok (f : S -> A -> S * option bool) st l ks st' : calls f st l ks st' ->
  forall n, count_if_c f st l n = (st', Returned (n + length (filter (fun b => b) ks))).
Proof.
  induction 1 as [st|st x st1 y l ys st2 E C IH]; intros n; cbn; [rewrite Nat.add_0_r; reflexivity|]. rewrite E, IH. f_equal. f_equal. destruct y; cbn; lia.
Qed.
Lemma count_throws (f : S -> A -> S * option bool) st pre ks st1 : calls f st pre ks st1 -> forall x post st' n, f st1 x = (st', None) ->
  count_if_c f st (pre ++ x :: post) n = (st', Threw).
Proof. induction 1 as [st|st x st1 y l ys st2 E C IH]; intros z post st' n F; cbn; [rewrite F; reflexivity|]. rewrite E. apply IH. exact F. Qed.
Lemma count_spec (f : S -> A -> S * option bool) l st st' r : count_if_c f st l 0 = (st', r) <->
  (exists ks, r = Returned (length (filter (fun b => b) ks)) /\ calls f st l ks st') \/
  (exists pre ks x post, r = Threw /\ throws_at f st l pre ks x post st').
Proof.
  split.
  - intros H. destruct (calls_or_throws f l st) as [(ks & st1 & C)|(pre & ks & x & post & st1 & L & st2 & C & F)].
    + rewrite (count_ok _ _ _ _ _ C) in H. injection H as <- <-. left. eauto.
    + rewrite L, (count_throws _ _ _ _ _ C _ _ _ _ F) in H. injection H as <- <-. right. exists pre, ks, x, post. split; [reflexivity|]. split; eauto.
  - intros [(ks & -> & C)|(pre & ks & x & post & -> & -> & st2 & C & F)]; [exact (count_ok _ _ _ _ _ C 0)|exact (count_throws _ _ _ _ _ C _ _ _ _ F)].
Qed.
Lemma map_ok (f : S -> A -> S * option B) st l ys st' : calls f st l ys st' -> forall d, map_into_c f st l d = (st', d ++ ys, Returned tt).
Proof.
  induction 1 as [st|st x st1 y l ys st2 E C IH]; intros d; cbn; [rewrite app_nil_r; reflexivity|]. rewrite E, IH, <- app_assoc. reflexivity.
Qed.
Lemma map_throws (f : S -> A -> S * option B) st pre ys st1 : calls f st pre ys st1 -> forall x post st' d, f st1 x = (st', None) ->
  map_into_c f st (pre ++ x :: post) d = (st', d ++ ys, Threw).
Proof.
  induction 1 as [st|st x st1 y l ys st2 E C IH]; intros z post st' d F; cbn; [rewrite F, app_nil_r; reflexivity|]. rewrite E, (IH _ _ _ _ F), <- app_assoc. reflexivity.
Qed.
Lemma map_spec (f : S -> A -> S * option B) l st d st' d' r : map_into_c f st l d = (st', d', r) <->
  (exists ys, r = Returned tt /\ d' = d ++ ys /\ calls f st l ys st') \/
  (exists pre ys x post, r = Threw /\ d' = d ++ ys /\ throws_at f st l pre ys x post st').
Proof.
  split.
  - intros H. destruct (calls_or_throws f l st) as [(ks & st1 & C)|(pre & ks & x & post & st1 & L & st2 & C & F)].
    + rewrite (map_ok _ _ _ _ _ C) in H. injection H as <- <- <-. left. eauto.
    + rewrite L, (map_throws _ _ _ _ _ C _ _ _ _ F) in H. injection H as <- <- <-. right. exists pre, ks, x, post. repeat split; eauto.
  - intros [(ks & -> & -> & C)|(pre & ks & x & post & -> & -> & -> & st2 & C & F)]; [exact (map_ok _ _ _ _ _ C _)|exact (map_throws _ _ _ _ _ C _ _ _ _ F)].
Qed.
Lemma map_new_spec (f : S -> A -> S * option B) l st st' r : map_new_c f st l = (st', r) <->
  (exists ys, r = Returned ys /\ calls f st l ys st') \/ (exists pre ys x post, r = Threw /\ throws_at f st l pre ys x post st').
Proof.
  unfold map_new_c. split.
  - destruct (map_into_c f st l []) as [[st1 d] e] eqn:E. apply map_spec in E.
    destruct E as [(ys & -> & -> & C)|(pre & ys & x & post & -> & -> & T)]; intros H; injection H as <- <-; [left; eauto|right]. exists pre, ys, x, post. auto.
  - intros [(ys & -> & C)|(pre & ys & x & post & -> & -> & st2 & C & F)]; [rewrite (map_ok _ _ _ _ _ C); reflexivity|rewrite (map_throws _ _ _ _ _ C _ _ _ _ F); reflexivity].
Qed.
Lemma each_ok (f : S -> A -> S * A * bool) st l ys st' : assigns f st l ys st' -> for_each_c f st l = (st', ys, Returned tt).
Proof. induction 1 as [st|st x st1 y l ys st2 E C IH]; cbn; [reflexivity|]. rewrite E, IH. reflexivity. Qed.
Lemma each_throws (f : S -> A -> S * A * bool) st pre ys st1 : assigns f st pre ys st1 -> forall x post y st', f st1 x = (st', y, true) ->
  for_each_c f st (pre ++ x :: post) = (st', ys ++ y :: post, Threw).
Proof. induction 1 as [st|st x st1 y l ys st2 E C IH]; intros z post w st' F; cbn; [rewrite F; reflexivity|]. rewrite E, (IH _ _ _ _ F). reflexivity. Qed.
Lemma each_cases (f : S -> A -> S * A * bool) l : forall st,
  (exists ys st', assigns f st l ys st') \/ (exists pre ys x post st1 y st', l = pre ++ x :: post /\ assigns f st pre ys st1 /\ f st1 x = (st', y, true)).
Proof.
  induction l as [|x l IH]; intros st.
  - left. exists [], st. constructor.
  - destruct (f st x) as [[st1 y] [|]] eqn:E.
    + right. exists [], [], x, l, st, y, st1. split; [reflexivity|]. split; [constructor|exact E].
    + destruct (IH st1) as [(ys & st' & C)|(pre & ys & z & post & st2 & w & st' & L & C & F)].
      * left. exists (y :: ys), st'. econstructor; eauto.
      * right. exists (x :: pre), (y :: ys), z, post, st2, w, st'. split; [cbn; congruence|]. split; [econstructor; eauto|exact F].
Qed.
Lemma each_spec (f : S -> A -> S * A * bool) l st st' l' r : for_each_c f st l = (st', l', r) <->
  (r = Returned tt /\ assigns f st l l' st') \/
  (exists pre ys x post st1 y, r = Threw /\ l = pre ++ x :: post /\ assigns f st pre ys st1 /\ f st1 x = (st', y, true) /\ l' = ys ++ y :: post).
Proof.
  split.
  - intros H. destruct (each_cases f l st) as [(ys & st1 & C)|(pre & ys & x & post & st1 & y & st2 & L & C & F)].
    + rewrite (each_ok _ _ _ _ _ C) in H. injection H as <- <- <-. left. auto.
    + rewrite L, (each_throws _ _ _ _ _ C _ _ _ _ F) in H. injection H as <- <- <-. right. exists pre, ys, x, post, st1, y. repeat split; auto.
  - intros [(-> & C)|(pre & ys & x & post & st1 & y & -> & -> & C & F & ->)]; [exact (each_ok _ _ _ _ _ C)|exact (each_throws _ _ _ _ _ C _ _ _ _ F)].
Qed.
End Every.
