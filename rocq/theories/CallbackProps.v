(** C158-C160. *)
From Coq Require Import List Bool Arith.
From Verif Require Import Base CallbackModel CallbackSpec CallbackProofs CallbackFilter CallbackExamples.
Import ListNotations.

(** C158.  The state after each function is determined by the calls. *)
Theorem any_calls_until_true : forall A S (f : S -> A -> S * option bool) l st st' r, any_c f st l = (st', r) <->
  (r = Returned false /\ calls f st l (repeat false (length l)) st') \/
  (exists pre x post, r = Returned true /\ stops_at true f st l pre x post st') \/
  (exists pre x post, r = Threw /\ throws_at f st l pre (repeat false (length pre)) x post st').
Proof. exact @any_spec. Qed.
Print Assumptions any_calls_until_true.
Example any_calls_until_true_ex : any_c even_pred 0 [1; 3; 4; 0] = (3, Returned true) /\ any_c even_pred 0 [1; 0; 4] = (2, Threw) /\ any_c even_pred 0 [1; 3] = (2, Returned false).
Proof. exact any_cases. Qed.
Theorem all_calls_until_false : forall A S (f : S -> A -> S * option bool) l st st' r, all_c f st l = (st', r) <->
  (r = Returned true /\ calls f st l (repeat true (length l)) st') \/
  (exists pre x post, r = Returned false /\ stops_at false f st l pre x post st') \/
  (exists pre x post, r = Threw /\ throws_at f st l pre (repeat true (length pre)) x post st').
Proof. exact @all_spec. Qed.
Print Assumptions all_calls_until_false.
Example all_calls_until_false_ex : all_c even_pred 0 [2; 4; 3; 0] = (3, Returned false) /\ all_c even_pred 0 [2; 0; 3] = (2, Threw) /\ all_c even_pred 0 [2; 4] = (2, Returned true).
Proof. exact all_cases. Qed.
Theorem find_if_calls_until_true : forall A S (f : S -> A -> S * option bool) l st st' r, find_if_c f st 0 l = (st', r) <->
  (r = Returned (length l) /\ calls f st l (repeat false (length l)) st') \/
  (exists pre x post, r = Returned (length pre) /\ stops_at true f st l pre x post st') \/
  (exists pre x post, r = Threw /\ throws_at f st l pre (repeat false (length pre)) x post st').
Proof. exact @find_spec. Qed.
Print Assumptions find_if_calls_until_true.
Example find_if_calls_until_true_ex : find_if_c even_pred 0 0 [1; 3; 4; 0] = (3, Returned 2) /\ find_if_c even_pred 0 0 [1; 0; 4] = (2, Threw) /\ find_if_c even_pred 0 0 [1; 3] = (2, Returned 2).
Proof. exact find_cases. Qed.
Theorem count_if_calls_once_each : forall A S (f : S -> A -> S * option bool) l st st' r, count_if_c f st l 0 = (st', r) <->
  (exists ks, r = Returned (length (filter (fun b => b) ks)) /\ calls f st l ks st') \/
  (exists pre ks x post, r = Threw /\ throws_at f st l pre ks x post st').
Proof. exact @count_spec. Qed.
Print Assumptions count_if_calls_once_each.
Example count_if_calls_once_each_ex : count_if_c even_pred 0 [2; 3; 4] 0 = (3, Returned 2) /\ count_if_c even_pred 0 [2; 0; 4] 0 = (2, Threw).
Proof. exact count_cases. Qed.
(** the elements before the one that throws are assigned to, those after it are as they were *)
Theorem for_each_stops_at_an_exception : forall A S (f : S -> A -> S * A * bool) l st st' l' r, for_each_c f st l = (st', l', r) <->
  (r = Returned tt /\ assigns f st l l' st') \/
  (exists pre ys x post st1 y, r = Threw /\ l = pre ++ x :: post /\ assigns f st pre ys st1 /\ f st1 x = (st', y, true) /\ l' = ys ++ y :: post).
Proof. exact @each_spec. Qed.
Print Assumptions for_each_stops_at_an_exception.
Example for_each_stops_at_an_exception_ex : for_each_c doubles 0 [1; 2; 0; 3] = (3, [2; 4; 100; 3], Threw) /\ for_each_c doubles 0 [1; 2] = (2, [2; 4], Returned tt).
Proof. exact each_case. Qed.
(** the destination has the results up to the one that throws *)
Theorem map_stops_at_an_exception : forall A B S (f : S -> A -> S * option B) l st d st' d' r, map_into_c f st l d = (st', d', r) <->
  (exists ys, r = Returned tt /\ d' = d ++ ys /\ calls f st l ys st') \/
  (exists pre ys x post, r = Threw /\ d' = d ++ ys /\ throws_at f st l pre ys x post st').
Proof. exact @map_spec. Qed.
Print Assumptions map_stops_at_an_exception.
Theorem map_returns_all_results_or_throws : forall A B S (f : S -> A -> S * option B) l st st' r, map_new_c f st l = (st', r) <->
  (exists ys, r = Returned ys /\ calls f st l ys st') \/ (exists pre ys x post, r = Threw /\ throws_at f st l pre ys x post st').
Proof. exact @map_new_spec. Qed.
Print Assumptions map_returns_all_results_or_throws.
Example map_stops_at_an_exception_ex : map_into_c even_pred 0 [1; 2; 0; 3] [true] = (3, [true; false; true], Threw) /\ map_new_c even_pred 0 [1; 2; 0; 3] = (3, Threw) /\
  map_new_c even_pred 0 [1; 2] = (2, Returned [false; true]).
Proof. exact map_case. Qed.

(** C159 *)
Theorem filter_that_throws_keeps_the_elements_refuted :
  filter_c even_pred false (fun i => nth i [1; 2; 4; 0; 6] 0) 0 [1; 2; 4; 0; 6] = Ret (4, [2; 4; 4; 0; 6], Threw) /\
  filter_c even_pred false (fun _ => 9) 0 [1; 2; 4; 0; 6] = Ret (4, [2; 4; 9; 0; 6], Threw).
Proof. exact filter_thrown_case. Qed.
Print Assumptions filter_that_throws_keeps_the_elements_refuted.
(** exactly: the elements kept so far, then the dropped elements and moved-from ones that have not been overwritten,
    then the elements from the one that throws on *)
Theorem filter_that_throws_leaves : forall A S (f : S -> A -> S * option bool) (junk : nat -> A) st l st' l' r, filter_c f false junk st l = Ret (st', l', r) <->
  (exists ks, r = Returned tt /\ calls f st l ks st' /\ l' = kept l ks) \/
  (exists pre ks x post, r = Threw /\ throws_at f st l pre ks x post st' /\
     l' = kept pre ks ++ skipn (length (kept pre ks)) (left_behind junk 0 pre ks) ++ x :: post).
Proof. exact @filter_spec. Qed.
Print Assumptions filter_that_throws_leaves.
Theorem filter_is_defined : forall A S (f : S -> A -> S * option bool) (junk : nat -> A) carried st l,
  exists st' l' r, filter_c f carried junk st l = Ret (st', l', r).
Proof. exact @filter_defined. Qed.
Print Assumptions filter_is_defined.
(** the number of elements, the kept ones and those from the one that throws on *)
Theorem filter_that_throws_keeps_the_elements_partial : forall A S (f : S -> A -> S * option bool) (junk : nat -> A) st l st' l', filter_c f false junk st l = Ret (st', l', Threw) ->
  exists pre ks x post, throws_at f st l pre ks x post st' /\ length l' = length l /\
  skipn (length pre) l' = x :: post /\ firstn (length (kept pre ks)) l' = kept pre ks.
Proof. exact @filter_throws_keeps. Qed.
Print Assumptions filter_that_throws_keeps_the_elements_partial.
(** nothing changes if nothing was to be dropped before *)
Theorem filter_that_throws_at_once_changes_nothing : forall A S (f : S -> A -> S * option bool) (junk : nat -> A) st l pre x post st',
  throws_at f st l pre (repeat true (length pre)) x post st' -> filter_c f false junk st l = Ret (st', l, Threw).
Proof. exact @filter_throws_unchanged. Qed.
Print Assumptions filter_that_throws_at_once_changes_nothing.
(** where moving is copying, no new values appear *)
Theorem filter_that_throws_makes_no_new_values : forall A S (f : S -> A -> S * option bool) (junk : nat -> A) st l st' l',
  (forall i x, nth_error l i = Some x -> junk i = x) -> filter_c f false junk st l = Ret (st', l', Threw) -> forall y, In y l' -> In y l.
Proof. exact @filter_copies. Qed.
Print Assumptions filter_that_throws_makes_no_new_values.
Example filter_that_throws_ex : filter_c even_pred false (fun _ => 9) 0 [2; 4; 0; 6] = Ret (3, [2; 4; 0; 6], Threw) /\
  filter_c even_pred false (fun _ => 9) 0 [2; 3; 4; 5; 6] = Ret (5, [2; 4; 6], Returned tt).
Proof. exact filter_cases. Qed.

(** C160.  A predicate that drops the third element it is called for also drops the sixth element. *)
Theorem filter_with_a_predicate_that_carries_its_state_refuted :
  filter_c not_third false (fun _ => 9) 0 [10; 20; 30; 40; 50; 60; 70] = Ret (7, [10; 20; 40; 50; 60; 70], Returned tt) /\
  filter_c not_third true (fun _ => 9) 0 [10; 20; 30; 40; 50; 60; 70] = Ret (4, [10; 20; 40; 50; 70], Returned tt).
Proof. exact third_cases. Qed.
Print Assumptions filter_with_a_predicate_that_carries_its_state_refuted.
(** after the first dropped element the predicate starts again in its first state *)
Theorem filter_starts_the_predicate_again : forall A S (f : S -> A -> S * option bool) (junk : nat -> A) (carried : bool) st pre x post st1,
  stops_at false f st (pre ++ x :: post) pre x post st1 -> forall ks st2, calls f (if carried then st else st1) post ks st2 ->
  filter_c f carried junk st (pre ++ x :: post) = Ret (st2, pre ++ kept post ks, Returned tt).
Proof. exact @filter_found. Qed.
Print Assumptions filter_starts_the_predicate_again.
(** harmless if the answers do not depend on the state *)
Theorem filter_with_a_predicate_that_carries_its_state_partial : forall A S (f : S -> A -> S * option bool) (junk : nat -> A) (p : A -> bool) carried st l,
  (forall s x, exists s', f s x = (s', Some (p x))) -> exists st', filter_c f carried junk st l = Ret (st', filter p l, Returned tt).
Proof. exact @filter_stateless. Qed.
Print Assumptions filter_with_a_predicate_that_carries_its_state_partial.
