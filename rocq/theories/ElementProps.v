(** Property C184: functions that change their argument in place, when an element operation or an allocation throws. *)
From Coq Require Import List Bool Arith.
From Verif Require Import Base SeqModel StringModel StringSpec StringProofs CallbackModel ElementModel ElementSpec ElementProofs ElementExamples.
Import ListNotations.

(** reverse may lose an element, also if the operations that throw change nothing and moving is copying *)
Theorem reverse_that_throws_keeps_the_elements_refuted :
  proper (countdown (fun x : nat => x)) /\ strong (countdown (fun x : nat => x)) /\ copying (countdown (fun x : nat => x)) /\
  reverse_e (countdown (fun x => x)) 5 [1; 2; 3; 4; 5] = Ret (0, [5; 4; 3; 4; 1], Threw) /\ ~ In 2 [5; 4; 3; 4; 1].
Proof. exact reverse_loses. Qed.
Print Assumptions reverse_that_throws_keeps_the_elements_refuted.
(** the outer pairs are swapped, the inner ones as they were; of the pair in between at most one element is lost *)
Theorem reverse_that_throws_keeps_the_elements_partial : forall W A (E : elements W A) w l w' l' r, proper E -> reverse_e E w l = Ret (w', l', r) ->
  (r = Returned tt /\ l' = rev l) \/
  (r = Threw /\ exists a x m y b x' y', l = a ++ x :: m ++ y :: b /\ length a = length b /\ l' = rev b ++ x' :: m ++ y' :: rev a /\
     (strong E -> (y' = y \/ x' = y) /\ (copying E -> y' = y /\ (x' = x \/ x' = y)))).
Proof. exact @reverse_what. Qed.
Print Assumptions reverse_that_throws_keeps_the_elements_partial.
Example reverse_that_throws_ex : proper (countdown (fun _ => 0)) /\ strong (countdown (fun _ => 0)) /\
  reverse_e (countdown (fun _ => 0)) 4 [1; 2; 3; 4; 5] = Ret (0, [5; 0; 3; 4; 1], Threw) /\
  reverse_e (countdown (fun _ => 0)) 6 [1; 2; 3; 4; 5] = Ret (0, [5; 4; 3; 2; 1], Returned tt).
Proof. exact reverse_moved_ex. Qed.
(** each of these outcomes happens at each pair *)
Theorem reverse_may_throw_at_each_pair : forall A (moved : A -> A) w a x m y (b : list A), length a = length b -> w < 3 ->
  reverse_e (countdown moved) (3 * length a + w) (a ++ x :: m ++ y :: b) =
    Ret (0, rev b ++ (match w with 0 => x | 1 => moved x | _ => y end) :: m ++ (match w with 0 | 1 => y | _ => moved y end) :: rev a, Threw).
Proof. exact @reverse_countdown. Qed.
Print Assumptions reverse_may_throw_at_each_pair.
(** never undefined, and the same for bidirectional and random access iterators *)
Theorem reverse_is_defined : forall W A (E : elements W A) w l,
  exists w' l' r, reverse_e E w l = Ret (w', l', r) /\ reverse_ra_e E w l = Ret (w', l', r).
Proof. exact @reverse_total. Qed.
Print Assumptions reverse_is_defined.

(** filter: every element to keep is still there, those moved so far first *)
Theorem filter_whose_assignment_throws : forall W A (E : elements W A) (pred : A -> bool) w l w' l' r, proper E -> filter_e E pred w l = Ret (w', l', r) ->
  (r = Returned tt /\ l' = filter pred l) \/
  (r = Threw /\ exists pre x post t mid x', l = pre ++ x :: post /\ pred x = true /\ l' = filter pred pre ++ t :: mid ++ x' :: post /\
     length l' = length l /\ (strong E -> x' = x /\ (copying E -> t :: mid = skipn (length (filter pred pre)) pre))).
Proof. exact @filter_what. Qed.
Print Assumptions filter_whose_assignment_throws.
Example filter_whose_assignment_throws_ex : proper (countdown (fun _ => 0)) /\ strong (countdown (fun _ => 0)) /\
  filter_e (countdown (fun _ => 0)) Nat.odd 1 [1; 2; 3; 4; 5; 6; 7] = Ret (0, [1; 3; 0; 4; 5; 6; 7], Threw) /\
  filter_e (countdown (fun x => x)) Nat.odd 1 [1; 2; 3; 4; 5; 6; 7] = Ret (0, [1; 3; 3; 4; 5; 6; 7], Threw) /\
  filter_e (countdown (fun _ => 0)) Nat.odd 3 [1; 2; 3; 4; 5; 6; 7] = Ret (0, [1; 3; 5; 7], Returned tt).
Proof. exact filter_ex. Qed.
Theorem filter_whose_assignment_throws_is_defined : forall W A (E : elements W A) (pred : A -> bool) w l,
  exists w' l' r, filter_e E pred w l = Ret (w', l', r).
Proof. exact @filter_total. Qed.
Print Assumptions filter_whose_assignment_throws_is_defined.

(** replace: some occurrences are replaced, the rest of the string is as it was *)
Theorem replace_that_throws_changes_nothing_refuted :
  replace_f Nat.eqb limit 6 [1; 2; 1; 2; 1] [1] [3; 4] = Ret (6, [3; 4; 2; 1; 2; 1], Threw).
Proof. exact replace_changes. Qed.
Print Assumptions replace_that_throws_changes_nothing_refuted.
Theorem replace_that_throws_partial : forall W A (eqb : A -> A -> bool), (forall x y, eqb x y = true <-> x = y) ->
  forall (fails : W -> nat -> W * bool) w s f r, f <> [] -> exists w' s' e, replace_f eqb fails w s f r = Ret (w', s', e) /\
  ((e = Returned tt /\ exists ps, pieces f s ps /\ s' = interleaved r ps) \/
   (e = Threw /\ exists us v, cuts f s us v /\ occurs f v /\ s' = concat (map (fun u => u ++ r) us) ++ v)).
Proof. exact @replace_what. Qed.
Print Assumptions replace_that_throws_partial.
Theorem replace_of_nothing_that_throws_partial : forall W A (eqb : A -> A -> bool) (fails : W -> nat -> W * bool) w s r,
  exists w' s' e, replace_f eqb fails w s [] r = Ret (w', s', e) /\
  ((e = Returned tt /\ s' = r ++ flat_map (fun c => c :: r) s) \/
   (e = Threw /\ exists a b, s = a ++ b /\ s' = flat_map (fun c => r ++ [c]) a ++ b)).
Proof. exact @replace_empty_what. Qed.
Print Assumptions replace_of_nothing_that_throws_partial.
Example replace_of_nothing_that_throws_ex : replace_f Nat.eqb limit 4 [1; 2] [] [9] = Ret (4, [9; 1; 9; 2], Threw).
Proof. exact replace_empty_throws. Qed.
(** a replacement that is no longer than the text searched for needs no memory *)
Theorem short_replacement_does_not_throw : forall W A (eqb : A -> A -> bool), (forall x y, eqb x y = true <-> x = y) ->
  forall (fails : W -> nat -> W * bool) w s f r, f <> [] -> length r <= length f -> (forall w n, n <= length s -> snd (fails w n) = false) ->
  exists w' s', replace_f eqb fails w s f r = Ret (w', s', Returned tt).
Proof. exact @replace_short. Qed.
Print Assumptions short_replacement_does_not_throw.
Example short_replacement_does_not_throw_ex : (forall w n : nat, n <= length [1; 2; 1] -> snd ((fun _ n => limit 3 n) w n) = false) /\
  replace_f Nat.eqb (fun _ n => limit 3 n) 0 [1; 2; 1] [1] [4] = Ret (3, [4; 2; 4], Returned tt).
Proof. exact replace_short_ex. Qed.
(** calling replace once more does not give what the call would have given, also if the replacement does not contain the text *)
Theorem replace_again_gives_the_same_refuted :
  (replace_f Nat.eqb limit 3 [1; 1] [1] [1; 1] = Ret (3, [1; 1; 1], Threw) /\
   replace Nat.eqb [1; 1; 1] [1] [1; 1] = Ret [1; 1; 1; 1; 1; 1] /\ replace Nat.eqb [1; 1] [1] [1; 1] = Ret [1; 1; 1; 1]) /\
  (replace_f Nat.eqb (fun (b : bool) (n : nat) => (true, b)) false [1; 2; 2; 1; 2] [1; 2] [1] = Ret (true, [1; 2; 1; 2], Threw) /\
   replace Nat.eqb [1; 2; 1; 2] [1; 2] [1] = Ret [1; 1] /\ replace Nat.eqb [1; 2; 2; 1; 2] [1; 2] [1] = Ret [1; 2; 1] /\ ~ occurs [1; 2] [1]).
Proof. exact replace_again_cases. Qed.
Print Assumptions replace_again_gives_the_same_refuted.

(** replace_any_of *)
Theorem replace_any_of_that_throws_partial : forall W A (eqb : A -> A -> bool), (forall x y, eqb x y = true <-> x = y) ->
  forall (fails : W -> nat -> W * bool) w s set r (sepc : A -> bool), (forall x, sepc x = true <-> In x set) ->
  exists w' s' e, replace_any_of_f eqb fails w s set r = Ret (w', s', e) /\
  ((e = Returned tt /\ s' = flat_map (fun c => if sepc c then r else [c]) s) \/
   (e = Threw /\ exists a c b, s = a ++ c :: b /\ sepc c = true /\ s' = flat_map (fun c => if sepc c then r else [c]) a ++ c :: b)).
Proof. exact @any_of_what. Qed.
Print Assumptions replace_any_of_that_throws_partial.
(** calling it once more completes the work if the replacement has none of the characters *)
Theorem replace_any_of_again_completes : forall W A (eqb : A -> A -> bool), (forall x y, eqb x y = true <-> x = y) ->
  forall (fails : W -> nat -> W * bool) w s set r w' s', (forall x, In x r -> ~ In x set) ->
  replace_any_of_f eqb fails w s set r = Ret (w', s', Threw) -> replace_any_of eqb s' set r = replace_any_of eqb s set r.
Proof. exact @any_of_again. Qed.
Print Assumptions replace_any_of_again_completes.
Example replace_any_of_again_completes_ex : replace_any_of_f Nat.eqb limit 6 [1; 2; 3; 1] [1; 3] [8; 9] = Ret (6, [8; 9; 2; 8; 9; 1], Threw) /\
  (forall x, In x [8; 9] -> ~ In x [1; 3]) /\ replace_any_of Nat.eqb [8; 9; 2; 8; 9; 1] [1; 3] [8; 9] = Ret [8; 9; 2; 8; 9; 8; 9].
Proof. exact any_of_throws. Qed.
Theorem replace_any_of_again_completes_refuted : replace_any_of_f Nat.eqb limit 3 [1; 1] [1] [1; 1] = Ret (3, [1; 1; 1], Threw) /\
  replace_any_of Nat.eqb [1; 1; 1] [1] [1; 1] <> replace_any_of Nat.eqb [1; 1] [1] [1; 1].
Proof. exact any_of_again_differs. Qed.
Print Assumptions replace_any_of_again_completes_refuted.
