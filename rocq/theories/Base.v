(** Common definitions shared by all models. *)
From Coq Require Import List Bool Arith Lia.
Import ListNotations.

(** The result of running a piece of C++ code in the models.
    [Ub] is undefined behaviour, [Throw] an exception that leaves the function,
    [OutOfFuel] means that the model's bound on loop iterations was exhausted
    (never confused with a result; theorems about loops exclude it). *)
Inductive outcome (A : Type) : Type :=
| Ret (a : A)
| Ub
| Throw
| OutOfFuel.
Arguments Ret {A} a.
Arguments Ub {A}.
Arguments Throw {A}.
Arguments OutOfFuel {A}.

Definition obind {A B : Type} (x : outcome A) (f : A -> outcome B) : outcome B :=
  match x with
  | Ret a => f a
  | Ub => Ub
  | Throw => Throw
  | OutOfFuel => OutOfFuel
  end.

Declare Scope outcome_scope.
Delimit Scope outcome_scope with outcome.
Notation "'let*' x ':=' c 'in' k" := (obind c (fun x => k))
  (at level 200, x pattern, c at level 100, k at level 200, right associativity) : outcome_scope.

(** Strict weak orders: what the C++ standard requires from [operator<] of a map key. *)
Record strict_weak_order {A : Type} (ltb : A -> A -> bool) : Prop := {
  swo_irrefl : forall x, ltb x x = false;
  swo_trans : forall x y z, ltb x y = true -> ltb y z = true -> ltb x z = true;
  swo_incomp : forall x y z,
      ltb x y = false -> ltb y x = false -> ltb y z = false -> ltb z y = false ->
      ltb x z = false /\ ltb z x = false
}.

(** Two keys are equivalent when neither is less than the other. *)
Definition equivb {A : Type} (ltb : A -> A -> bool) (x y : A) : bool :=
  negb (ltb x y) && negb (ltb y x).

Lemma nat_ltb_swo : strict_weak_order Nat.ltb.
Proof.
  split.
  - intros x. apply Nat.ltb_irrefl.
  - intros x y z. rewrite !Nat.ltb_lt. lia.
  - intros x y z. rewrite !Nat.ltb_ge. lia.
Qed.
