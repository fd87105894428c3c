(** Concrete cases for CallbackProps.v. *)
From Coq Require Import List Bool Arith.
From Verif Require Import Base CallbackModel CallbackSpec.
Import ListNotations.

(** the number of calls is the state; the predicate throws for 0 and holds for even numbers *)
Definition even_pred (n : nat) (x : nat) : nat * option bool := (n + 1, if x =? 0 then None else Some (Nat.even x)).
(** doubles its element, throws for 0 after assigning 100 *)
Definition doubles (n : nat) (x : nat) : nat * nat * bool := if x =? 0 then (n + 1, 100, true) else (n + 1, 2 * x, false).
(** a predicate that counts its calls in a member and drops the third element *)
Definition not_third (n : nat) (x : nat) : nat * option bool := (n + 1, Some (negb (n + 1 =? 3))).

Lemma any_cases : any_c even_pred 0 [1; 3; 4; 0] = (3, Returned true) /\ any_c even_pred 0 [1; 0; 4] = (2, Threw) /\ any_c even_pred 0 [1; 3] = (2, Returned false).
Proof. repeat split. Qed.
Lemma all_cases : all_c even_pred 0 [2; 4; 3; 0] = (3, Returned false) /\ all_c even_pred 0 [2; 0; 3] = (2, Threw) /\ all_c even_pred 0 [2; 4] = (2, Returned true).
Proof. repeat split. Qed.
Lemma find_cases : find_if_c even_pred 0 0 [1; 3; 4; 0] = (3, Returned 2) /\ find_if_c even_pred 0 0 [1; 0; 4] = (2, Threw) /\ find_if_c even_pred 0 0 [1; 3] = (2, Returned 2).
Proof. repeat split. Qed.
Lemma count_cases : count_if_c even_pred 0 [2; 3; 4] 0 = (3, Returned 2) /\ count_if_c even_pred 0 [2; 0; 4] 0 = (2, Threw).
Proof. repeat split. Qed.
Lemma each_case : for_each_c doubles 0 [1; 2; 0; 3] = (3, [2; 4; 100; 3], Threw) /\ for_each_c doubles 0 [1; 2] = (2, [2; 4], Returned tt).
Proof. repeat split. Qed.
Lemma map_case : map_into_c even_pred 0 [1; 2; 0; 3] [true] = (3, [true; false; true], Threw) /\ map_new_c even_pred 0 [1; 2; 0; 3] = (3, Threw) /\
  map_new_c even_pred 0 [1; 2] = (2, Returned [false; true]).
Proof. repeat split. Qed.
(** the element 1 is lost; 2 is there twice if moving is copying, otherwise a moved-from element (9) is left *)
Lemma filter_thrown_case : filter_c even_pred false (fun i => nth i [1; 2; 4; 0; 6] 0) 0 [1; 2; 4; 0; 6] = Ret (4, [2; 4; 4; 0; 6], Threw) /\
  filter_c even_pred false (fun _ => 9) 0 [1; 2; 4; 0; 6] = Ret (4, [2; 4; 9; 0; 6], Threw).
Proof. split; reflexivity. Qed.
Lemma filter_cases : filter_c even_pred false (fun _ => 9) 0 [2; 4; 0; 6] = Ret (3, [2; 4; 0; 6], Threw) /\
  filter_c even_pred false (fun _ => 9) 0 [2; 3; 4; 5; 6] = Ret (5, [2; 4; 6], Returned tt).
Proof. split; reflexivity. Qed.
Lemma third_cases : filter_c not_third false (fun _ => 9) 0 [10; 20; 30; 40; 50; 60; 70] = Ret (7, [10; 20; 40; 50; 60; 70], Returned tt) /\
  filter_c not_third true (fun _ => 9) 0 [10; 20; 30; 40; 50; 60; 70] = Ret (4, [10; 20; 40; 50; 70], Returned tt).
Proof. split; reflexivity. Qed.
