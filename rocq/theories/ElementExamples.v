(** Element types that throw at one operation, and what they leave. *)
From Coq Require Import List Bool Arith Lia.
From Verif Require Import Base SeqModel StringModel StringSpec StringProofs CallbackModel ElementModel ElementSpec ElementProofs.
Import ListNotations.
Local Open Scope nat_scope.

(** the operation number [w] throws; [moved x] is what a move leaves of [x] *)
Definition countdown {A} (moved : A -> A) : elements nat A := {|
  construct w x := match w with 0 => (0, x, None) | S w => (w, moved x, Some x) end;
  assign w x y := match w with 0 => (0, x, y, true) | S w => (w, y, moved y, false) end |}.
Lemma countdown_proper {A} (moved : A -> A) : proper (countdown moved).
Proof. split; intros [|w]; cbn; intros; congruence. Qed.
Lemma countdown_strong {A} (moved : A -> A) : strong (countdown moved).
Proof. split; intros [|w]; cbn; intros; split || idtac; congruence. Qed.
Lemma countdown_copying {A} : copying (countdown (fun x : A => x)).
Proof. split; intros [|w]; cbn; intros; congruence. Qed.

Lemma swap2_countdown {A} (moved : A -> A) w (x y : A) :
  swap2 (countdown moved) w x y =
  match w with
  | 0 => (0, x, y, Threw)
  | 1 => (0, moved x, y, Threw)
  | 2 => (0, y, moved y, Threw)
  | S (S (S w)) => (w, y, x, Returned tt)
  end.
Proof. destruct w as [|[|[|w]]]; reflexivity. Qed.
(** each of the three ways to fail happens at each pair *)
Lemma reversed_countdown {A} (moved : A -> A) w a x m y (b : list A) : length a = length b -> w < 3 ->
  reversed (countdown moved) (3 * length a + w) (a ++ x :: m ++ y :: b) 0
    (rev b ++ (match w with 0 => x | 1 => moved x | _ => y end) :: m ++ (match w with 0 | 1 => y | _ => moved y end) :: rev a) Threw.
Proof.
  revert b. induction a as [|u a IH]; intros b L Hw.
  - destruct b; [|discriminate]. cbn. apply rev_throw. rewrite swap2_countdown. destruct w as [|[|[|w]]]; [reflexivity..|lia].
  - destruct (ListUpdate.snoc_case b) as [->|(b' & v & ->)]; [discriminate|]. rewrite app_length in L. cbn in L.
    rewrite rev_app_distr. cbn [rev app].
    replace (a ++ x :: m ++ y :: b' ++ [v]) with ((a ++ x :: m ++ y :: b') ++ [v]) by (rewrite <- app_assoc; cbn; rewrite <- app_assoc; reflexivity).
    match goal with |- reversed _ _ _ _ (v :: ?R) _ => replace R with
      ((rev b' ++ (match w with 0 => x | 1 => moved x | _ => y end) :: m ++ (match w with 0 | 1 => y | _ => moved y end) :: rev a) ++ [u])
      by (rewrite <- app_assoc; cbn; rewrite <- app_assoc; reflexivity) end.
    replace (3 * length (u :: a) + w) with (S (S (S (3 * length a + w)))) by (cbn [length]; lia).
    eapply rev_pair; [exact (swap2_countdown moved (S (S (S (3 * length a + w)))) u v)|]. apply IH; [lia|exact Hw].
Qed.
Lemma reverse_countdown {A} (moved : A -> A) w a x m y (b : list A) : length a = length b -> w < 3 ->
  reverse_e (countdown moved) (3 * length a + w) (a ++ x :: m ++ y :: b) =
    Ret (0, rev b ++ (match w with 0 => x | 1 => moved x | _ => y end) :: m ++ (match w with 0 | 1 => y | _ => moved y end) :: rev a, Threw).
Proof.
  intros L H. destruct (reverse_run (countdown moved) (3 * length a + w) (a ++ x :: m ++ y :: b)) as (w' & l' & r & E & R). rewrite E.
  destruct (reversed_fun _ _ _ _ _ _ R _ _ _ (reversed_countdown moved w a x m y b L H)) as (-> & -> & ->). reflexivity.
Qed.
Lemma reverse_loses : proper (countdown (fun x : nat => x)) /\ strong (countdown (fun x : nat => x)) /\ copying (countdown (fun x : nat => x)) /\
  reverse_e (countdown (fun x => x)) 5 [1; 2; 3; 4; 5] = Ret (0, [5; 4; 3; 4; 1], Threw) /\ ~ In 2 [5; 4; 3; 4; 1].
Proof. split; [apply countdown_proper|]. split; [apply countdown_strong|]. split; [apply countdown_copying|]. split; [reflexivity|]. cbn. lia. Qed.
Lemma reverse_moved_ex : proper (countdown (fun _ => 0)) /\ strong (countdown (fun _ => 0)) /\
  reverse_e (countdown (fun _ => 0)) 4 [1; 2; 3; 4; 5] = Ret (0, [5; 0; 3; 4; 1], Threw) /\
  reverse_e (countdown (fun _ => 0)) 6 [1; 2; 3; 4; 5] = Ret (0, [5; 4; 3; 2; 1], Returned tt).
Proof. split; [apply countdown_proper|]. split; [apply countdown_strong|]. split; reflexivity. Qed.
Lemma filter_ex : proper (countdown (fun _ => 0)) /\ strong (countdown (fun _ => 0)) /\
  filter_e (countdown (fun _ => 0)) Nat.odd 1 [1; 2; 3; 4; 5; 6; 7] = Ret (0, [1; 3; 0; 4; 5; 6; 7], Threw) /\
  filter_e (countdown (fun x => x)) Nat.odd 1 [1; 2; 3; 4; 5; 6; 7] = Ret (0, [1; 3; 3; 4; 5; 6; 7], Threw) /\
  filter_e (countdown (fun _ => 0)) Nat.odd 3 [1; 2; 3; 4; 5; 6; 7] = Ret (0, [1; 3; 5; 7], Returned tt).
Proof. split; [apply countdown_proper|]. split; [apply countdown_strong|]. repeat split; reflexivity. Qed.

(** memory runs out for strings longer than [w] *)
Definition limit (w n : nat) : nat * bool := (w, w <? n).
Lemma replace_changes : replace_f Nat.eqb limit 6 [1; 2; 1; 2; 1] [1] [3; 4] = Ret (6, [3; 4; 2; 1; 2; 1], Threw).
Proof. reflexivity. Qed.
Lemma replace_again_cases :
  (replace_f Nat.eqb limit 3 [1; 1] [1] [1; 1] = Ret (3, [1; 1; 1], Threw) /\
   replace Nat.eqb [1; 1; 1] [1] [1; 1] = Ret [1; 1; 1; 1; 1; 1] /\ replace Nat.eqb [1; 1] [1] [1; 1] = Ret [1; 1; 1; 1]) /\
  (replace_f Nat.eqb (fun (b : bool) (n : nat) => (true, b)) false [1; 2; 2; 1; 2] [1; 2] [1] = Ret (true, [1; 2; 1; 2], Threw) /\
   replace Nat.eqb [1; 2; 1; 2] [1; 2] [1] = Ret [1; 1] /\ replace Nat.eqb [1; 2; 2; 1; 2] [1; 2] [1] = Ret [1; 2; 1] /\ ~ occurs [1; 2] [1]).
Proof.
  repeat split; try reflexivity. intros (u & v & H). apply (f_equal (@length nat)) in H. rewrite !app_length in H. cbn in H. lia.
Qed.
Lemma replace_short_ex : (forall w n : nat, n <= length [1; 2; 1] -> snd ((fun _ n => limit 3 n) w n) = false) /\
  replace_f Nat.eqb (fun _ n => limit 3 n) 0 [1; 2; 1] [1] [4] = Ret (3, [4; 2; 4], Returned tt).
Proof. split; [|reflexivity]. intros _ n H. cbn in H. unfold limit. cbn [snd]. apply Nat.ltb_ge. exact H. Qed.
Lemma replace_empty_throws : replace_f Nat.eqb limit 4 [1; 2] [] [9] = Ret (4, [9; 1; 9; 2], Threw).
Proof. reflexivity. Qed.
Lemma any_of_throws : replace_any_of_f Nat.eqb limit 6 [1; 2; 3; 1] [1; 3] [8; 9] = Ret (6, [8; 9; 2; 8; 9; 1], Threw) /\
  (forall x, In x [8; 9] -> ~ In x [1; 3]) /\ replace_any_of Nat.eqb [8; 9; 2; 8; 9; 1] [1; 3] [8; 9] = Ret [8; 9; 2; 8; 9; 8; 9].
Proof. split; [reflexivity|]. split; [cbn; lia|reflexivity]. Qed.
Lemma any_of_again_differs : replace_any_of_f Nat.eqb limit 3 [1; 1] [1] [1; 1] = Ret (3, [1; 1; 1], Threw) /\
  replace_any_of Nat.eqb [1; 1; 1] [1] [1; 1] <> replace_any_of Nat.eqb [1; 1] [1] [1; 1].
Proof. split; [reflexivity|discriminate]. Qed.
