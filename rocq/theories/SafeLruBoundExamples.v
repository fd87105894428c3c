(** A safe_lru_cache of capacity 2 that comes to hold three pairs after one throw. *)
From Coq Require Import List Bool Arith.
From Verif Require Import Base LruApi LruModel LruMain ListUpdate SafeLruModel SafeLruThrowModel SafeLruBoundSpec.
Import ListNotations.

Local Tactic Notation "go" hyp(E) uconstr(c) :=
  eapply exec_step in E; [|eapply c; reflexivity]; cbn in E.

(** one thread inserts, another asks for the size *)
Definition outgrowing : list (list (lru_op nat nat * faults)) :=
  [[(Insert 1 10, no_fault); (Insert 2 20, no_fault); (Insert 3 30, fault_at PEmplace); (Insert 3 31, no_fault);
    (Insert 4 40, no_fault); (Insert 5 50, no_fault); (Insert 6 60, no_fault)]; [(Size, no_fault)]].
Lemma outgrowing_execution : exists n h s, exec Nat.ltb outgrowing 2 n h s /\ In (Res (1, 0) (Some (RNat 3))) h /\
  emplace_calls h = 1 /\ (forall p o f, In p outgrowing -> In (o, f) p -> f PMovePush = false).
Proof.
  pose proof (exec_start Nat.ltb outgrowing 2) as E.
  do 7 (go E (step_call _ _ _ 0); go E (step_lock_exclusive _ _ _ 0); go E (step_begin _ _ _ 0); go E (step_end _ _ _ 0); go E (step_unlock _ _ _ 0); go E (step_return _ _ _ 0)).
  go E (step_call _ _ _ 1). go E (step_lock_shared _ _ _ 1). go E (step_begin _ _ _ 1). go E (step_end _ _ _ 1). go E (step_unlock _ _ _ 1). go E (step_return _ _ _ 1).
  do 3 eexists. split; [exact E|]. split; [cbn; intuition|]. split; [reflexivity|].
  intros p o f Hp Ho. cbn in Hp. destruct Hp as [<-|[<-|[]]]; cbn in Ho;
    repeat (destruct Ho as [Q|Ho]; [injection Q as _ <-; reflexivity|]); contradiction.
Qed.
Lemma outgrown : exists (programs : list (list (lru_op nat nat * faults))) n h s,
  exec Nat.ltb programs 2 n h s /\ nth_error programs 1 = Some [(Size, no_fault)] /\
  In (Res (1, 0) (Some (RNat 3))) h /\ (forall p o f, In p programs -> In (o, f) p -> forall n, o <> SetCapacity n).
Proof.
  destruct outgrowing_execution as (n & h & s & E & R & _). exists outgrowing, n, h, s.
  split; [exact E|]. split; [reflexivity|]. split; [exact R|].
  intros p o f Hp Ho m. cbn in Hp. destruct Hp as [<-|[<-|[]]]; cbn in Ho;
    repeat (destruct Ho as [Q|Ho]; [injection Q as <- _; discriminate|]); contradiction.
Qed.
