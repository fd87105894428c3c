(** safe_lru_cache when copies and allocations throw anywhere but in push_front of move_to_front: no call is undefined,
    also after a throw in emplace. *)
From Coq Require Import List Bool Arith Lia.
From Verif Require Import Base LruApi LruModel LruCompareModel LruDefined ListUpdate SafeLruModel SafeLruThrowModel SafeLruThrowSpec SafeLruThrowLock.
Import ListNotations.

Section Proofs.
Context {K V : Type} (ltb : K -> K -> bool) (O : strict_weak_order ltb).
Notation op := (lru_op K V * faults)%type.
Variable programs : list (list op).
Variable cap : nat.
Hypothesis no_move : forall p o f, In p programs -> In (o, f) p -> f PMovePush = false.

Definition fine (p : pc (K:=K) (V:=V)) : Prop :=
  match p with
  | Calling o | Locked o => snd o PMovePush = false
  | Body o seen => snd o PMovePush = false /\ W ltb seen
  | Crashed => False
  | _ => True
  end.
Definition sound (s : sys (K:=K) (V:=V)) : Prop :=
  W ltb (cache_ s) /\ forall t k p, nth_error (threads s) t = Some (Th k p) -> fine p.

Lemma sound_goto s w r c t th p0 : sound s -> W ltb c -> nth_error (threads s) t = Some p0 -> fine (at_ th) ->
  sound (Sys w r c (goto s t th)).
Proof.
  intros [_ S] C H0 P. split; [exact C|]. cbn [threads]. intros t' k p. unfold goto.
  destruct (Nat.eq_dec t' t) as [->|N].
  - rewrite (update_same _ _ _ _ H0). intros E. injection E as ->. exact P.
  - rewrite update_other by congruence. apply S.
Qed.

Lemma sound_step s e s' : sound s -> step ltb programs s e s' -> sound s'.
Proof.
  intros S H. pose proof (proj1 S) as C. destruct H.
  - eapply sound_goto; eauto. cbn. destruct o as [o f]. apply (no_move p o f); eapply nth_error_In; eassumption.
  - pose proof (proj2 S _ _ _ H). eapply sound_goto; eauto.
  - pose proof (proj2 S _ _ _ H). eapply sound_goto; eauto.
  - pose proof (proj2 S _ _ _ H). eapply sound_goto; eauto. cbn in *. auto.
  - destruct (proj2 S _ _ _ H) as [F B].
    pose proof (call_W ltb O (snd o) (fst o) F seen B) as G. unfold ends in G.
    destruct (call ltb (snd o) (fst o) seen) as [[c x]| | |]; try contradiction.
    eapply sound_goto; eauto; [|exact I]. destruct (is_const o); assumption.
  - destruct (lock_of o); eapply sound_goto; eauto; exact I.
  - eapply sound_goto; eauto; exact I.
Qed.

Lemma sound_exec n h s : exec ltb programs cap n h s -> sound s.
Proof.
  induction 1 as [|n h s e s' _ IH H]; [|eapply sound_step; eauto].
  split; [apply W_new|]. intros t k p E. unfold initial in E. cbn [threads] in E.
  apply nth_error_In in E. apply in_map_iff in E as (x & E & _). injection E as _ <-. exact I.
Qed.

Theorem defined n h s : exec ltb programs cap n h s ->
  (forall t k p, nth_error (threads s) t = Some (Th k p) -> p <> Crashed) /\
  (completed programs s \/ exists e s', step ltb programs s e s').
Proof.
  intros H. assert (NC : forall t k p, nth_error (threads s) t = Some (Th k p) -> p <> Crashed).
  { intros t k p E ->. exact (proj2 (sound_exec _ _ _ H) _ _ _ E). }
  split; [exact NC|]. destruct (progress ltb programs cap n h s H) as [P|[P|(t & k & E)]]; [auto|auto|].
  exfalso. exact (NC _ _ _ E eq_refl).
Qed.
End Proofs.
