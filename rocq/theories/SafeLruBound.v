(** How far a safe_lru_cache can outgrow its capacity: by at most one pair for each call made in which emplace throws. *)
From Coq Require Import List Bool Arith Lia.
From Verif Require Import Base LruApi LruModel LruSpec LruMain LruCompareModel LruCompareSpec LruDefined LruBound ListUpdate
  SafeLruModel SafeLruThrowModel SafeLruBoundSpec.
Import ListNotations.

Section Proofs.
Context {K V : Type} (ltb : K -> K -> bool) (O : strict_weak_order ltb).
Notation op := (lru_op K V * faults)%type.
Variable programs : list (list op).
Variable cap : nat.
Hypothesis no_move : forall p o f, In p programs -> In (o, f) p -> f PMovePush = false.

Definition fine (T : nat) (p : pc (K:=K) (V:=V)) : Prop :=
  match p with
  | Calling o | Locked o => snd o PMovePush = false
  | Body o seen => snd o PMovePush = false /\ B ltb T seen
  | _ => True
  end.
(** calls in progress in which emplace may still throw *)
Definition pending (th : thread (K:=K) (V:=V)) : nat :=
  match at_ th with Calling o | Locked o | Body o _ => if snd o PEmplace then 1 else 0 | _ => 0 end.
Definition inv (h : list (event (K:=K) (V:=V))) (s : sys (K:=K) (V:=V)) : Prop :=
  exists T, T + sum_of pending (threads s) <= emplace_calls h /\ B ltb T (cache_ s) /\
    forall t k p, nth_error (threads s) t = Some (Th k p) -> fine T p.

Lemma fine_more T T' p : T <= T' -> fine T p -> fine T' p.
Proof. intros L. destruct p; simpl; auto. intros [F X]. split; [exact F|]. eapply B_more; eassumption. Qed.

Lemma calls_app h h' : emplace_calls (h ++ h') = emplace_calls (K:=K) (V:=V) h + emplace_calls h'.
Proof. unfold emplace_calls. now rewrite filter_app, app_length. Qed.

(** thread [t] goes from [p0] to [th]; [T] throws become [T'] *)
Lemma inv_goto h h' s w r c t th p0 T T' :
  T + sum_of pending (threads s) <= emplace_calls h ->
  (forall t k p, nth_error (threads s) t = Some (Th k p) -> fine T p) ->
  T <= T' -> B ltb T' c -> nth_error (threads s) t = Some p0 -> fine T' (at_ th) ->
  T' + pending th <= T + pending p0 + emplace_calls h' ->
  inv (h ++ h') (Sys w r c (goto s t th)).
Proof.
  intros N S L C H0 P D. exists T'. cbn [threads cache_]. split; [|split; [exact C|]].
  - rewrite calls_app. unfold goto. pose proof (sum_update pending t th p0 _ H0). lia.
  - intros t' k p. unfold goto. destruct (Nat.eq_dec t' t) as [->|Q].
    + rewrite (update_same _ _ _ _ H0). intros E. injection E as ->. exact P.
    + rewrite update_other by congruence. intros E. eapply fine_more; [exact L|]. eapply S, E.
Qed.

Lemma inv_step h s e s' : inv h s -> step ltb programs s e s' -> inv (h ++ match e with Some e => [e] | None => [] end) s'.
Proof.
  intros (T & N & C & S) H. destruct H.
  - eapply (inv_goto _ _ _ _ _ _ _ _ _ T T); eauto.
    + cbn. destruct o as [o f]. apply (no_move p o f); eapply nth_error_In; eassumption.
    + unfold pending, emplace_calls. cbn. destruct (snd o PEmplace); simpl; lia.
  - pose proof (S _ _ _ H). eapply (inv_goto _ _ _ _ _ _ _ _ _ T T); eauto. unfold pending. cbn. lia.
  - pose proof (S _ _ _ H). eapply (inv_goto _ _ _ _ _ _ _ _ _ T T); eauto. unfold pending. cbn. lia.
  - pose proof (S _ _ _ H). eapply (inv_goto _ _ _ _ _ _ _ _ _ T T); eauto; [cbn in *; auto|]. unfold pending. cbn. lia.
  - destruct (S _ _ _ H) as [F X].
    pose proof (call_W ltb O (snd o) (fst o) F seen (b_w _ _ _ X)) as G. unfold ends in G.
    destruct (call ltb (snd o) (fst o) seen) as [[c x]| | |] eqn:E; try contradiction.
    pose proof (call_B ltb O (snd o) (fst o) T seen c x F X E) as Y.
    eapply (inv_goto _ _ _ _ _ _ _ _ _ T (T + emplace_threw (snd o) x)); eauto; [lia| |exact I|].
    + destruct (is_const o); [eapply B_more; [|exact C]; lia|exact Y].
    + unfold pending. cbn. unfold emplace_threw. destruct x, (snd o PEmplace); lia.
  - destruct (lock_of o); eapply (inv_goto _ _ _ _ _ _ _ _ _ T T); eauto; try exact I; unfold pending; cbn; lia.
  - eapply (inv_goto _ _ _ _ _ _ _ _ _ T T); eauto; try exact I; unfold pending; cbn; lia.
Qed.

Lemma inv_exec n h s : exec ltb programs cap n h s -> inv h s.
Proof.
  induction 1 as [|n h s e s' _ IH H]; [|eapply inv_step; eauto].
  exists 0. unfold initial. cbn [threads cache_]. split; [|split].
  - enough (Z : forall l : list (list op), sum_of pending (map (fun _ => Th 0 Idle) l) = 0) by (rewrite Z; simpl; lia).
    induction l; simpl; auto.
  - constructor; simpl; [apply W_new|constructor|lia|lia].
  - intros t k p E. apply nth_error_In in E. apply in_map_iff in E as (x & E & _). injection E as _ <-. exact I.
Qed.

Theorem safe_outgrows n h s : exec ltb programs cap n h s ->
  exists z c, run_ops ltb (cache_ s) [Size; Capacity] = Ret (cache_ s, [RNat z; RNat c]) /\ z <= c + emplace_calls h.
Proof.
  intros H. destruct (inv_exec n h s H) as (T & N & C & _).
  exists (length (m_map (obj (cache_ s)))), (m_capacity (obj (cache_ s))). split; [reflexivity|].
  pose proof (entries_nodes ltb O _ _ C). destruct C. lia.
Qed.
End Proofs.
