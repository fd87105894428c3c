From Coq Require Import List Bool Arith Lia.
From Verif Require Import Base LruApi LruModel LruSpec LruProofs LruFaults ListUpdate SafeLruModel SafeLruThrowModel SafeLruThrowSpec SafeLruThrowLock.
Import ListNotations.

Section Proofs.
Context {K V : Type} (ltb : K -> K -> bool) (O : strict_weak_order ltb).
Notation op := (lru_op K V * faults)%type.
Notation res := (option (lru_res V)).
Variable programs : list (list op).
Variable cap : nat.
Notation step := (step ltb programs).
Notation exec := (exec ltb programs cap).
Notation pc := (pc (K:=K) (V:=V)).
Notation sys := (sys (K:=K) (V:=V)).
Notation event := (event (K:=K) (V:=V)).

Definition holds (p : pc) : option lock_kind :=
  match p with Locked o | Body o _ | Finished o _ => Some (lock_of o) | _ => None end.
Definition op_of (p : pc) : option op :=
  match p with Calling o | Locked o | Body o _ | Finished o _ | Released o _ => Some o | _ => None end.
Definition res_of (p : pc) : option (op * res) :=
  match p with Finished o r | Released o r => Some (o, r) | _ => None end.

Definition lin_ops (lin : list (call_id * op * res)) : list op := map (fun x => snd (fst x)) lin.
Definition final (lin : list (call_id * op * res)) := fst (f_run ltb (mkS cap []) (lin_ops lin)).

Record inv (h : list event) (s : sys) (lin : list (call_id * op * res)) : Prop := {
  i_len : length (threads s) = length programs;
  i_writer : forall t, writer s = Some t -> readers s = [] /\
    exists k p, nth_error (threads s) t = Some (Th k p) /\ holds p = Some Exclusive;
  i_lock : forall t k p, nth_error (threads s) t = Some (Th k p) ->
    (holds p = Some Exclusive -> writer s = Some t) /\ (holds p = Some Shared -> In t (readers s));
  i_readers : NoDup (readers s) /\ forall t, In t (readers s) ->
    exists k p, nth_error (threads s) t = Some (Th k p) /\ holds p = Some Shared;
  i_cache : R ltb (nxt (cache_ s)) (obj (cache_ s)) (final lin);
  i_legal : snd (f_run ltb (mkS cap []) (lin_ops lin)) = map snd lin;
  i_body : forall t k o x, nth_error (threads s) t = Some (Th k (Body o x)) -> x = cache_ s;
  i_ok : forall t k p, nth_error (threads s) t = Some (Th k p) -> p <> Crashed;
  i_prog : forall t k p o, nth_error (threads s) t = Some (Th k p) -> op_of p = Some o ->
    In (Inv (t, k) o) h;
  i_invs : forall t j o, In (Inv (t, j) o) h -> exists k p, nth_error (threads s) t = Some (Th k p) /\
    (j < k \/ (j = k /\ op_of p = Some o));
  i_ress : forall t j r, In (Res (t, j) r) h -> exists k p, nth_error (threads s) t = Some (Th k p) /\ j < k;
  i_done : forall t j k p, nth_error (threads s) t = Some (Th k p) -> j < k -> exists r, In (Res (t, j) r) h;
  i_lin : forall t j o r, In ((t, j), o, r) lin -> exists k p, nth_error (threads s) t = Some (Th k p) /\
    (j < k \/ (j = k /\ res_of p = Some (o, r)));
  i_now : forall t k p o r, nth_error (threads s) t = Some (Th k p) -> res_of p = Some (o, r) -> In ((t, k), o, r) lin;
  i_once : NoDup (map (fun x => fst (fst x)) lin);
  i_called : forall c o r, In (c, o, r) lin -> In (Inv c o) h;
  i_returned : forall c r, In (Res c r) h -> exists o, In (c, o, r) lin;
  i_time : forall a ra b ob, before h (Res a ra) (Inv b ob) ->
    forall xa xb, In xa lin -> In xb lin -> fst (fst xa) = a -> fst (fst xb) = b -> before lin xa xb;
  i_follows : follows programs h
}.

Lemma inv_init : inv [] (initial programs cap) [].
Proof.
  assert (T : forall t k p, nth_error (threads (initial programs cap)) t = Some (Th (K:=K) (V:=V) k p) -> k = 0 /\ p = Idle).
  { intros t k p H. apply nth_error_In in H. simpl in H. apply in_map_iff in H. destruct H as (? & H & _).
    injection H as <- <-. auto. }
  constructor; simpl; try (intros; contradiction).
  - apply map_length.
  - discriminate.
  - intros t k p H. apply T in H. destruct H as [_ ->]. simpl. split; discriminate.
  - split; [constructor|]. intros; contradiction.
  - apply R_new.
  - reflexivity.
  - intros t k o x H. apply T in H. destruct H; discriminate.
  - intros t k p H. apply T in H. destruct H; congruence.
  - intros t k p o H E. apply T in H. destruct H; subst; discriminate.
  - intros t j k p H L. apply T in H. lia.
  - intros t k p o r H E. apply T in H. destruct H; subst; discriminate.
  - constructor.
  - split; [intros; contradiction|]. split; intros [|]; discriminate.
Qed.

Lemma const_call (o : op) c c' r : is_const o = true -> call ltb (snd o) (fst o) c = Ret (c', r) -> c' = c.
Proof.
  destruct o as [o f]. destruct o; try discriminate; intros _; cbn [fst snd]; unfold call, size, capacity, empty, contains, bind, get_obj, ret; intros E;
    simpl in E; congruence.
Qed.
Definition value (x : exn (lru_res V)) : res := match x with Val r => Some r | Thrown => None end.
Lemma call_refines n c (a : scache (K:=K) (V:=V)) (o : op) : R ltb n c a -> harmless (snd o) -> exists n' c' x,
  call ltb (snd o) (fst o) (mkSt n c) = Ret (mkSt n' c', x) /\ value x = snd (f_call ltb a o) /\ R ltb n' c' (fst (f_call ltb a o)).
Proof.
  intros H Hf. destruct (call_faulty ltb O n c a (snd o) (fst o) H Hf) as (n' & c' & _ & G). unfold f_call.
  destruct (s_throw ltb _ _ _ a (fst o)) as [a'|].
  - destruct G as [E G]. exists n', c', Thrown. auto.
  - destruct G as [E G]. exists n', c', (Val (snd (s_call ltb a (fst o)))). destruct (s_call ltb a (fst o)). auto.
Qed.

Lemma f_run_snoc a (ops : list op) o :
  fst (f_run ltb a (ops ++ [o])) = fst (f_call ltb (fst (f_run ltb a ops)) o) /\
  snd (f_run ltb a (ops ++ [o])) = snd (f_run ltb a ops) ++ [snd (f_call ltb (fst (f_run ltb a ops)) o)].
Proof.
  revert a. induction ops as [|o' ops IH]; intros a; simpl.
  - destruct (f_call ltb a o). auto.
  - destruct (f_call ltb a o') as [a' r']. specialize (IH a').
    destruct (f_run ltb a' ops), (f_run ltb a' (ops ++ [o])). simpl in *. destruct IH as [-> ->]. auto.
Qed.

Lemma st_eta (c : st (K:=K) (V:=V)) : mkSt (nxt c) (obj c) = c.
Proof. destruct c. reflexivity. Qed.

(** threads that keep their pc and call number *)
Lemma same_th (s : sys) t th t' k p :
  nth_error (goto s t th) t' = Some (Th k p) ->
  (t' = t /\ th = Th k p) \/ (t' <> t /\ nth_error (threads s) t' = Some (Th k p)).
Proof. unfold goto. intros H. apply update_inv in H. destruct H as [(-> & -> & _)|[N H]]; auto. Qed.

(** the thread [t] moves from [Th k p] to [Th k q] *)
Lemma goto_same (s : sys) t k p th : nth_error (threads s) t = Some (Th k p) -> nth_error (goto s t th) t = Some th.
Proof. intros H. unfold goto. eapply update_same; eauto. Qed.
Lemma goto_other (s : sys) t th t' : t' <> t -> nth_error (goto s t th) t' = nth_error (threads s) t'.
Proof. intros H. unfold goto. apply update_other. auto. Qed.

Lemma lift (s : sys) (t : nat) k p k' p' (P : nat -> nat -> pc -> Prop) :
  nth_error (threads s) t = Some (Th k p) ->
  (P t k p -> P t k' p') ->
  forall t', (exists k p, nth_error (threads s) t' = Some (Th k p) /\ P t' k p) ->
  exists k p, nth_error (goto s t (Th k' p')) t' = Some (Th k p) /\ P t' k p.
Proof.
  intros H HP t' (k1 & p1 & H1 & H2). destruct (Nat.eq_dec t' t) as [->|N].
  - rewrite H in H1. injection H1 as <- <-. exists k', p'. split; [eapply goto_same; eauto|auto].
  - exists k1, p1. split; [rewrite goto_other by exact N; exact H1|exact H2].
Qed.

Lemma lin_op_id t k o r lin h s : inv h s lin -> In ((t, k), o, r) lin -> forall p,
  nth_error (threads s) t = Some (Th k p) -> res_of p = Some (o, r).
Proof.
  intros I H p E. destruct (i_lin _ _ _ I _ _ _ _ H) as (k' & p' & E' & [L|[_ L]]); rewrite E in E'; injection E' as <- <-; [lia|exact L].
Qed.

Ltac th H := apply same_th in H; destruct H as [[-> H]|[? H]]; [first [discriminate H | injection H as <- <- | injection H; intros]|].

Lemma inv_step h s lin e s' : harmless_calls h -> inv h s lin -> step s e s' ->
  exists lin', inv (h ++ match e with Some e => [e] | None => [] end) s' lin'.
Proof.
  intros harm I H. destruct H as [t k o p H Hp Ho|t k o H Hl Hw|t k o H Hl Hw Hr|t k o H|t k o seen H|t k o r H|t k o r H].
  - (* call *)
    exists lin. constructor; cbn [writer readers cache_ threads]; try (apply I).
    + unfold goto. rewrite update_length. apply I.
    + intros t' E. destruct (i_writer _ _ _ I t' E) as [R0 X]. split; [exact R0|].
      revert t' E X. intros t' _. apply (lift s t k Idle k (Calling o) (fun _ _ p => holds p = Some Exclusive) H). discriminate.
    + intros t' k' p' E. th E; [split; discriminate|]. apply (i_lock _ _ _ I _ _ _ E).
    + split; [apply I|]. intros t' E. apply (i_readers _ _ _ I) in E. revert E.
      apply (lift s t k Idle k (Calling o) (fun _ _ p => holds p = Some Shared) H). discriminate.
    + intros t' k' o' x E. th E. eapply (i_body _ _ _ I); eauto.
    + intros t' k' p' E. th E; [discriminate|]. eapply (i_ok _ _ _ I); eauto.
    + intros t' k' p' o' E E'. apply in_or_app. th E; [right; left; simpl in E'; congruence|left].
      eapply (i_prog _ _ _ I); eauto.
    + intros t' j o' E. apply in_app_or in E. destruct E as [E|[E|[]]].
      * apply (i_invs _ _ _ I) in E. revert E.
        apply (lift s t k Idle k (Calling o) (fun _ k p => j < k \/ (j = k /\ op_of p = Some o')) H).
        intros [L|[_ L]]; [auto|discriminate].
      * injection E as <- <- <-. exists k, (Calling o). split; [eapply goto_same; eauto|auto].
    + intros t' j r E. apply in_app_or in E. destruct E as [E|[E|[]]]; [|discriminate].
      apply (i_ress _ _ _ I) in E. revert E. apply (lift s t k Idle k (Calling o) (fun _ k p => j < k) H). auto.
    + intros t' j k' p' E L. destruct (same_th _ _ _ _ _ _ E) as [[-> Q]|[N Q]].
      * injection Q as <- <-. destruct (i_done _ _ _ I _ _ _ _ H L) as [r X]. exists r. apply in_or_app. auto.
      * destruct (i_done _ _ _ I _ _ _ _ Q L) as [r X]. exists r. apply in_or_app. auto.
    + intros t' j o' r E. apply (i_lin _ _ _ I) in E. revert E.
      apply (lift s t k Idle k (Calling o) (fun _ k p => j < k \/ (j = k /\ res_of p = Some (o', r))) H).
      intros [L|[_ L]]; [auto|discriminate].
    + intros t' k' p' o' r E E'. th E; [discriminate|]. eapply (i_now _ _ _ I); eauto.
    + intros c o' r E. apply in_or_app. left. eapply (i_called _ _ _ I); eauto.
    + intros c r E. apply in_app_or in E. destruct E as [E|[E|[]]]; [|discriminate]. eapply (i_returned _ _ _ I); eauto.
    + intros a ra b ob B xa xb Ha Hb Ea Eb. apply before_snoc in B. destruct B as [B|[B _]]; [eapply (i_time _ _ _ I); eauto|].
      injection B as -> ->. exfalso. destruct xb as [[c o'] r]. simpl in Eb. subst c.
      pose proof (lin_op_id _ _ _ _ _ _ _ I Hb _ H). discriminate.
    + destruct (i_follows _ _ _ I) as (F1 & F2 & F3). split; [|split].
      * intros t' k' o' E. apply in_app_or in E. destruct E as [E|[E|[]]]; [eauto|]. injection E as <- <- <-. eauto.
      * intros h1 t' k' o' h2 E. destruct (last_snoc_case h2) as [->|(h2' & w & ->)].
        -- apply app_inj_tail in E. destruct E as [-> E]. injection E as -> -> ->.
           apply (i_done _ _ _ I _ _ _ _ H). lia.
        -- rewrite app_comm_cons, app_assoc in E. apply app_inj_tail in E. destruct E as [-> _]. eauto.
      * intros h1 c r h2 E. destruct (last_snoc_case h2) as [->|(h2' & w & ->)].
        -- apply app_inj_tail in E. destruct E as [_ E]. discriminate.
        -- rewrite app_comm_cons, app_assoc in E. apply app_inj_tail in E. destruct E as [-> _]. eauto.
  - (* lock shared *)
    rewrite app_nil_r. exists lin. constructor; cbn [writer readers cache_ threads]; try (apply I).
    + unfold goto. rewrite update_length. apply I.
    + discriminate.
    + intros t' k' p' E. th E; [simpl; rewrite Hl; split; [discriminate|auto]|].
      destruct (i_lock _ _ _ I _ _ _ E) as [L1 L2]. split; [intros Q; specialize (L1 Q); congruence|]. intros Q. right. auto.
    + destruct (i_readers _ _ _ I) as [N Rd]. split.
      * constructor; [|exact N]. intros X. destruct (Rd _ X) as (k1 & p1 & E1 & E2). rewrite H in E1. injection E1 as <- <-. discriminate.
      * intros t' [<-|E].
        -- exists k, (Locked o). split; [eapply goto_same; eauto|simpl; congruence].
        -- apply Rd in E. revert E. apply (lift s t k (Calling o) k (Locked o) (fun _ _ p => holds p = Some Shared) H). discriminate.
    + intros t' k' o' x E. th E. eapply (i_body _ _ _ I); eauto.
    + intros t' k' p' E. th E; [discriminate|]. eapply (i_ok _ _ _ I); eauto.
    + intros t' k' p' o' E E'. th E; [|eapply (i_prog _ _ _ I); eauto]. eapply (i_prog _ _ _ I _ _ _ _ H). exact E'.
    + intros t' j o' E. apply (i_invs _ _ _ I) in E. revert E.
      apply (lift s t k (Calling o) k (Locked o) (fun _ k p => j < k \/ (j = k /\ op_of p = Some o')) H). auto.
    + intros t' j r E. apply (i_ress _ _ _ I) in E. revert E.
      apply (lift s t k (Calling o) k (Locked o) (fun _ k p => j < k) H). auto.
    + intros t' j k' p' E L. th E; [eapply (i_done _ _ _ I); eauto|eapply (i_done _ _ _ I); eauto].
    + intros t' j o' r E. apply (i_lin _ _ _ I) in E. revert E.
      apply (lift s t k (Calling o) k (Locked o) (fun _ k p => j < k \/ (j = k /\ res_of p = Some (o', r))) H).
      intros [L|[_ L]]; [auto|discriminate].
    + intros t' k' p' o' r E E'. th E; [discriminate|]. eapply (i_now _ _ _ I); eauto.
  - (* lock exclusive *)
    rewrite app_nil_r. exists lin. constructor; cbn [writer readers cache_ threads]; try (apply I).
    + unfold goto. rewrite update_length. apply I.
    + intros t' E. injection E as <-. split; [reflexivity|]. exists k, (Locked o). split; [eapply goto_same; eauto|simpl; congruence].
    + intros t' k' p' E. th E; [simpl; rewrite Hl; split; [reflexivity|discriminate]|].
      destruct (i_lock _ _ _ I _ _ _ E) as [L1 L2]. split; [intros Q; specialize (L1 Q); congruence|].
      intros Q. specialize (L2 Q). rewrite Hr in L2. exact L2.
    + split; [constructor|]. intros t' [].
    + intros t' k' o' x E. th E. eapply (i_body _ _ _ I); eauto.
    + intros t' k' p' E. th E; [discriminate|]. eapply (i_ok _ _ _ I); eauto.
    + intros t' k' p' o' E E'. th E; [|eapply (i_prog _ _ _ I); eauto]. eapply (i_prog _ _ _ I _ _ _ _ H). exact E'.
    + intros t' j o' E. apply (i_invs _ _ _ I) in E. revert E.
      apply (lift s t k (Calling o) k (Locked o) (fun _ k p => j < k \/ (j = k /\ op_of p = Some o')) H). auto.
    + intros t' j r E. apply (i_ress _ _ _ I) in E. revert E.
      apply (lift s t k (Calling o) k (Locked o) (fun _ k p => j < k) H). auto.
    + intros t' j k' p' E L. th E; [eapply (i_done _ _ _ I); eauto|eapply (i_done _ _ _ I); eauto].
    + intros t' j o' r E. apply (i_lin _ _ _ I) in E. revert E.
      apply (lift s t k (Calling o) k (Locked o) (fun _ k p => j < k \/ (j = k /\ res_of p = Some (o', r))) H).
      intros [L|[_ L]]; [auto|discriminate].
    + intros t' k' p' o' r E E'. th E; [discriminate|]. eapply (i_now _ _ _ I); eauto.
  - (* begin *)
    rewrite app_nil_r. exists lin. constructor; cbn [writer readers cache_ threads]; try (apply I).
    + unfold goto. rewrite update_length. apply I.
    + intros t' E. destruct (i_writer _ _ _ I t' E) as [R0 X]. split; [exact R0|].
      revert X. apply (lift s t k (Locked o) k (Body o (cache_ s)) (fun _ _ p => holds p = Some Exclusive) H). auto.
    + intros t' k' p' E. th E; [apply (i_lock _ _ _ I _ _ _ H)|]. apply (i_lock _ _ _ I _ _ _ E).
    + split; [apply I|]. intros t' E. apply (i_readers _ _ _ I) in E. revert E.
      apply (lift s t k (Locked o) k (Body o (cache_ s)) (fun _ _ p => holds p = Some Shared) H). auto.
    + intros t' k' o' x E. th E; [congruence|]. eapply (i_body _ _ _ I); eauto.
    + intros t' k' p' E. th E; [discriminate|]. eapply (i_ok _ _ _ I); eauto.
    + intros t' k' p' o' E E'. th E; [|eapply (i_prog _ _ _ I); eauto]. eapply (i_prog _ _ _ I _ _ _ _ H). exact E'.
    + intros t' j o' E. apply (i_invs _ _ _ I) in E. revert E.
      apply (lift s t k (Locked o) k (Body o (cache_ s)) (fun _ k p => j < k \/ (j = k /\ op_of p = Some o')) H). auto.
    + intros t' j r E. apply (i_ress _ _ _ I) in E. revert E.
      apply (lift s t k (Locked o) k (Body o (cache_ s)) (fun _ k p => j < k) H). auto.
    + intros t' j k' p' E L. th E; [eapply (i_done _ _ _ I); eauto|eapply (i_done _ _ _ I); eauto].
    + intros t' j o' r E. apply (i_lin _ _ _ I) in E. revert E.
      apply (lift s t k (Locked o) k (Body o (cache_ s)) (fun _ k p => j < k \/ (j = k /\ res_of p = Some (o', r))) H).
      intros [L|[_ L]]; [auto|discriminate].
    + intros t' k' p' o' r E E'. th E; [discriminate|]. eapply (i_now _ _ _ I); eauto.
  - (* end *)
    rewrite app_nil_r. pose proof (i_body _ _ _ I _ _ _ _ H) as ->.
    assert (Hf : harmless (snd o)).
    { destruct o as [o f]. exact (harm _ _ _ (i_prog _ _ _ I _ _ _ (o, f) H eq_refl)). }
    destruct (call_refines _ _ _ o (i_cache _ _ _ I) Hf) as (n' & c' & y & E & Er & HR).
    rewrite st_eta in E. rewrite E. change (match y with Val r => Some r | Thrown => None end) with (value y).
    remember (value y) as r eqn:Hy. clear Hy.
    assert (Nin : forall o' r', ~ In ((t, k), o', r') lin).
    { intros o' r' X. pose proof (lin_op_id _ _ _ _ _ _ _ I X _ H). discriminate. }
    assert (C : (if is_const o then cache_ s else mkSt n' c') = mkSt n' c').
    { destruct (is_const o) eqn:Co; [|reflexivity]. symmetry. eapply const_call; eauto. }
    assert (C2 : forall t' k' o' x, t' <> t -> nth_error (threads s) t' = Some (Th k' (Body o' x)) ->
                 mkSt n' c' = cache_ s).
    { intros t' k' o' x N E'. destruct (is_const o) eqn:Co.
      - eapply const_call; eauto.
      - exfalso. assert (Lo : lock_of o = Exclusive) by (destruct o as [[] ?]; discriminate || reflexivity).
        assert (W : writer s = Some t) by (apply (i_lock _ _ _ I _ _ _ H); simpl; congruence).
        destruct (i_lock _ _ _ I _ _ _ E') as [L1 L2]. simpl in L1, L2.
        destruct (i_writer _ _ _ I _ W) as [R0 _]. rewrite R0 in L2.
        destruct (lock_of o'); [apply L2; reflexivity|]. specialize (L1 eq_refl). congruence. }
    rewrite C. exists (lin ++ [((t, k), o, r)]).
    assert (LO : lin_ops (lin ++ [((t, k), o, r)]) = lin_ops lin ++ [o]) by (unfold lin_ops; rewrite map_app; reflexivity).
    destruct (f_run_snoc (mkS cap []) (lin_ops lin) o) as [Sf Sr].
    constructor; cbn [writer readers cache_ threads]; try (apply I).
    + unfold goto. rewrite update_length. apply I.
    + intros t' E'. destruct (i_writer _ _ _ I t' E') as [R0 X]. split; [exact R0|].
      revert X. apply (lift s t k (Body o (cache_ s)) k (Finished o r) (fun _ _ p => holds p = Some Exclusive) H). auto.
    + intros t' k' p' E'. th E'; [apply (i_lock _ _ _ I _ _ _ H)|]. apply (i_lock _ _ _ I _ _ _ E').
    + split; [apply I|]. intros t' E'. apply (i_readers _ _ _ I) in E'. revert E'.
      apply (lift s t k (Body o (cache_ s)) k (Finished o r) (fun _ _ p => holds p = Some Shared) H). auto.
    + unfold final in *. rewrite LO, Sf. exact HR.
    + rewrite LO, Sr, map_app. f_equal; [apply I|]. simpl. f_equal. symmetry. exact Er.
    + intros t' k' o' x E'. apply same_th in E'. destruct E' as [[_ E']|[N E']]; [discriminate|].
      rewrite (C2 _ _ _ _ N E'). eapply (i_body _ _ _ I); eauto.
    + intros t' k' p' E'. th E'; [discriminate|]. eapply (i_ok _ _ _ I); eauto.
    + intros t' k' p' o' E1 E2. th E1; [|eapply (i_prog _ _ _ I); eauto]. eapply (i_prog _ _ _ I _ _ _ _ H). exact E2.
    + intros t' j o' E'. apply (i_invs _ _ _ I) in E'. revert E'.
      apply (lift s t k (Body o (cache_ s)) k (Finished o r) (fun _ k p => j < k \/ (j = k /\ op_of p = Some o')) H). auto.
    + intros t' j r' E'. apply (i_ress _ _ _ I) in E'. revert E'.
      apply (lift s t k (Body o (cache_ s)) k (Finished o r) (fun _ k p => j < k) H). auto.
    + intros t' j k' p' E' L. th E'; [eapply (i_done _ _ _ I); eauto|eapply (i_done _ _ _ I); eauto].
    + intros t' j o' r' E'. apply in_app_or in E'. destruct E' as [E'|[E'|[]]].
      * apply (i_lin _ _ _ I) in E'. revert E'.
        apply (lift s t k (Body o (cache_ s)) k (Finished o r) (fun _ k p => j < k \/ (j = k /\ res_of p = Some (o', r'))) H).
        intros [L|[_ L]]; [auto|discriminate].
      * injection E' as <- <- <- <-. exists k, (Finished o r). split; [eapply goto_same; eauto|]. auto.
    + intros t' k' p' o' r' E1 E2. apply in_or_app. th E1; [right; left; injection E2 as <- <-; reflexivity|left].
      eapply (i_now _ _ _ I); eauto.
    + rewrite map_app. simpl. apply NoDup_snoc; [apply I|]. intros X. apply in_map_iff in X. destruct X as ([[c1 o1] r1] & E1 & X). simpl in E1. subst c1.
      eapply Nin; eauto.
    + intros c o' r' E'. apply in_app_or in E'. destruct E' as [E'|[E'|[]]]; [eapply (i_called _ _ _ I); eauto|].
      injection E' as <- <- <-. eapply (i_prog _ _ _ I _ _ _ _ H). reflexivity.
    + intros c r' E'. destruct (i_returned _ _ _ I _ _ E') as [o' X]. exists o'. apply in_or_app. auto.
    + intros a ra b ob B xa xb Ha Hb Ea Eb. destruct (before_in _ _ _ B) as [B1 B2].
      apply in_app_or in Ha. apply in_app_or in Hb. destruct Ha as [Ha|[Ha|[]]]; destruct Hb as [Hb|[Hb|[]]].
      * apply before_app_l. eapply (i_time _ _ _ I); eauto.
      * subst xb. apply before_last. exact Ha.
      * subst xa. simpl in Ea. subst a. destruct (i_returned _ _ _ I _ _ B1) as [o' X]. exfalso. eapply Nin; eauto.
      * subst xa. simpl in Ea. subst a. destruct (i_returned _ _ _ I _ _ B1) as [o' X]. exfalso. eapply Nin; eauto.
  - (* unlock *)
    rewrite app_nil_r. exists lin.
    assert (Rest : forall t' k' p', nth_error (goto s t (Th k (Released o r))) t' = Some (Th k' p') ->
      t' = t /\ k' = k /\ p' = Released o r \/ t' <> t /\ nth_error (threads s) t' = Some (Th k' p')).
    { intros t' k' p' E. apply same_th in E. destruct E as [[-> E]|E]; [injection E as <- <-; auto|auto]. }
    assert (G1 : forall t' j (o' : op), In (Inv (t', j) o') h -> exists k0 p0,
       nth_error (goto s t (Th k (Released o r))) t' = Some (Th k0 p0) /\ (j < k0 \/ j = k0 /\ op_of p0 = Some o')).
    { intros t' j o' E. apply (i_invs _ _ _ I) in E. revert E.
      apply (lift s t k (Finished o r) k (Released o r) (fun _ k p => j < k \/ (j = k /\ op_of p = Some o')) H). auto. }
    assert (G2 : forall t' j r', In (Res (t', j) r') h -> exists k0 p0,
       nth_error (goto s t (Th k (Released o r))) t' = Some (Th k0 p0) /\ j < k0).
    { intros t' j r' E. apply (i_ress _ _ _ I) in E. revert E.
      apply (lift s t k (Finished o r) k (Released o r) (fun _ k p => j < k) H). auto. }
    assert (G3 : forall t' j o' r', In (t', j, o', r') lin -> exists k0 p0,
       nth_error (goto s t (Th k (Released o r))) t' = Some (Th k0 p0) /\ (j < k0 \/ j = k0 /\ res_of p0 = Some (o', r'))).
    { intros t' j o' r' E. apply (i_lin _ _ _ I) in E. revert E.
      apply (lift s t k (Finished o r) k (Released o r) (fun _ k p => j < k \/ (j = k /\ res_of p = Some (o', r'))) H). auto. }
    pose proof (i_lock _ _ _ I _ _ _ H) as [L1 L2]. simpl in L1, L2.
    destruct (lock_of o) eqn:Lo.
    + specialize (L2 eq_refl).
      assert (W0 : writer s = None).
      { destruct (writer s) eqn:W; [|reflexivity]. destruct (i_writer _ _ _ I _ W) as [R0 _]. rewrite R0 in L2. destruct L2. }
      constructor; cbn [writer readers cache_ threads]; try (apply I); try assumption.
      * unfold goto. rewrite update_length. apply I.
      * intros t' E. congruence.
      * intros t' k' p' E. destruct (Rest _ _ _ E) as [(-> & -> & ->)|[N E']]; [split; discriminate|].
        destruct (i_lock _ _ _ I _ _ _ E') as [M1 M2]. split; [exact M1|]. intros Q. apply in_in_remove; [auto|auto].
      * destruct (i_readers _ _ _ I) as [N Rd]. split.
        -- clear - N. induction N as [|x l Hx N IH]; simpl; [constructor|]. destruct (Nat.eq_dec t x); [exact IH|].
           constructor; [|exact IH]. intros X. apply in_remove in X. tauto.
        -- intros t' E. apply in_remove in E. destruct E as [E N'].
           destruct (Rd _ E) as (k1 & p1 & E1 & E2). exists k1, p1. rewrite goto_other by exact N'. auto.
      * intros t' k' o' x E. destruct (Rest _ _ _ E) as [(-> & -> & Q)|[N E']]; [discriminate|]. eapply (i_body _ _ _ I); eauto.
      * intros t' k' p' E. destruct (Rest _ _ _ E) as [(-> & -> & ->)|[N E']]; [discriminate|]. eapply (i_ok _ _ _ I); eauto.
      * intros t' k' p' o' E Q. destruct (Rest _ _ _ E) as [(-> & -> & ->)|[N E']]; [|eapply (i_prog _ _ _ I); eauto].
        eapply (i_prog _ _ _ I _ _ _ _ H). exact Q.
      * intros t' j k' p' E L. destruct (Rest _ _ _ E) as [(-> & -> & ->)|[N E']]; eapply (i_done _ _ _ I); eauto.
      * intros t' k' p' o' r' E Q. destruct (Rest _ _ _ E) as [(-> & -> & ->)|[N E']]; [|eapply (i_now _ _ _ I); eauto].
        eapply (i_now _ _ _ I _ _ _ _ _ H). exact Q.
    + specialize (L1 eq_refl). destruct (i_writer _ _ _ I _ L1) as [R0 _].
      constructor; cbn [writer readers cache_ threads]; try (apply I); try assumption.
      * unfold goto. rewrite update_length. apply I.
      * discriminate.
      * intros t' k' p' E. destruct (Rest _ _ _ E) as [(-> & -> & ->)|[N E']]; [split; discriminate|].
        destruct (i_lock _ _ _ I _ _ _ E') as [M1 M2]. split; [|exact M2]. intros Q. specialize (M1 Q). congruence.
      * rewrite R0. split; [constructor|]. intros t' [].
      * intros t' k' o' x E. destruct (Rest _ _ _ E) as [(-> & -> & Q)|[N E']]; [discriminate|]. eapply (i_body _ _ _ I); eauto.
      * intros t' k' p' E. destruct (Rest _ _ _ E) as [(-> & -> & ->)|[N E']]; [discriminate|]. eapply (i_ok _ _ _ I); eauto.
      * intros t' k' p' o' E Q. destruct (Rest _ _ _ E) as [(-> & -> & ->)|[N E']]; [|eapply (i_prog _ _ _ I); eauto].
        eapply (i_prog _ _ _ I _ _ _ _ H). exact Q.
      * intros t' j k' p' E L. destruct (Rest _ _ _ E) as [(-> & -> & ->)|[N E']]; eapply (i_done _ _ _ I); eauto.
      * intros t' k' p' o' r' E Q. destruct (Rest _ _ _ E) as [(-> & -> & ->)|[N E']]; [|eapply (i_now _ _ _ I); eauto].
        eapply (i_now _ _ _ I _ _ _ _ _ H). exact Q.
  - (* return *)
    exists lin. constructor; cbn [writer readers cache_ threads]; try (apply I).
    + unfold goto. rewrite update_length. apply I.
    + intros t' E. destruct (i_writer _ _ _ I t' E) as [R0 X]. split; [exact R0|].
      revert X. apply (lift s t k (Released o r) (S k) Idle (fun _ _ p => holds p = Some Exclusive) H). discriminate.
    + intros t' k' p' E. th E; [split; discriminate|]. apply (i_lock _ _ _ I _ _ _ E).
    + split; [apply I|]. intros t' E. apply (i_readers _ _ _ I) in E. revert E.
      apply (lift s t k (Released o r) (S k) Idle (fun _ _ p => holds p = Some Shared) H). discriminate.
    + intros t' k' o' x E. th E. eapply (i_body _ _ _ I); eauto.
    + intros t' k' p' E. th E; [discriminate|]. eapply (i_ok _ _ _ I); eauto.
    + intros t' k' p' o' E E'. apply in_or_app. th E; [discriminate|]. left. eapply (i_prog _ _ _ I); eauto.
    + intros t' j o' E. apply in_app_or in E. destruct E as [E|[E|[]]]; [|discriminate].
      apply (i_invs _ _ _ I) in E. revert E.
      apply (lift s t k (Released o r) (S k) Idle (fun _ k p => j < k \/ (j = k /\ op_of p = Some o')) H).
      intros [L|[-> _]]; auto.
    + intros t' j r' E. apply in_app_or in E. destruct E as [E|[E|[]]].
      * apply (i_ress _ _ _ I) in E. revert E. apply (lift s t k (Released o r) (S k) Idle (fun _ k p => j < k) H). auto.
      * injection E as <- <- <-. exists (S k), Idle. split; [eapply goto_same; eauto|auto].
    + intros t' j k' p' E L. th E.
      * destruct (Nat.eq_dec j k) as [->|N]; [exists r; apply in_or_app; right; left; reflexivity|].
        destruct (i_done _ _ _ I _ j _ _ H) as [r' X]; [lia|]. exists r'. apply in_or_app. auto.
      * destruct (i_done _ _ _ I _ _ _ _ E L) as [r' X]. exists r'. apply in_or_app. auto.
    + intros t' j o' r' E. apply (i_lin _ _ _ I) in E. revert E.
      apply (lift s t k (Released o r) (S k) Idle (fun _ k p => j < k \/ (j = k /\ res_of p = Some (o', r'))) H).
      intros [L|[-> _]]; auto.
    + intros t' k' p' o' r' E E'. th E; [discriminate|]. eapply (i_now _ _ _ I); eauto.
    + intros c o' r' E. apply in_or_app. left. eapply (i_called _ _ _ I); eauto.
    + intros c r' E. apply in_app_or in E. destruct E as [E|[E|[]]]; [eapply (i_returned _ _ _ I); eauto|].
      injection E as <- <-. exists o. eapply (i_now _ _ _ I _ _ _ _ _ H). reflexivity.
    + intros a ra b ob B xa xb Ha Hb Ea Eb. apply before_snoc in B. destruct B as [B|[B _]]; [eapply (i_time _ _ _ I); eauto|discriminate].
    + destruct (i_follows _ _ _ I) as (F1 & F2 & F3). split; [|split].
      * intros t' k' o' E. apply in_app_or in E. destruct E as [E|[E|[]]]; [eauto|]. discriminate.
      * intros h1 t' k' o' h2 E. destruct (last_snoc_case h2) as [->|(h2' & w & ->)].
        -- apply app_inj_tail in E. destruct E as [-> E]. discriminate.
        -- rewrite app_comm_cons, app_assoc in E. apply app_inj_tail in E. destruct E as [-> _]. eauto.
      * intros h1 c r' h2 E. destruct (last_snoc_case h2) as [->|(h2' & w & ->)].
        -- apply app_inj_tail in E. destruct E as [-> E]. injection E as <- <-.
           exists o. eapply (i_prog _ _ _ I _ _ _ _ H). reflexivity.
        -- rewrite app_comm_cons, app_assoc in E. apply app_inj_tail in E. destruct E as [-> _]. eauto.
Qed.

Lemma inv_exec n h s : exec n h s -> harmless_calls h -> exists lin, inv h s lin.
Proof.
  intros H. induction H as [|n h s e s' _ IH H]; intros harm; [eexists; apply inv_init|].
  assert (hh : harmless_calls h) by (intros c o f Hc; eapply harm; apply in_or_app; left; exact Hc).
  destruct (IH hh) as [lin I]. eapply inv_step; eauto.
Qed.

Theorem exec_linearizable n h s : exec n h s -> harmless_calls h -> linearizable ltb cap h /\ follows programs h.
Proof.
  intros H hh. destruct (inv_exec _ _ _ H hh) as [lin I]. split; [|apply I].
  exists lin. constructor; try apply I.
Qed.

Theorem no_crash n h s t k p : exec n h s -> harmless_calls h -> nth_error (threads s) t = Some (Th k p) -> p <> Crashed.
Proof. intros H hh. destruct (inv_exec _ _ _ H hh) as [lin I]. apply (i_ok _ _ _ I). Qed.

Theorem never_deadlocks n h s : exec n h s -> harmless_calls h -> completed programs s \/ exists e s', step s e s'.
Proof.
  intros H hh. destruct (SafeLruThrowLock.progress ltb programs cap n h s H) as [P|[P|(t & k & E)]]; [auto|auto|].
  exfalso. exact (no_crash _ _ _ _ _ _ H hh E eq_refl).
Qed.
End Proofs.
