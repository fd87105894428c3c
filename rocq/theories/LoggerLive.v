From Coq Require Import List Bool Arith ZArith Lia Sorted.
From Verif Require Import Base ListUpdate LoggerModel LoggerSpec LoggerProofs.
Import ListNotations.

Section Live.
Context {K M : Type} (ltb : K -> K -> bool).
Hypothesis O : strict_total_order ltb.
Notation entry := (entry K M).
Notation event := (@event K M).
Notation logger := (@logger K M).
Notation files := (@files K M).
Notation step := (step ltb).
Notation exec := (exec ltb).
Notation internal := (internal ltb).
Notation exec_calm := (exec_calm ltb).
Notation buffer := (buffer ltb).
Implicit Types (s : logger) (tr : list event).

(** * C62: no lost wakeup when the flush size is not lowered during a critical section *)
Definition waker s : Prop := (exists e, In (CNotify e) (calls s)) \/ 0 < pend s.
Definition due_file s k : Prop := due (flush_size s) (buffer k (lfiles s)).
Definition attentive s : Prop :=
  match pc s with
  | LCheck true | LWaitEnter => forall k, ~ due_file s k
  | LScan true p => forall k, after ltb p k = false -> ~ due_file s k
  | LWaiting => forall k, due_file s k -> waker s
  | _ => True
  end.

(** steps that change neither the buffers nor the thread, keep the wakers, and do not lower the flush size *)
Lemma attentive_mono s s' : attentive s -> pc s' = pc s -> (forall k, due_file s' k -> due_file s k) -> (waker s -> waker s') -> attentive s'.
Proof.
  unfold attentive. intros A Ep Ed Ew. rewrite Ep. destruct (pc s) as [|[|]| | | |[|] p| | | |]; auto.
  - intros k D. apply (A k), Ed, D.
  - intros k D. apply (A k), Ed, D.
  - intros k D. apply Ew, (A k), Ed, D.
  - intros k H D. apply (A k H), Ed, D.
Qed.
Lemma waker_mid s s' c c' l1 l2 : calls s = l1 ++ c :: l2 -> calls s' = l1 ++ c' ++ l2 -> pend s' = pend s ->
  (forall e, c <> CNotify e) -> waker s -> waker s'.
Proof.
  intros E E' Ep N [[e W]|W]; [left|right; rewrite Ep; exact W]. exists e. rewrite E in W. rewrite E'.
  rewrite !in_app_iff in *. cbn in W. destruct W as [W|[W|W]]; auto. exfalso. exact (N e W).
Qed.
Lemma attentive_woken s s' : pc s' = wake (pc s) -> attentive s -> (forall k, due_file s' k -> due_file s k) -> attentive s'.
Proof.
  unfold attentive. intros E A Ed. rewrite E. destruct (pc s) as [|[|]| | | |[|] p| | | |]; cbn; auto.
  - intros k D. apply (A k), Ed, D.
  - intros k D. apply (A k), Ed, D.
  - intros k H D. apply (A k H), Ed, D.
Qed.

Lemma step_attentive A W ok s e s' : inv ltb A W ok s -> attentive s -> step s e s' -> calm_flush s e -> attentive s'.
Proof.
  intros [So Pl To Ex Ca Lo] At H Cf.
  cases H; try (eapply attentive_mono; eauto; fail); try (unfold attentive; cbn; exact I).
  - apply (attentive_mono s); auto. intros [[e W0]|W0]; [left|right; exact W0]. exists e. cbn. apply in_or_app. auto.
  - (* flush size *) unfold attentive in *. cbn in *. destruct (pc s) as [|[|]| | | |[|] p| | | |]; auto; cbn in Cf.
    + intros k [D1 D2]. apply (At k). split; [exact D1|]. cbn in D2. unfold due_file. destruct Cf; [lia|discriminate].
    + intros k [D1 D2]. apply (At k). split; [exact D1|]. cbn in D2. destruct Cf; [lia|discriminate].
    + intros k _. right. cbn. lia.
    + intros k H [D1 D2]. apply (At k H). split; [exact D1|]. cbn in D2. destruct Cf; [lia|discriminate].
  - (* check *) apply (attentive_mono s); auto. eapply waker_mid; eauto; [reflexivity|discriminate].
  - apply (attentive_mono s); auto. apply (waker_mid s _ (CPassed x) [CTimed (stamp x (now s))] l1 l2); auto. discriminate.
  - (* add *)
    destruct (add_frame ltb x s) as (F1 & F2 & F3 & F4 & F5 & _).
    assert (Wk : waker s -> waker (set_calls (l1 ++ some_call (fst (add ltb x s)) ++ l2) (snd (add ltb x s)))).
    { eapply waker_mid; eauto; [cbn; reflexivity|discriminate]. }
    unfold attentive in *. cbn [pc set_calls]. rewrite F1. destruct (pc s) as [|[|]| | | |[|] p| | | |]; auto; try discriminate.
    intros k D. unfold due_file in D. cbn [flush_size lfiles set_calls] in D. rewrite F5, (add_buffer ltb O) in D.
    destruct (accepts ltb x s && equivb ltb k (e_file x)) eqn:E; [|apply Wk, (At k), D].
    apply andb_prop in E. destruct E as [E1 E2]. apply (equivb_true ltb O) in E2. subst k. left. exists x. cbn [calls set_calls].
    unfold add, accepts in *. rewrite E1. cbn. destruct D as [_ D]. cbn in D. apply Nat.leb_le in D. cbn in D. rewrite D. apply in_or_app. cbn. auto.
  - (* notify *) apply (attentive_woken s); auto.
  - apply (attentive_woken s); auto.
  - (* check *) unfold attentive in *. cbn. rewrite P in At. destruct (logging s); [destruct sw|]; auto. discriminate.
  - unfold attentive in *. cbn. rewrite P in At. intros k D. destruct (At k D).
  - (* scan *) unfold attentive in *. cbn. rewrite P in At. destruct (next_file ltb p (lfiles s)) as [[k b]|] eqn:N.
    + destruct (next_some ltb O _ _ _ _ So N) as (N1 & N2 & N3 & N4).
      destruct (Nat.eqb_spec (length b) 0) as [Z|Z]; cbn; [|destruct (Nat.leb_spec (flush_size s) (length b)) as [Le|Le]; [exact I|]];
        (destruct sw; [|exact I]); intros q Hq D; (destruct (key_cases ltb O q k) as [L|[->|L]]; [|destruct D as [D1 D2]; cbn in D1, D2; rewrite N3 in D1, D2|cbn in Hq; congruence]).
      1,3: destruct (after ltb p q) eqn:Aq; [destruct D as [D1 _]; apply D1; cbn; apply (N4 q Aq L)|apply (At q Aq D)].
      * destruct b; [congruence|discriminate].
      * lia.
    + destruct sw; [|exact I]. intros q D. destruct (after ltb p q) eqn:Aq; [|apply (At q Aq D)].
      destruct D as [D1 _]. apply D1. cbn. apply (next_none ltb O _ _ _ N Aq).
  - (* notify all *) apply (attentive_woken s); auto.
Qed.
Lemma calm_exec s0 tr s : exec_calm s0 tr s -> exec s0 tr s.
Proof. intros H. induction H; econstructor; eauto. Qed.
Lemma fixed_calm s0 tr s : exec s0 tr s -> (forall n, ~ In (EFlush n) tr) -> exec_calm s0 tr s.
Proof.
  intros H N. induction H as [|tr s e s' H IH S]; [constructor|]. constructor 2 with s; auto.
  - apply IH. intros n Hn. apply (N n), in_or_app. auto.
  - destruct e; cbn; auto. exfalso. apply (N n), in_elt.
Qed.
Lemma exec_attentive lvl max flush clock tr s : exec_calm (initial lvl max flush clock) tr s -> attentive s.
Proof.
  intros H. remember (initial lvl max flush clock) as s0. induction H as [|tr s e s' H IH S Cf]; [subst; exact I|].
  subst. exact (step_attentive _ _ _ _ _ _ (exec_inv ltb O _ _ _ _ _ _ (calm_exec _ _ _ H)) IH S Cf).
Qed.
Lemma no_lost_wakeup_proof lvl max flush clock tr s k : exec_calm (initial lvl max flush clock) tr s ->
  pc s = LWaiting -> due (flush_size s) (buffer k (lfiles s)) -> (exists e, In (CNotify e) (calls s)) \/ 0 < pend s.
Proof. intros H P D. pose proof (exec_attentive _ _ _ _ _ _ H) as A. unfold attentive in A. rewrite P in A. apply (A k D). Qed.

(** where a quiescent logger is *)
Lemma quiescent_pc s : quiescent ltb s -> (pc s = LWaiting \/ pc s = LExited) /\ calls s = [] /\ pend s = 0.
Proof.
  intros Q.
  assert (P : pc s = LWaiting \/ pc s = LExited).
  { destruct (pc s) eqn:E; auto; exfalso.
    - eapply Q, l_start; eauto. - eapply Q, l_check; eauto. - eapply Q, l_wait; auto. - eapply Q, l_woken; auto. - eapply Q, l_scan; eauto.
    - eapply Q, l_open; eauto. - destruct todo; [eapply Q, l_written|eapply Q, l_write]; eauto. - eapply Q, l_erase; eauto. }
  split; [exact P|]. split.
  - destruct (calls s) as [|[x|x|x|x] l] eqn:E; [reflexivity| | | |]; exfalso; eapply Q.
    + apply (p_check ltb s x [] l E). + apply (p_time ltb s x [] l E). + apply (p_add ltb s x [] l E). destruct P as [->| ->]; reflexivity.
    + apply (p_notify ltb s x [] l E).
  - destruct (pend s) eqn:E; [reflexivity|]. exfalso. eapply Q. eapply f_notify; eauto.
Qed.

Definition exited_ok s : Prop := pc s = LExited -> dtor s <> DNone.
Lemma step_exited_ok A W ok s e s' : inv ltb A W ok s -> exited_ok s -> step s e s' -> exited_ok s'.
Proof.
  intros J E H. pose proof (j_logging _ _ _ _ _ J) as Lo. unfold exited_ok in *. cases H; cbn; try exact E; try discriminate; try (rewrite P; discriminate); auto.
  - destruct (add_frame ltb x s) as (F1 & F2 & _). rewrite F1, F2. exact E.
  - destruct (pc s); cbn; auto; discriminate.
  - destruct (pc s); cbn; auto; discriminate.
  - destruct (logging s) eqn:L; [destruct sw; discriminate|]. intros _ D. apply Lo in D. discriminate.
  - destruct (next_file ltb p (lfiles s)) as [[k b]|]; [dif|]; discriminate.
  - destruct (next_file ltb p (lfiles s)) as [[k b]|]; [dif|]; discriminate.
Qed.
Lemma exec_exited lvl max flush clock tr s : exec (initial lvl max flush clock) tr s -> exited_ok s.
Proof.
  intros H. remember (initial lvl max flush clock) as s0. induction H as [|tr s e s' H IH S]; [subst; discriminate|].
  subst. exact (step_exited_ok _ _ _ _ _ _ (exec_inv ltb O _ _ _ _ _ _ H) IH S).
Qed.
Lemma flushed_proof lvl max flush clock tr s k : exec_calm (initial lvl max flush clock) tr s -> quiescent ltb s -> dtor s = DNone ->
  ~ due (flush_size s) (buffer k (lfiles s)).
Proof.
  intros H Q D Du. destruct (quiescent_pc s Q) as ([P|P] & Hc & Hp).
  - destruct (no_lost_wakeup_proof _ _ _ _ _ _ k H P Du) as [[e W]|W]; [rewrite Hc in W; destruct W|lia].
  - apply (exec_exited _ _ _ _ _ _ (calm_exec _ _ _ H) P D).
Qed.

(** * C63: the destructor *)
Definition alert s : Prop := dtor s <> DNone /\ dtor s <> DStopped /\ pc s <> LWaitEnter /\ pc s <> LWaiting.
Lemma step_alert A W ok s e s' : inv ltb A W ok s -> alert s -> step s e s' -> alert s'.
Proof.
  intros J (A1 & A2 & A3 & A4) H. destruct (j_calls _ _ _ _ _ J A1) as [Jc Jp]. pose proof (j_logging _ _ _ _ _ J) as Lo.
  unfold alert. cases H; try congruence; try (rewrite Hc in Jc; destruct l1; discriminate); cbn; repeat split; auto; try discriminate; try congruence.
  - destruct (logging s) eqn:L; [|discriminate]. exfalso. apply A1, Lo. reflexivity.
  - destruct (logging s) eqn:L; [|discriminate]. exfalso. apply A1, Lo. reflexivity.
  - destruct (next_file ltb p (lfiles s)) as [[k b]|]; [dif|]; discriminate.
  - destruct (next_file ltb p (lfiles s)) as [[k b]|]; [dif|]; discriminate.
  - destruct (next_file ltb p (lfiles s)) as [[k b]|]; [dif|]; discriminate.
  - destruct (next_file ltb p (lfiles s)) as [[k b]|]; [dif|]; discriminate.
Qed.
Lemma alert_later A W ok s0 tr s : inv ltb A W ok s0 -> alert s0 -> exec s0 tr s -> alert s /\ exists A' W' ok', inv ltb A' W' ok' s.
Proof.
  intros J Al H. induction H as [|tr s e s' H IH S]; [eauto|]. destruct IH as (IH & A' & W' & ok' & J'). split.
  - eapply step_alert; eauto.
  - do 3 eexists. eapply (step_inv ltb O); eauto.
Qed.
Lemma step_wakeall s s' : step s EWakeAll s' -> dtor s = DStopped /\ s' = set_dtor DNotified (set_pc (wake (pc s)) s).
Proof.
  intros [H|[H|[H|H]]]; inversion H; subst; auto;
    repeat match goal with Q : context [if ?c then _ else _] |- _ => destruct c; try discriminate
    | Q : context [match ?c with Some _ => _ | None => _ end] |- _ => destruct c; try discriminate end.
Qed.
Lemma destroyed_proof lvl max flush clock tr1 s1 s2 tr2 s : exec (initial lvl max flush clock) tr1 s1 -> step s1 EWakeAll s2 ->
  pc s1 <> LWaitEnter -> exec s2 tr2 s -> quiescent ltb s -> dtor s = DDone.
Proof.
  intros H1 S N H2 Q. pose proof (step_inv ltb O _ _ _ _ _ _ (exec_inv ltb O _ _ _ _ _ _ H1) S) as J.
  destruct (step_wakeall _ _ S) as [D E].
  assert (Al : alert s2). { subst s2. unfold alert. cbn. repeat split; try discriminate; destruct (pc s1); cbn; congruence. }
  destruct (alert_later _ _ _ _ _ _ J Al H2) as ((A1 & A2 & A3 & A4) & A' & W' & ok' & J').
  destruct (quiescent_pc s Q) as ([P|P] & _ & _); [congruence|].
  destruct (dtor s) eqn:E'; auto; try congruence; exfalso.
  - eapply Q, d_join; auto.
  - eapply Q, d_flush; eauto.
  - eapply Q, d_open; eauto.
  - destruct todo; [eapply Q, d_written|eapply Q, d_write]; eauto.
Qed.

(** * Finitely many steps *)
Local Arguments Nat.mul : simpl never.
Definition entries (l : files) : nat := sum_of (fun f => length (snd f)) l.
Definition rem (p : option K) (l : files) : nat := length (filter (fun f => after ltb p (fst f)) l).
Definition call_weight (c : @call K M) : nat := match c with CEnter _ => 7 | CPassed _ => 6 | CTimed _ => 5 | CNotify _ => 2 end.
Definition pre_add (c : @call K M) : nat := match c with CNotify _ => 0 | _ => 1 end.
Definition major s : nat :=
  sum_of call_weight (calls s) + 2 * pend s + match dtor s with DStopped => 2 | _ => 0 end +
  match pc s with
  | LStart | LCheck false | LWoken | LScan false _ => 2 * entries (lfiles s) + 1
  | LCheck true | LWaitEnter | LWaiting | LScan true _ | LOpen _ _ | LExited => 2 * entries (lfiles s)
  | LWrite _ _ n => 2 * (entries (lfiles s) - n) + (if n =? 0 then 0 else 1)
  | LRelock _ n => 2 * (entries (lfiles s) - n) + 1
  end.
Definition minor s : nat :=
  match pc s with
  | LStart | LWoken => 1 | LCheck false => 0 | LCheck true => 2 | LWaitEnter => 1 | LWaiting | LExited => 0
  | LScan _ p => 3 + 4 * rem p (lfiles s)
  | LOpen k _ => 6 + 4 * rem (Some k) (lfiles s)
  | LWrite k _ _ => 5 + 4 * rem (Some k) (lfiles s)
  | LRelock k _ => 4 + 4 * rem (Some k) (lfiles s)
  end.
Definition flush_left (p : option K) (l : files) : nat :=
  sum_of (fun f => if after ltb p (fst f) then 3 + length (snd f) else 0) l + 1.
Definition closing (C : nat) s : nat :=
  match dtor s with
  | DNone | DStopped | DNotified => 3 * C + entries (lfiles s) + sum_of pre_add (calls s) + 2
  | DFlush p => flush_left p (lfiles s)
  | DOpen k todo => length todo + 2 + flush_left (Some k) (lfiles s)
  | DWrite k todo => length todo + 1 + flush_left (Some k) (lfiles s)
  | DDone => 0
  end.
Definition room s : nat := length (lfiles s) + sum_of pre_add (calls s).
Definition measure (C : nat) s : nat := major s * (4 * C + 8) + minor s + closing C s.

Lemma rem_le p (l : files) : rem p l <= length l.
Proof. unfold rem. induction l as [|f l IH]; cbn; [lia|]. destruct (after ltb p (fst f)); cbn; lia. Qed.
Lemma minor_le s : minor s <= 6 + 4 * length (lfiles s).
Proof.
  unfold minor. destruct (pc s); try (destruct sw); try lia;
  repeat match goal with |- context [rem ?p ?l] => pose proof (rem_le p l); generalize dependent (rem p l); intros end; lia.
Qed.
Lemma put_length k b (l : files) : sorted ltb l -> length (put_file ltb k b l) = length l + match find_file ltb k l with Some _ => 0 | None => 1 end.
Proof.
  induction l as [|[k0 b0] l IH]; intros So; cbn; [reflexivity|]. inversion So as [|? ? S1 S2]; subst.
  destruct (ltb k k0) eqn:A.
  - rewrite (lt_equiv ltb _ _ A). rewrite (find_none ltb O); [cbn; lia|]. intros f Hf E. rewrite Forall_forall in S2. specialize (S2 f Hf).
    unfold file_lt in S2. cbn in S2. rewrite E in S2. rewrite (lt_not ltb O _ _ A) in S2. discriminate.
  - destruct (ltb k0 k) eqn:B.
    + rewrite (gt_equiv ltb _ _ B). cbn. rewrite IH by exact S1. lia.
    + unfold equivb. rewrite A, B. cbn. lia.
Qed.
Lemma put_entries k b (l : files) : sorted ltb l -> entries (put_file ltb k b l) + length (buffer k l) = entries l + length b.
Proof.
  unfold entries, LoggerModel.buffer. induction l as [|[k0 b0] l IH]; intros So; cbn; [lia|]. inversion So as [|? ? S1 S2]; subst.
  destruct (ltb k k0) eqn:A.
  - rewrite (lt_equiv ltb _ _ A). rewrite (find_none ltb O); [cbn; lia|]. intros f Hf E. rewrite Forall_forall in S2. specialize (S2 f Hf).
    unfold file_lt in S2. cbn in S2. rewrite E in S2. rewrite (lt_not ltb O _ _ A) in S2. discriminate.
  - destruct (ltb k0 k) eqn:B.
    + rewrite (gt_equiv ltb _ _ B). cbn. specialize (IH S1). lia.
    + unfold equivb. rewrite A, B. cbn. lia.
Qed.
Lemma put_keys k b (l : files) : sorted ltb l -> find_file ltb k l <> None -> map fst (put_file ltb k b l) = map fst l.
Proof.
  induction l as [|[k0 b0] l IH]; intros So F; cbn in *; [congruence|]. inversion So as [|? ? S1 S2]; subst.
  destruct (ltb k k0) eqn:A.
  - exfalso. apply F. rewrite (lt_equiv ltb _ _ A). apply (find_none ltb O). intros f Hf E. rewrite Forall_forall in S2. specialize (S2 f Hf).
    unfold file_lt in S2. cbn in S2. rewrite E in S2. rewrite (lt_not ltb O _ _ A) in S2. discriminate.
  - destruct (ltb k0 k) eqn:B; cbn; [|reflexivity]. rewrite (gt_equiv ltb _ _ B) in F. rewrite IH; auto.
Qed.
Lemma rem_keys p (l l' : files) : map fst l = map fst l' -> rem p l = rem p l'.
Proof.
  unfold rem. revert l'. induction l as [|f l IH]; intros [|f' l'] H; cbn in *; try discriminate; [reflexivity|].
  injection H as H1 H2. rewrite H1. destruct (after ltb p (fst f')); cbn; rewrite (IH l') by exact H2; reflexivity.
Qed.
Lemma filter_sum {A} (f : A -> bool) l : length (filter f l) = sum_of (fun x => if f x then 1 else 0) l.
Proof. induction l as [|x l IH]; cbn; [reflexivity|]. destruct (f x); cbn; lia. Qed.
(** a file that lies between two positions accounts for the difference *)
Lemma sum_drop {A} (f g : A -> nat) l x d : (forall y, In y l -> f y <= g y) -> In x l -> f x + d <= g x -> sum_of f l + d <= sum_of g l.
Proof.
  intros H. induction l as [|y l IH]; cbn; [tauto|]. intros [->|Hi] D.
  - assert (sum_of f l <= sum_of g l); [|lia]. clear IH. assert (H' : forall z, In z l -> f z <= g z) by (intros; apply H; cbn; auto). clear H D.
    induction l as [|z l IH]; cbn; [lia|]. assert (f z <= g z) by (apply H'; cbn; auto). assert (sum_of f l <= sum_of g l) by (apply IH; intros; apply H'; cbn; auto). lia.
  - assert (f y <= g y) by (apply H; cbn; auto). assert (sum_of f l + d <= sum_of g l) by (apply IH; auto; intros; apply H; cbn; auto). lia.
Qed.
Lemma after_next p k b (l : files) : sorted ltb l -> next_file ltb p l = Some (k, b) -> forall f, after ltb (Some k) f = true -> after ltb p f = true.
Proof. intros So N f H. destruct (next_some ltb O _ _ _ _ So N) as (N1 & _). eapply (after_step ltb O); eauto. Qed.
Lemma rem_next p k b (l : files) : sorted ltb l -> next_file ltb p l = Some (k, b) -> rem (Some k) l + 1 <= rem p l.
Proof.
  intros So N. destruct (next_some ltb O _ _ _ _ So N) as (N1 & N2 & _). unfold rem. rewrite !filter_sum. apply (sum_drop _ _ _ (k, b)); auto.
  - intros f _. pose proof (after_next p k b l So N (fst f)) as G. destruct (after ltb (Some k) (fst f)); [rewrite G by reflexivity|]; destruct (after ltb p (fst f)); lia.
  - cbn [fst]. rewrite N1. cbn. rewrite (sto_irrefl _ O). lia.
Qed.
Lemma flush_next p k b (l : files) : sorted ltb l -> next_file ltb p l = Some (k, b) -> flush_left (Some k) l + (3 + length b) <= flush_left p l.
Proof.
  intros So N. destruct (next_some ltb O _ _ _ _ So N) as (N1 & N2 & _). unfold flush_left.
  match goal with |- sum_of ?f l + 1 + ?d <= sum_of ?g l + 1 => assert (sum_of f l + d <= sum_of g l); [|lia] end.
  apply (sum_drop _ _ _ (k, b)); auto.
  - intros f _. pose proof (after_next p k b l So N (fst f)) as G. destruct (after ltb (Some k) (fst f)); [rewrite G by reflexivity|]; destruct (after ltb p (fst f)); lia.
  - cbn [fst snd]. rewrite N1. cbn. rewrite (sto_irrefl _ O). lia.
Qed.
Lemma flush_all (l : files) : flush_left None l = 3 * length l + entries l + 1.
Proof. unfold flush_left, entries. induction l as [|f l IH]; cbn in *; [reflexivity|]. lia. Qed.
Lemma buffer_entries k (l : files) : length (buffer k l) <= entries l.
Proof.
  unfold LoggerModel.buffer, entries. induction l as [|[k0 b0] l IH]; cbn; [lia|]. destruct (equivb ltb k k0); [lia|]. destruct (find_file ltb k l); cbn in *; lia.
Qed.

(** what is being written is in the buffer *)
Definition busy_ok s : Prop :=
  match pc s with
  | LOpen k todo => todo <> [] /\ find_file ltb k (lfiles s) <> None
  | LWrite k todo n => n + length todo <= length (buffer k (lfiles s)) /\ 0 < n + length todo /\ find_file ltb k (lfiles s) <> None
  | LRelock k n => n <= length (buffer k (lfiles s)) /\ find_file ltb k (lfiles s) <> None
  | _ => True
  end.
Lemma find_add k e s : find_file ltb k (lfiles s) <> None -> find_file ltb k (lfiles (snd (add ltb e s))) <> None.
Proof. intros H. rewrite (add_files ltb), (find_put ltb O). destruct (equivb ltb k (e_file e)); [discriminate|exact H]. Qed.
Lemma step_busy A W ok s e s' : inv ltb A W ok s -> busy_ok s -> step s e s' -> busy_ok s'.
Proof.
  intros J B H. pose proof (j_todo _ _ _ _ _ J) as To. pose proof (j_sorted _ _ _ _ _ J) as So. unfold busy_ok, todo_ok in *.
  cases H; cbn -[add]; try exact B; try exact I; try (rewrite P in B; exact B); try (rewrite P in B, To).
  - destruct (add_frame ltb x s) as (F1 & _). rewrite F1.
    assert (G : forall k, length (buffer k (lfiles s)) <= length (buffer k (lfiles (snd (add ltb x s))))) by (intros k; rewrite (add_buffer ltb O), app_length; lia).
    destruct (pc s); auto; pose proof (G k) as Gk; repeat split; try apply find_add; try apply B; lia.
  - destruct (pc s); cbn; exact B.
  - destruct (pc s); cbn; exact B.
  - destruct (logging s); [destruct sw|]; exact I.
  - destruct (next_file ltb p (lfiles s)) as [[k b]|] eqn:N; [|exact I]. destruct (next_some ltb O _ _ _ _ So N) as (N1 & N2 & N3 & N4).
    destruct (Nat.eqb_spec (length b) 0) as [Z|Z]; cbn; [exact I|]. destruct (flush_size s <=? length b); [|exact I].
    rewrite (find_some ltb O _ _ _ So N2). split; [|discriminate]. intros E. apply (f_equal (@length _)) in E. rewrite rev_length in E. cbn in E. lia.
  - destruct B as [B1 B2]. destruct To as [T1 _]. apply prefix_length in T1. rewrite rev_length in T1.
    split; [exact T1|]. split; [|exact B2]. destruct todo; [congruence|cbn; lia].
  - cbn in B. split; [lia|]. split; [lia|apply B].
  - cbn in B. split; [lia|apply B].
  - destruct (pc s); cbn; exact B.
  - split; [lia|apply B].
  - cbn in B. split; [lia|apply B].
Qed.

Definition live s : Prop := busy_ok s /\ exists A W ok, inv ltb A W ok s.
Lemma step_live s e s' : live s -> step s e s' -> live s'.
Proof.
  intros (B & A & W & ok & J) H. split; [eapply step_busy; eauto|]. do 3 eexists. eapply (step_inv ltb O); eauto.
Qed.
Lemma sum_mid (f : @call K M -> nat) l1 c l2 : sum_of f (l1 ++ c :: l2) = sum_of f (l1 ++ l2) + f c.
Proof. rewrite !sum_app. cbn. lia. Qed.

Lemma drop_major C s s' : major s' + 1 <= major s -> room s' <= C -> closing C s' <= closing C s -> measure C s' < measure C s.
Proof.
  intros H R Cl. unfold measure. pose proof (minor_le s') as L. unfold room in R.
  assert ((major s' + 1) * (4 * C + 8) <= major s * (4 * C + 8)) by (apply Nat.mul_le_mono_r; exact H). rewrite Nat.mul_add_distr_r in *. lia.
Qed.
Lemma drop_minor C s s' : major s' <= major s -> minor s' < minor s -> closing C s' <= closing C s -> measure C s' < measure C s.
Proof.
  intros H R Cl. unfold measure.
  assert (major s' * (4 * C + 8) <= major s * (4 * C + 8)) by (apply Nat.mul_le_mono_r; exact H). lia.
Qed.
Lemma drop_closing C s s' : major s' <= major s -> minor s' <= minor s -> closing C s' < closing C s -> measure C s' < measure C s.
Proof.
  intros H R Cl. unfold measure.
  assert (major s' * (4 * C + 8) <= major s * (4 * C + 8)) by (apply Nat.mul_le_mono_r; exact H). lia.
Qed.
Lemma early_closing C s : early s -> closing C s = 3 * C + entries (lfiles s) + sum_of pre_add (calls s) + 2.
Proof. unfold early, closing. destruct (dtor s); tauto. Qed.

Ltac plain := unfold room, major, minor, closing in *; cbn [lfiles pc dtor calls pend set_calls set_pc set_pend set_dtor set_files] in *.
Lemma step_measure C s e s' : live s -> room s <= C -> internal s e s' -> measure C s' < measure C s /\ room s' <= C.
Proof.
  intros (B & A & W & ok & J) R H. destruct J as [So Pl To Ex Ca Lo]. unfold busy_ok in B.
  destruct H as [x l1 l2 Hc|x l1 l2 Hc|x l1 l2 Hc Hh|x l1 l2 Hc|n Hn|P|sw P|P|P|sw p P|k todo P|k x todo n P|k n P|k n P
                  |D|D P|p D|k todo D|k x todo D|k D].
  - (* check *)
    assert (D : dtor s = DNone) by (eapply in_calls_none; eauto).
    set (t := set_calls _ s). assert (Rt : room t <= C) by (subst t; plain; rewrite Hc, !sum_app in R; rewrite !sum_app; cbn in *; destruct (should_log s x); cbn; lia).
    split; [|exact Rt]. apply drop_major; [|exact Rt|]; subst t; plain; rewrite Hc, D, !sum_app; cbn; destruct (should_log s x); cbn; lia.
  - assert (D : dtor s = DNone) by (eapply in_calls_none; eauto).
    set (t := set_calls _ s). assert (Rt : room t <= C) by (subst t; plain; rewrite Hc, !sum_app in R; rewrite !sum_app; cbn in *; lia).
    split; [|exact Rt]. apply drop_major; [|exact Rt|]; subst t; plain; rewrite Hc, D, !sum_app; cbn; lia.
  - (* add *)
    assert (D : dtor s = DNone) by (eapply in_calls_none; eauto). destruct (add_frame ltb x s) as (F1 & F2 & F3 & F4 & _).
    assert (Le : length (lfiles (snd (add ltb x s))) <= length (lfiles s) + 1).
    { rewrite (add_files ltb), put_length by exact So. destruct (find_file ltb (e_file x) (lfiles s)); lia. }
    assert (En : entries (lfiles (snd (add ltb x s))) = entries (lfiles s) + (if accepts ltb x s then 1 else 0)).
    { rewrite (add_files ltb). pose proof (put_entries (e_file x) ((if accepts ltb x s then [x] else []) ++ buffer (e_file x) (lfiles s)) (lfiles s) So) as Q.
      rewrite app_length in Q. destruct (accepts ltb x s); cbn in *; lia. }
    assert (Ca2 : sum_of call_weight (some_call (fst (add ltb x s))) <= (if accepts ltb x s then 2 else 0) /\ sum_of pre_add (some_call (fst (add ltb x s))) = 0).
    { unfold add, accepts. destruct (_ || _); [dif|]; cbn; lia. }
    set (t := set_calls _ _). assert (Rt : room t <= C) by (subst t; plain; rewrite Hc, !sum_app in R; rewrite !sum_app; cbn -[add] in *; lia).
    split; [|exact Rt]. apply drop_major; [|exact Rt|].
    + assert (G : forall n, n <= entries (lfiles s) -> 2 * (entries (lfiles (snd (add ltb x s))) - n) <= 2 * (entries (lfiles s) - n) + (if accepts ltb x s then 2 else 0)).
      { intros n Hn. rewrite En. destruct (accepts ltb x s); lia. }
      assert (G0 := G 0 (Nat.le_0_l _)). rewrite !Nat.sub_0_r in G0.
      subst t; plain. rewrite Hc, F1, F2, F4, D, !sum_app. cbn -[add]. destruct (pc s); cbn -[add] in *; try (destruct sw; discriminate || idtac);
        try (destruct (accepts ltb x s); lia).
    + subst t; plain. rewrite Hc, F2, D, !sum_app. cbn -[add]. destruct (accepts ltb x s); lia.
  - (* notify *)
    assert (D : dtor s = DNone) by (eapply in_calls_none; eauto).
    set (t := set_calls _ _). assert (Rt : room t <= C) by (subst t; plain; rewrite Hc, !sum_app in R; rewrite !sum_app; cbn in *; lia).
    split; [|exact Rt]. apply drop_major; [|exact Rt|]; subst t; plain; rewrite Hc, D, !sum_app; cbn; [|lia].
    destruct (pc s); cbn; try (destruct sw); lia.
  - assert (D : dtor s = DNone) by (eapply pend_none; eauto).
    set (t := set_pend _ _). assert (Rt : room t <= C) by (subst t; plain; lia).
    split; [|exact Rt]. apply drop_major; [|exact Rt|]; subst t; plain; rewrite ?Hn, D; cbn; [|lia].
    destruct (pc s); cbn; try (destruct sw); lia.
  - (* start *) split; [|exact R]. apply drop_minor; plain; rewrite ?P; cbn; lia.
  - split; [|exact R]. destruct (logging s) eqn:L; [destruct sw|].
    + apply drop_minor; plain; rewrite ?P; cbn; lia.
    + apply drop_major; [plain; rewrite P; cbn; lia|exact R|plain; lia].
    + destruct sw; [apply drop_minor; plain; rewrite ?P; cbn; lia|]. apply drop_major; [plain; rewrite P; cbn; lia|exact R|plain; lia].
  - split; [|exact R]. apply drop_minor; plain; rewrite ?P; cbn; lia.
  - split; [|exact R]. apply drop_minor; plain; rewrite ?P; cbn; lia.
  - (* scan *) split; [|exact R]. apply drop_minor; [..|plain; lia].
    + plain. rewrite P. destruct (next_file ltb p (lfiles s)) as [[k b]|]; [dif|]; try (destruct sw); lia.
    + plain. rewrite P. destruct (next_file ltb p (lfiles s)) as [[k b]|] eqn:N; [|destruct sw; lia].
      pose proof (rem_next p k b _ So N). dif; lia.
  - split; [|exact R]. apply drop_minor; plain; rewrite ?P; cbn; lia.
  - (* write *) rewrite P in B. pose proof (buffer_entries k (lfiles s)). cbn [length] in B.
    split; [|exact R]. apply drop_major; [|exact R|plain; lia]. plain. rewrite P. cbn [Nat.eqb]. destruct (Nat.eqb_spec n 0); lia.
  - rewrite P in B. cbn [length] in B. split; [|exact R]. apply drop_minor; [..|plain; lia]; plain; rewrite ?P; [|lia]. destruct (Nat.eqb_spec n 0); lia.
  - (* erase *) rewrite P in B. destruct B as [B1 B2]. cbv zeta. set (b := buffer k (lfiles s)) in *.
    pose proof (put_keys k (firstn (length b - n) b) (lfiles s) So B2) as Kk. pose proof (rem_keys (Some k) _ _ Kk) as Rk.
    pose proof (f_equal (@length _) Kk) as Lk. rewrite !map_length in Lk.
    pose proof (put_entries k (firstn (length b - n) b) (lfiles s) So) as En. fold b in En. rewrite firstn_length in En.
    pose proof (buffer_entries k (lfiles s)) as Be. fold b in Be.
    split; [|plain; rewrite Lk; exact R].
    apply drop_minor; plain; rewrite ?P, ?Rk; try lia.
    destruct (dtor s); try lia; rewrite Ex in P; discriminate.
  - (* notify all *) split; [|exact R]. apply drop_major; [|exact R|]; plain; rewrite ?D; [|lia]. destruct (pc s); cbn; try (destruct sw); lia.
  - (* join *) split; [|exact R]. apply drop_closing; plain; rewrite ?D, ?flush_all; try lia.
  - split; [|exact R]. apply drop_closing; plain; rewrite ?D; try lia.
    + destruct (next_file ltb p (lfiles s)) as [[k b]|]; [dif|]; lia.
    + destruct (next_file ltb p (lfiles s)) as [[k b]|] eqn:N; [|unfold flush_left; lia].
      pose proof (flush_next p k b _ So N). dif; rewrite ?rev_length; lia.
  - split; [|exact R]. apply drop_closing; plain; rewrite ?D; lia.
  - split; [|exact R]. apply drop_closing; plain; rewrite ?D; cbn; lia.
  - split; [|exact R]. apply drop_closing; plain; rewrite ?D; cbn; lia.
Qed.
Lemma internals_bound C n s s' : live s -> room s <= C -> internals ltb n s s' -> n <= measure C s.
Proof.
  intros L R H. induction H as [|n s e s1 s2 S H IH]; [lia|]. destruct (step_measure C s e s1 L R S) as [Q R1].
  assert (L1 : live s1) by (eapply step_live; eauto; right; left; eauto). specialize (IH L1 R1). lia.
Qed.
Lemma exec_live lvl max flush clock tr s : exec (initial lvl max flush clock) tr s -> live s.
Proof.
  intros H. remember (initial lvl max flush clock) as s0. induction H as [|tr s e s' H IH S]; [|eapply step_live; eauto].
  subst. split; [exact I|]. do 3 eexists. apply (initial_inv ltb _ _ _ _ (fun _ => true)).
Qed.
Lemma finite_proof lvl max flush clock tr s : exec (initial lvl max flush clock) tr s -> exists N, forall n s', internals ltb n s s' -> n <= N.
Proof. intros H. exists (measure (room s) s). intros n s' Hn. eapply internals_bound; eauto. eapply exec_live; eauto. Qed.

(** * A maximum below the flush size *)
Definition stuck s : Prop := dtor s = DNone /\ 0 < max_size s < flush_size s /\ (forall k, length (buffer k (lfiles s)) <= max_size s) /\
  match pc s with LOpen _ _ | LWrite _ _ _ | LRelock _ _ => False | _ => True end.
Lemma step_stuck A W ok s e s' : inv ltb A W ok s -> (forall n, e <> EMax n) -> (forall n, e <> EFlush n) -> e <> EDestroy ->
  stuck s -> step s e s' -> stuck s' /\ (forall q x, e <> EWrite q x).
Proof.
  intros J N1 N2 N3 (T1 & T2 & T3 & T4) H. pose proof (j_sorted _ _ _ _ _ J) as So. unfold stuck.
  cases H; try congruence; try (rewrite P in T4; destruct T4; fail); (split; [|try discriminate]); cbn -[add]; auto.
  - destruct (should_log s x); discriminate.
  - destruct (add_frame ltb x s) as (F1 & F2 & F3 & F4 & F5 & F6 & _). rewrite F1, F2, F5, F6. repeat split; try tauto.
    intros q. rewrite (add_buffer ltb O). unfold accepts. destruct (Nat.eqb_spec (max_size s) 0); [lia|]. cbn [orb].
    destruct (Nat.ltb_spec (length (buffer (e_file x) (lfiles s))) (max_size s)); cbn [andb app]; [|apply T3].
    destruct (equivb ltb q (e_file x)) eqn:E; cbn [app length]; [|apply T3]. apply (equivb_true ltb O) in E. subst q. lia.
  - destruct (accepts ltb x s); discriminate.
  - repeat split; try tauto. destruct (pc s); cbn; tauto.
  - repeat split; try tauto. destruct (pc s); cbn; tauto.
  - repeat split; try tauto. destruct (logging s); [destruct sw|]; exact I.
  - repeat split; try tauto. destruct (next_file ltb p (lfiles s)) as [[k b]|] eqn:N; [|exact I].
    destruct (next_some ltb O _ _ _ _ So N) as (_ & _ & Nb & _). specialize (T3 k). rewrite Nb in T3.
    destruct (Nat.leb_spec (flush_size s) (length b)); [lia|]. rewrite andb_false_r. exact I.
Qed.
Lemma starved_proof lvl max flush clock tr s : exec (initial lvl max flush clock) tr s -> 0 < max < flush ->
  (forall n, ~ In (EMax n) tr) -> (forall n, ~ In (EFlush n) tr) -> ~ In EDestroy tr -> forall k e, ~ In (EWrite k e) tr.
Proof.
  intros H Lt N1 N2 N3. enough (G : stuck s /\ forall k e, ~ In (EWrite k e) tr) by apply G.
  remember (initial lvl max flush clock) as s0. induction H as [|tr s e s' H IH S].
  - subst. split; [|intros k e []]. repeat split; cbn; try lia.
  - assert (L : forall x, In x tr -> In x (tr ++ [e])) by (intros; apply in_or_app; auto).
    destruct IH as [IH1 IH2]; [intros n Hn; apply (N1 n), L, Hn|intros n Hn; apply (N2 n), L, Hn|intros Hn; apply N3, L, Hn|]. subst s0.
    assert (M1 : forall n, e <> EMax n) by (intros n ->; apply (N1 n), in_elt).
    assert (M2 : forall n, e <> EFlush n) by (intros n ->; apply (N2 n), in_elt).
    assert (M3 : e <> EDestroy) by (intros ->; apply N3, in_elt).
    destruct (step_stuck _ _ _ _ _ _ (exec_inv ltb O _ _ _ _ _ _ H) M1 M2 M3 IH1 S) as [Q1 Q2].
    split; [exact Q1|]. intros k x Hi. apply in_app_or in Hi. destruct Hi as [Hi|[Hi|[]]]; [apply (IH2 k x Hi)|apply (Q2 k x Hi)].
Qed.
End Live.
