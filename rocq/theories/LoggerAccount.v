From Coq Require Import List Bool Arith ZArith Lia Permutation.
From Verif Require Import Base ListUpdate LoggerModel LoggerSpec LoggerProofs.
Import ListNotations.

Section Account.
Context {K M : Type} (ltb : K -> K -> bool).
Hypothesis O : strict_total_order ltb.
Notation entry := (entry K M).
Notation event := (@event K M).
Notation logger := (@logger K M).
Notation files := (@files K M).
Notation step := (step ltb).
Notation exec := (exec ltb).
Implicit Types (s : logger) (tr : list event).

Local Arguments Nat.ltb : simpl never.
(** * C60: counting *)
Record balance tr s : Prop := {
  b_pass : forall x, cnt (passes tr) x = cnt (acceptances tr) x + cnt (discards tr) x + cnt (flat_map undecided (calls s)) x;
  b_once : forall x, cnt (passes tr) x + cnt (rejects tr) x + cnt (flat_map entering (calls s)) x = if x <? next_id s then 1 else 0;
  b_discarded : discarded s = discarded_since_reset tr
}.

Lemma fold_snoc {A B} (f : B -> A -> B) l x b : fold_left f (l ++ [x]) b = f (fold_left f l b) x.
Proof. rewrite fold_left_app. reflexivity. Qed.

Ltac count :=
  intros y;
  repeat match goal with H : forall x : nat, _ = _ |- _ => specialize (H y) end;
  unfold passes, rejects, acceptances, discards in *; rewrite ?flat_map_snoc in *; cbn in *;
  repeat match goal with
  | E : calls _ = _ |- _ => rewrite E in *; clear E
  end;
  rewrite ?flat_map_app, ?cnt_app, ?cnt_cons, ?cnt_nil in *; cbn in *;
  rewrite ?flat_map_app, ?cnt_app, ?cnt_cons, ?cnt_nil in *; cbn in *;
  rewrite ?cnt_app, ?cnt_cons, ?cnt_nil in *.

Lemma step_balance tr s e s' : balance tr s -> step s e s' -> balance (tr ++ [e]) s'.
Proof.
  intros [B1 B2 B3] H.
  cases H; (split;
   [ try solve [clear B2; count; lia] | try solve [clear B1; count; lia]
   | unfold discarded_since_reset in *; rewrite fold_snoc; cbn; try exact B3; try reflexivity ]).
  - clear B1. count. pose proof (one_next (next_id s) y). lia.
  - clear B2. destruct (should_log s x); count; lia.
  - clear B1. destruct (should_log s x); count; lia.
  - destruct (should_log s x); exact B3.
  - clear B2. unfold add, accepts in *. destruct (_ || _); [dif|]; count; lia.
  - clear B1. destruct (add_frame ltb x s) as (_ & _ & _ & _ & _ & _ & _ & _ & F & _). cbn [next_id set_calls]. rewrite F.
    unfold add, accepts in *. destruct (_ || _); [dif|]; count; lia.
  - destruct (add_frame ltb x s) as (_ & _ & _ & _ & _ & _ & _ & _ & _ & F). cbn [discarded set_calls]. rewrite F.
    destruct (accepts ltb x s); cbn; rewrite B3; reflexivity.
  - clear B2. destruct (next_file _ _ _); count; lia.
  - clear B1. destruct (next_file _ _ _); count; lia.
  - destruct (next_file _ _ _); exact B3.
Qed.
Lemma exec_balance lvl max flush clock tr s : exec (initial lvl max flush clock) tr s -> balance tr s.
Proof.
  intros H. remember (initial lvl max flush clock) as s0. induction H as [|tr s e s' H IH S]; [|eapply step_balance; eauto].
  subst. split; reflexivity.
Qed.
Lemma counted_proof lvl max flush clock tr s : exec (initial lvl max flush clock) tr s ->
  NoDup (passes tr) /\
  Permutation (passes tr) (acceptances tr ++ discards tr ++ flat_map undecided (calls s)) /\
  discarded s = discarded_since_reset tr.
Proof.
  intros H. destruct (exec_balance _ _ _ _ _ _ H) as [B1 B2 B3]. split; [|split; [|exact B3]].
  - apply (NoDup_count_occ Nat.eq_dec). intros x. specialize (B2 x). unfold cnt in *. destruct (x <? next_id s); lia.
  - apply same_perm. intros x. rewrite !cnt_app. specialize (B1 x). lia.
Qed.

Lemma step_bound s e s' n0 q : (forall m, e <> EMax m) -> step s e s' -> max_size s = n0 -> 0 < n0 ->
  max_size s' = n0 /\ length (buffer ltb q (lfiles s')) <= Nat.max n0 (length (buffer ltb q (lfiles s))).
Proof.
  intros NM H En Pn.
  cases H; cbn; try (split; [assumption|lia]).
  - exfalso. eapply NM; reflexivity.
  - destruct (add_frame ltb x s) as (_ & _ & _ & _ & _ & F & _). rewrite F. split; [assumption|]. rewrite (add_buffer ltb O).
    unfold accepts. destruct (Nat.eqb_spec (max_size s) 0); [lia|]. cbn.
    destruct (Nat.ltb_spec (length (buffer ltb (e_file x) (lfiles s))) (max_size s)); cbn; [|lia].
    destruct (equivb ltb q (e_file x)) eqn:E; cbn; [|lia]. apply (equivb_true ltb O) in E. subst q. lia.
  - split; [assumption|]. rewrite (buffer_put ltb O). destruct (equivb ltb q k) eqn:E; [|lia]. apply (equivb_true ltb O) in E. subst k.
    rewrite firstn_length. lia.
Qed.
Lemma bound_proof s0 tr s n k : exec s0 tr s -> (forall m, ~ In (EMax m) tr) -> max_size s0 = n -> 0 < n ->
  length (buffer ltb k (lfiles s)) <= Nat.max n (length (buffer ltb k (lfiles s0))).
Proof.
  intros H NM E Pn. enough (G : max_size s = n /\ length (buffer ltb k (lfiles s)) <= Nat.max n (length (buffer ltb k (lfiles s0)))) by apply G.
  induction H as [|tr s e s' H IH S]; [split; [assumption|lia]|].
  destruct IH as [IH1 IH2]; [intros m Hm; apply (NM m), in_or_app; auto|].
  destruct (step_bound s e s' n k) as [A B]; auto; [intros m ->; apply (NM m), in_elt|]. split; [exact A|]. lia.
Qed.

(** * C61: levels *)
Definition sanctioned (lvl : Z) tr (e : entry) : Prop :=
  exists tr0 e0 tr1, tr = tr0 ++ EPass e0 :: tr1 /\ In (ECall e0) tr0 /\ e = stamp e0 (e_time e) /\ (level_after lvl tr0 <= e_level e)%Z.
Definition call_ok (lvl : Z) tr (c : call) : Prop :=
  match c with CEnter e => In (ECall e) tr | CPassed e | CTimed e => sanctioned lvl tr e | CNotify _ => True end.
Lemma sanctioned_later lvl tr e ev : sanctioned lvl tr e -> sanctioned lvl (tr ++ [ev]) e.
Proof. intros (tr0 & e0 & tr1 & -> & A & B & C). exists tr0, e0, (tr1 ++ [ev]). rewrite <- app_assoc. auto. Qed.
Lemma call_ok_later lvl tr c ev : call_ok lvl tr c -> call_ok lvl (tr ++ [ev]) c.
Proof. destruct c; cbn; auto using sanctioned_later. intros H. apply in_or_app. auto. Qed.
Lemma calls_later lvl tr l ev : Forall (call_ok lvl tr) l -> Forall (call_ok lvl (tr ++ [ev])) l.
Proof. apply Forall_impl. intros c. apply call_ok_later. Qed.
Lemma level_later lvl tr ev : level_after lvl (tr ++ [ev]) = change_level (level_after lvl tr) ev.
Proof. apply fold_snoc. Qed.

Record leveled (lvl : Z) tr s : Prop := {
  v_level : level s = level_after lvl tr;
  v_calls : Forall (call_ok lvl tr) (calls s);
  v_accepted : forall e, In (EAccept e) tr -> sanctioned lvl tr e
}.
Lemma forall_mid {A} (P : A -> Prop) l1 x l2 : Forall P (l1 ++ x :: l2) -> Forall P l1 /\ P x /\ Forall P l2.
Proof. rewrite Forall_app, Forall_cons_iff. tauto. Qed.
Lemma not_new tr (ev : event) (Q : entry -> Prop) : (forall e, ev <> EAccept e) -> (forall e, In (EAccept e) tr -> Q e) -> forall e, In (EAccept e) (tr ++ [ev]) -> Q e.
Proof. intros N H e Hi. apply in_app_or in Hi. destruct Hi as [Hi|[Hi|[]]]; [auto|]. exfalso. apply (N e). exact Hi. Qed.
Lemma step_leveled lvl tr s e s' : leveled lvl tr s -> step s e s' -> leveled lvl (tr ++ [e]) s'.
Proof.
  intros [V1 V2 V3] H.
  assert (V3' : forall x, In (EAccept x) tr -> sanctioned lvl (tr ++ [e]) x) by (intros; apply sanctioned_later; auto).
  pose proof (calls_later lvl tr _ e V2) as V2'.
  cases H; (split;
    [ rewrite level_later, <- V1; cbn; try reflexivity
    | cbn; try exact V2'
    | try (apply not_new; [discriminate|exact V3']) ]).
  - apply Forall_app. split; [exact V2'|]. constructor; [|constructor]. apply in_elt.
  - destruct (should_log s x); reflexivity.
  - rewrite Hc in V2'. apply forall_mid in V2'. destruct V2' as (A & B & C). rewrite !Forall_app. split; [exact A|]. split; [|exact C].
    destruct (should_log s x) eqn:L; constructor; [|constructor]. cbn.
    rewrite Hc in V2. apply forall_mid in V2. destruct V2 as (_ & B0 & _). cbn in B0.
    exists tr, x, []. split; [reflexivity|]. split; [exact B0|]. split; [destruct x; reflexivity|].
    unfold should_log in L. apply andb_prop in L. destruct L as [_ L]. apply Z.leb_le in L. rewrite <- V1. exact L.
  - apply not_new; [destruct (should_log s x); discriminate|exact V3'].
  - rewrite Hc in V2'. apply forall_mid in V2'. destruct V2' as (A & B & C). rewrite Forall_app. split; [exact A|]. constructor; [|exact C].
    cbn in *. destruct B as (tr0 & e0 & tr1 & B1 & B2 & B3 & B4). exists tr0, e0, tr1. split; [exact B1|]. split; [exact B2|]. split; [|exact B4].
    rewrite B3. reflexivity.
  - destruct (add_frame ltb x s) as (_ & _ & _ & _ & _ & _ & F & _). rewrite F. destruct (accepts ltb x s); reflexivity.
  - rewrite Hc in V2'. apply forall_mid in V2'. destruct V2' as (A & B & C). rewrite !Forall_app. split; [exact A|]. split; [|exact C].
    unfold add. destruct (_ || _); cbn [fst some_call]; repeat dif; repeat constructor.
  - intros y Hy. apply in_app_or in Hy. destruct Hy as [Hy|[Hy|[]]]; [auto|].
    destruct (accepts ltb x s) eqn:Ac; [|discriminate]. injection Hy as ->.
    rewrite Hc in V2'. apply forall_mid in V2'. apply V2'.
  - rewrite Hc in V2'. apply forall_mid in V2'. destruct V2' as (A & B & C). rewrite Forall_app. auto.
  - destruct (next_file ltb p (lfiles s)); reflexivity.
  - apply not_new; [destruct (next_file ltb p (lfiles s)); discriminate|exact V3'].
Qed.
Lemma exec_leveled lvl max flush clock tr s : exec (initial lvl max flush clock) tr s -> leveled lvl tr s.
Proof.
  intros H. remember (initial lvl max flush clock) as s0. induction H as [|tr s e s' H IH S]; [|eapply step_leveled; eauto].
  subst. split; [reflexivity|constructor|intros e []].
Qed.
Lemma level_proof lvl max flush clock tr s e : exec (initial lvl max flush clock) tr s -> In (EAccept e) tr -> sanctioned lvl tr e.
Proof. intros H. apply (v_accepted _ _ _ (exec_leveled _ _ _ _ _ _ H)). Qed.
Lemma level_high lvl tr : (8 < lvl)%Z -> (forall z, In (ELevel z) tr -> (8 < z)%Z) -> (8 < level_after lvl tr)%Z.
Proof.
  unfold level_after. revert lvl. induction tr as [|e tr IH]; intros lvl L H; cbn; [exact L|]. apply IH; [|intros z Hz; apply H; cbn; auto].
  destruct e; cbn; auto. apply H. cbn. auto.
Qed.
Lemma off_proof lvl max flush clock tr s e : exec (initial lvl max flush clock) tr s -> (8 < lvl)%Z ->
  (forall z, In (ELevel z) tr -> (8 < z)%Z) -> (e_level e <= 8)%Z -> ~ In (EAccept e) tr.
Proof.
  intros H L Hl Le Hi. destruct (level_proof _ _ _ _ _ _ _ H Hi) as (tr0 & e0 & tr1 & E & _ & _ & Q).
  assert (8 < level_after lvl tr0)%Z; [|lia]. apply level_high; [exact L|]. intros z Hz. apply Hl. rewrite E. apply in_or_app. auto.
Qed.

(** * The order of entries of one thread *)
Definition next_of (c : @call K M) : option entry := match c with CEnter e | CPassed e | CTimed e => Some e | CNotify _ => None end.
Record ordered tr s : Prop := {
  o_threads : NoDup (map thread_of (calls s));
  o_next : forall e, In e (accepted_entries tr) -> e_id e < next_id s;
  o_call : forall c, In c (calls s) -> e_id (call_entry c) < next_id s;
  o_after : forall e c e', In e (accepted_entries tr) -> In c (calls s) -> next_of c = Some e' -> e_thread e = e_thread e' -> e_id e < e_id e';
  o_pairs : forall e1 e2, before (accepted_entries tr) e1 e2 -> e_thread e1 = e_thread e2 -> e_id e1 < e_id e2
}.
Lemma accepted_snoc tr ev : accepted_entries (tr ++ [ev]) = accepted_entries tr ++ accepts_one ev.
Proof. apply flat_map_snoc. Qed.
Lemma next_call c e : next_of c = Some e -> call_entry c = e.
Proof. destruct c; cbn; congruence. Qed.
Lemma mid_in {A} (l1 l2 : list A) x y : In y (l1 ++ l2) -> In y (l1 ++ x :: l2).
Proof. rewrite !in_app_iff. cbn. tauto. Qed.
Lemma nodup_mid {A} (l1 l2 : list A) x : NoDup (l1 ++ x :: l2) -> NoDup (l1 ++ l2) /\ ~ In x (l1 ++ l2).
Proof. intros H. split; [eapply NoDup_remove_1; eauto|eapply NoDup_remove_2; eauto]. Qed.

(** a step that neither accepts nor begins a call *)
Lemma ordered_quiet tr s ev s' : ordered tr s -> accepts_one ev = [] -> next_id s' = next_id s -> NoDup (map thread_of (calls s')) ->
  (forall c', In c' (calls s') -> exists c, In c (calls s) /\ e_id (call_entry c') = e_id (call_entry c) /\
     forall e', next_of c' = Some e' -> exists e, next_of c = Some e /\ e_id e' = e_id e /\ e_thread e' = e_thread e) ->
  ordered (tr ++ [ev]) s'.
Proof.
  intros [O1 O2 O3 O4 O5] Ev Nx Nd Hc. split; rewrite ?accepted_snoc, ?Ev, ?app_nil_r, ?Nx; auto.
  - intros c' H'. destruct (Hc c' H') as (c & Hi & E & _). rewrite E. auto.
  - intros e c' e' He H' Hn Ht. destruct (Hc c' H') as (c & Hi & _ & G). destruct (G _ Hn) as (e0 & A & B & C).
    rewrite B. apply (O4 e c e0); auto. congruence.
Qed.
Lemma ordered_same tr s ev s' : ordered tr s -> accepts_one ev = [] -> next_id s' = next_id s -> calls s' = calls s -> ordered (tr ++ [ev]) s'.
Proof.
  intros I Ev Nx Ca. eapply ordered_quiet; eauto; [rewrite Ca; apply I|]. intros c' H'. rewrite Ca in H'. exists c'.
  split; [exact H'|]. split; [reflexivity|]. intros e' He'. exists e'. auto.
Qed.
Lemma ordered_less tr s ev s' l1 c l2 : ordered tr s -> accepts_one ev = [] -> next_id s' = next_id s ->
  calls s = l1 ++ c :: l2 -> calls s' = l1 ++ l2 -> ordered (tr ++ [ev]) s'.
Proof.
  intros I Ev Nx Ca Ca'. eapply ordered_quiet; eauto.
  - pose proof (o_threads _ _ I) as N. rewrite Ca in N. rewrite Ca', map_app. rewrite map_app in N. apply nodup_mid in N. apply N.
  - intros c' H'. rewrite Ca' in H'. exists c'. split; [rewrite Ca; apply mid_in, H'|]. split; [reflexivity|]. intros e' He'. exists e'. auto.
Qed.
Lemma ordered_swap tr s ev s' l1 c c' l2 e e' : ordered tr s -> accepts_one ev = [] -> next_id s' = next_id s ->
  calls s = l1 ++ c :: l2 -> calls s' = l1 ++ c' :: l2 -> next_of c = Some e -> next_of c' = Some e' ->
  e_id e' = e_id e -> e_thread e' = e_thread e -> ordered (tr ++ [ev]) s'.
Proof.
  intros I Ev Nx Ca Ca' N N' Ei Et. assert (Th : thread_of c' = thread_of c).
  { unfold thread_of. rewrite (next_call _ _ N), (next_call _ _ N'). exact Et. }
  eapply ordered_quiet; eauto.
  - pose proof (o_threads _ _ I) as Nd. rewrite Ca in Nd. rewrite Ca', map_app. rewrite map_app in Nd. cbn in *. rewrite Th. exact Nd.
  - intros c0 H'. rewrite Ca' in H'. apply in_app_or in H'. cbn in H'. destruct H' as [H'|[<-|H']].
    1,3: exists c0; split; [rewrite Ca; apply mid_in, in_or_app; auto|]; split; [reflexivity|]; intros e0 He0; exists e0; auto.
    exists c. split; [rewrite Ca; apply in_elt|]. split; [rewrite (next_call _ _ N), (next_call _ _ N'); exact Ei|].
    intros e0 He0. rewrite N' in He0. injection He0 as <-. exists e. auto.
Qed.

Lemma step_ordered tr s e s' : ordered tr s -> step s e s' -> ordered (tr ++ [e]) s'.
Proof.
  intros I H. cases H; try (eapply ordered_same; eauto; reflexivity); try (eapply ordered_less; eauto; reflexivity).
  - destruct I as [O1 O2 O3 O4 O5]. split; rewrite ?accepted_snoc; cbn; rewrite ?app_nil_r; auto.
    + rewrite map_app. cbn. apply NoDup_snoc; auto.
    + intros e He. apply O2 in He. lia.
    + intros c Hc. apply in_app_or in Hc. destruct Hc as [Hc|[<-|[]]]; [apply O3 in Hc; lia|cbn; lia].
    + intros e c e' He Hc Hn Et. apply in_app_or in Hc. destruct Hc as [Hc|[<-|[]]]; [eauto|]. cbn in Hn. injection Hn as <-. apply O2, He.
  - destruct (should_log s x).
    + eapply (ordered_swap tr s (EPass x)); eauto; reflexivity.
    + eapply (ordered_less tr s (EReject x)); eauto; reflexivity.
  - eapply (ordered_swap tr s ETau _ l1 (CPassed x) _ l2 x (stamp x (now s))); eauto; reflexivity.
  - destruct (add_frame ltb x s) as (_ & _ & _ & _ & _ & _ & _ & _ & F & _). destruct (accepts ltb x s) eqn:Ac.
    + assert (Cs : forall c, In c (some_call (fst (add ltb x s))) -> c = CNotify x).
      { unfold add. destruct (_ || _); [dif|]; cbn; intuition. }
      assert (Ln : some_call (fst (add ltb x s)) = [] \/ some_call (fst (add ltb x s)) = [CNotify x]).
      { unfold add. destruct (_ || _); [dif|]; cbn; auto. }
      destruct I as [O1 O2 O3 O4 O5]. rewrite Hc in O1, O3, O4. rewrite map_app in O1. cbn [map] in O1.
      apply nodup_mid in O1 as O1'. destruct O1' as [N1 N2]. change (thread_of (CTimed x)) with (e_thread x) in *.
      split; rewrite ?accepted_snoc; cbn -[add]; rewrite ?F.
      * destruct Ln as [->| ->]; cbn; rewrite map_app; [exact N1|exact O1].
      * intros e He. apply in_app_or in He. destruct He as [He|[<-|[]]]; [auto|]. apply (O3 (CTimed x)), in_elt.
      * intros c Hi. rewrite !in_app_iff in Hi. destruct Hi as [Hi|[Hi|Hi]]; [apply O3, in_or_app; auto| |apply O3, in_or_app; cbn; auto].
        apply Cs in Hi. subst c. apply (O3 (CTimed x)), in_elt.
      * intros e c e' He Hi Hn Et. rewrite !in_app_iff in Hi.
        assert (Hi' : In c (l1 ++ l2)). { apply in_or_app. destruct Hi as [Hi|[Hi|Hi]]; auto. apply Cs in Hi. subst c. discriminate. }
        apply in_app_or in He. destruct He as [He|[<-|[]]].
        -- apply (O4 e c e'); auto. apply mid_in, Hi'.
        -- exfalso. apply N2. rewrite <- map_app. rewrite Et. rewrite <- (next_call _ _ Hn). apply (in_map thread_of), Hi'.
      * intros e1 e2 B Et. apply before_snoc in B. destruct B as [B|[-> B]]; [auto|].
        apply (O4 e1 (CTimed x) x); auto; apply in_elt.
    + assert (E : fst (add ltb x s) = None). { unfold add, accepts in *. rewrite Ac. reflexivity. }
      eapply (ordered_less tr s (EDiscard x)); eauto. cbn. rewrite E. reflexivity.
  - eapply ordered_same; eauto. destruct (next_file ltb p (lfiles s)); reflexivity.
Qed.
Lemma exec_ordered lvl max flush clock tr s : exec (initial lvl max flush clock) tr s -> ordered tr s.
Proof.
  intros H. remember (initial lvl max flush clock) as s0. induction H as [|tr s e s' H IH S]; [|eapply step_ordered; eauto].
  subst. split; cbn; try contradiction; [constructor|]. intros e1 e2 B. apply before_in in B. destruct B as [[] _].
Qed.
Lemma thread_order_proof lvl max flush clock tr s e1 e2 : exec (initial lvl max flush clock) tr s ->
  before (accepted_entries tr) e1 e2 -> e_thread e1 = e_thread e2 -> e_id e1 < e_id e2.
Proof. intros H. apply (o_pairs _ _ (exec_ordered _ _ _ _ _ _ H)). Qed.

(** * Time stamps *)
Definition clock_step (z : Z) (ev : event) : Prop := match ev with ETick z' => (z <= z')%Z | _ => True end.
Lemma forward_snoc clock tr ev : forward clock (tr ++ [ev]) <-> forward clock tr /\ clock_step (clock_after clock tr) ev.
Proof.
  revert clock. induction tr as [|e tr IH]; intros clock; cbn.
  - destruct ev; cbn; tauto.
  - destruct e; cbn; rewrite IH; tauto.
Qed.
Record timed clock tr s : Prop := {
  t_now : now s = clock_after clock tr;
  t_past : forall e, In e (accepted_entries tr) -> (e_time e <= now s)%Z;
  t_call : forall e, In (CTimed e) (calls s) -> (e_time e <= now s)%Z /\
    forall e0, In e0 (accepted_entries tr) -> e_thread e0 = e_thread e -> (e_time e0 <= e_time e)%Z;
  t_pairs : forall e1 e2, before (accepted_entries tr) e1 e2 -> e_thread e1 = e_thread e2 -> (e_time e1 <= e_time e2)%Z
}.
Lemma clock_snoc clock tr ev : clock_after clock (tr ++ [ev]) = match ev with ETick z => z | _ => clock_after clock tr end.
Proof. unfold clock_after. rewrite fold_snoc. reflexivity. Qed.
Lemma timed_quiet clock tr s ev s' : timed clock tr s -> accepts_one ev = [] -> now s' = now s -> now s' = clock_after clock (tr ++ [ev]) ->
  (forall e, In (CTimed e) (calls s') -> In (CTimed e) (calls s) \/ e_time e = now s) -> timed clock (tr ++ [ev]) s'.
Proof.
  intros [T1 T2 T3 T4] Ev Nw Cl Hc. split; rewrite ?accepted_snoc, ?Ev, ?app_nil_r, ?Nw; auto; [congruence|].
  intros e He. destruct (Hc e He) as [Hi|Hi]; [apply T3, Hi|]. rewrite Hi. split; [lia|]. intros e0 H0 _. apply T2, H0.
Qed.
Lemma step_timed clock tr s e s' : ordered tr s -> timed clock tr s -> clock_step (clock_after clock tr) e -> step s e s' -> timed clock (tr ++ [e]) s'.
Proof.
  intros Od I Fw H. pose proof (t_now _ _ _ I) as Nw.
  cases H; try (eapply timed_quiet; eauto; try (rewrite clock_snoc; exact Nw); cbn; auto; fail).
  - eapply timed_quiet; eauto; [rewrite clock_snoc; exact Nw|]; cbn; intros e He. apply in_app_or in He. destruct He as [He|[He|[]]]; [auto|discriminate].
  - destruct (should_log s x); (eapply timed_quiet; eauto; [rewrite clock_snoc; exact Nw|]); cbn; intros e He; rewrite Hc; left;
      rewrite !in_app_iff in *; cbn in *; intuition discriminate.
  - eapply timed_quiet; eauto; [rewrite clock_snoc; exact Nw|]; cbn; intros e He. rewrite Hc. rewrite !in_app_iff in *. cbn in *. destruct He as [He|[He|He]]; auto. injection He as <-. right. reflexivity.
  - destruct (add_frame ltb x s) as (_ & _ & _ & _ & _ & _ & _ & F & _). destruct (accepts ltb x s) eqn:Ac.
    + assert (Cs : forall c, In c (some_call (fst (add ltb x s))) -> c = CNotify x).
      { unfold add. destruct (_ || _); [dif|]; cbn; intuition. }
      destruct I as [T1 T2 T3 T4]. pose proof (o_threads _ _ Od) as N. rewrite Hc in T3, N. rewrite map_app in N. cbn [map] in N.
      apply nodup_mid in N. destruct N as [_ N]. change (thread_of (CTimed x)) with (e_thread x) in N.
      assert (X : In (CTimed x) (l1 ++ CTimed x :: l2)) by apply in_elt.
      split; rewrite ?accepted_snoc, ?clock_snoc; cbn -[add]; rewrite ?F; auto.
      * intros e He. apply in_app_or in He. destruct He as [He|[<-|[]]]; [auto|]. apply T3, X.
      * intros e He. rewrite !in_app_iff in He.
        assert (He' : In (CTimed e) (l1 ++ l2)). { apply in_or_app. destruct He as [He|[He|He]]; auto. apply Cs in He. discriminate. }
        destruct (T3 e (mid_in _ _ _ _ He')) as [A B]. split; [exact A|]. intros e0 H0 Et. apply in_app_or in H0. destruct H0 as [H0|[<-|[]]]; [auto|].
        exfalso. apply N. rewrite <- map_app, Et. change (e_thread e) with (thread_of (CTimed e)). apply in_map, He'.
      * intros e1 e2 B Et. apply before_snoc in B. destruct B as [B|[-> B]]; [auto|]. apply (T3 x X); auto.
    + assert (E : fst (add ltb x s) = None). { unfold add, accepts in *. rewrite Ac. reflexivity. }
      eapply timed_quiet; eauto; cbn -[add]; rewrite ?F, ?clock_snoc; auto. rewrite E. cbn. intros e He. left. rewrite Hc. apply mid_in, He.
  - eapply timed_quiet; eauto; [rewrite clock_snoc; exact Nw|]; cbn; intros e He. left. rewrite Hc. apply mid_in, He.
  - eapply timed_quiet; eauto; rewrite ?clock_snoc; cbn; auto; destruct (next_file ltb p (lfiles s)); auto.
  - destruct I as [T1 T2 T3 T4]. cbn in Fw. split; rewrite ?accepted_snoc, ?clock_snoc; cbn; rewrite ?app_nil_r; auto.
    + intros e He. apply T2 in He. lia.
    + intros e He. destruct (T3 e He) as [A B]. split; [lia|exact B].
Qed.
Lemma exec_timed lvl max flush clock tr s : exec (initial lvl max flush clock) tr s -> forward clock tr -> timed clock tr s.
Proof.
  intros H. remember (initial lvl max flush clock) as s0. induction H as [|tr s e s' H IH S]; intros Fw.
  - subst. split; cbn; try contradiction; [reflexivity|]. intros e1 e2 B. apply before_in in B. destruct B as [[] _].
  - apply forward_snoc in Fw. destruct Fw as [F1 F2]. eapply step_timed; eauto. subst. eapply exec_ordered; eauto.
Qed.
Lemma thread_time_proof lvl max flush clock tr s e1 e2 : exec (initial lvl max flush clock) tr s -> forward clock tr ->
  before (accepted_entries tr) e1 e2 -> e_thread e1 = e_thread e2 -> (e_time e1 <= e_time e2)%Z.
Proof. intros H Fw. apply (t_pairs _ _ _ (exec_timed _ _ _ _ _ _ H Fw)). Qed.

(** the time of an entry is what the clock showed between the level check and the acceptance *)
Definition stamped clock tr (e : entry) : Prop :=
  exists tr0 e0 tr1 tr2, tr = tr0 ++ EPass e0 :: tr1 ++ tr2 /\ e = stamp e0 (clock_after clock (tr0 ++ EPass e0 :: tr1)).
Definition call_stamped clock tr (c : call) : Prop :=
  match c with
  | CPassed e => exists tr0 tr1, tr = tr0 ++ EPass e :: tr1
  | CTimed e => stamped clock tr e
  | _ => True
  end.
Lemma call_stamped_later clock tr c ev : call_stamped clock tr c -> call_stamped clock (tr ++ [ev]) c.
Proof.
  destruct c; cbn; auto.
  - intros (tr0 & tr1 & ->). exists tr0, (tr1 ++ [ev]). rewrite <- app_assoc. reflexivity.
  - intros (tr0 & e0 & tr1 & tr2 & -> & E). exists tr0, e0, tr1, (tr2 ++ [ev]). split; [|exact E].
    rewrite <- app_assoc. cbn. rewrite <- app_assoc. reflexivity.
Qed.
Record stamps clock tr s : Prop := {
  m_now : now s = clock_after clock tr;
  m_calls : Forall (call_stamped clock tr) (calls s);
  m_accepted : forall a e b, tr = a ++ EAccept e :: b -> stamped clock a e
}.
Lemma snoc_split {A} (l : list A) x a y b : l ++ [x] = a ++ y :: b -> (exists b', l = a ++ y :: b') \/ (l = a /\ x = y).
Proof.
  destruct b as [|z b] using rev_ind; intros H.
  - apply app_inj_tail in H. destruct H as [-> ->]. right. auto.
  - left. exists b. rewrite app_comm_cons, app_assoc in H. apply app_inj_tail in H. apply H.
Qed.
Lemma not_new_at clock tr (ev : event) : (forall e, ev <> EAccept e) -> (forall a e b, tr = a ++ EAccept e :: b -> stamped clock a e) ->
  forall a e b, tr ++ [ev] = a ++ EAccept e :: b -> stamped clock a e.
Proof. intros N H a e b E. apply snoc_split in E. destruct E as [(b' & E)|(_ & E)]; [eauto|exfalso; eapply N; eauto]. Qed.
Lemma step_stamps clock tr s e s' : stamps clock tr s -> step s e s' -> stamps clock (tr ++ [e]) s'.
Proof.
  intros [V1 V2 V3] H.
  assert (V2' : Forall (call_stamped clock (tr ++ [e])) (calls s)) by (eapply Forall_impl; [|exact V2]; intros c; apply call_stamped_later).
  cases H; (split;
    [ rewrite clock_snoc; cbn; try exact V1
    | cbn; try exact V2'
    | try (apply not_new_at; [discriminate|exact V3]) ]).
  - apply Forall_app. split; [exact V2'|]. constructor; [|constructor]. exact I.
  - destruct (should_log s x); exact V1.
  - rewrite Hc in V2'. apply forall_mid in V2'. destruct V2' as (A & B & C). rewrite !Forall_app. split; [exact A|]. split; [|exact C].
    destruct (should_log s x) eqn:L; constructor; [|constructor]. cbn. exists tr, []. reflexivity.
  - apply not_new_at; [destruct (should_log s x); discriminate|exact V3].
  - pose proof V2 as V20. rewrite Hc in V2', V20. apply forall_mid in V2'. destruct V2' as (A & B & C). rewrite Forall_app. split; [exact A|].
    constructor; [|exact C]. apply forall_mid in V20. destruct V20 as (_ & (tr0 & tr1 & Et) & _).
    exists tr0, x, tr1, [ETau]. split; [rewrite Et, <- app_assoc; reflexivity|]. rewrite <- Et, <- V1. reflexivity.
  - destruct (add_frame ltb x s) as (_ & _ & _ & _ & _ & _ & _ & F & _). rewrite F. destruct (accepts ltb x s); exact V1.
  - rewrite Hc in V2'. apply forall_mid in V2'. destruct V2' as (A & B & C). rewrite !Forall_app. split; [exact A|]. split; [|exact C].
    unfold add. destruct (_ || _); cbn [fst some_call]; repeat dif; repeat constructor.
  - intros a y b E. apply snoc_split in E. destruct E as [(b' & E)|(-> & E)]; [eauto|].
    destruct (accepts ltb x s) eqn:Ac; [|discriminate]. injection E as ->. rewrite Hc in V2. apply forall_mid in V2. apply V2.
  - rewrite Hc in V2'. apply forall_mid in V2'. destruct V2' as (A & B & C). rewrite Forall_app. auto.
  - destruct (next_file ltb p (lfiles s)); exact V1.
  - apply not_new_at; [destruct (next_file ltb p (lfiles s)); discriminate|exact V3].
  - reflexivity.
Qed.
Lemma stamped_proof lvl max flush clock tr s a e b : exec (initial lvl max flush clock) tr s -> tr = a ++ EAccept e :: b ->
  stamped clock a e.
Proof.
  intros H. enough (St : stamps clock tr s) by (apply (m_accepted _ _ _ St)).
  remember (initial lvl max flush clock) as s0. induction H as [|tr s e0 s' H IH S]; [|eapply step_stamps; eauto].
  subst. split; [reflexivity|constructor|]. intros a' e' b' E. destruct a'; discriminate.
Qed.

(** * Settings *)
Lemma step_settings s e s' : step s e s' ->
  level s' = change_level (level s) e /\
  max_size s' = match e with EMax n => n | _ => max_size s end /\
  flush_size s' = match e with EFlush n => n | _ => flush_size s end.
Proof.
  intros H. cases H; cbn; auto.
  - destruct (should_log s x); auto.
  - destruct (add_frame ltb x s) as (_ & _ & _ & _ & F1 & F2 & F3 & _). rewrite F1, F2, F3. destruct (accepts ltb x s); auto.
  - destruct (next_file ltb p (lfiles s)); auto.
Qed.
Lemma settings_proof lvl max flush clock tr s : exec (initial lvl max flush clock) tr s ->
  level s = level_after lvl tr /\ max_size s = max_after max tr /\ flush_size s = flush_after flush tr.
Proof.
  intros H. remember (initial lvl max flush clock) as s0. induction H as [|tr s e s' H IH S]; [subst; auto|].
  destruct IH as (I1 & I2 & I3). destruct (step_settings s e s' S) as (J1 & J2 & J3).
  unfold level_after, max_after, flush_after in *. rewrite !fold_snoc, J1, J2, J3, <- I1, <- I2, <- I3. auto.
Qed.
Lemma check_proof lvl max flush clock tr s ev s' e : exec (initial lvl max flush clock) tr s -> step s ev s' ->
  (ev = EPass e -> (level_after lvl tr <= e_level e)%Z) /\ (ev = EReject e -> (e_level e < level_after lvl tr)%Z).
Proof.
  intros H S. destruct (settings_proof _ _ _ _ _ _ H) as (<- & _). pose proof (exec_inv ltb O _ _ _ _ _ _ H) as [_ _ _ _ Ca Lo].
  cases S; try (split; discriminate).
  - assert (Lg : logging s = true) by (apply Lo; eapply in_calls_none; eauto).
    destruct (should_log s x) eqn:L; unfold should_log in L; rewrite Lg in L; cbn in L; split; try discriminate; intros E; injection E as <-;
      [apply Z.leb_le in L|apply Z.leb_gt in L]; exact L.
  - destruct (accepts ltb x s); split; discriminate.
  - destruct (next_file ltb p (lfiles s)); split; discriminate.
Qed.
Lemma full_proof lvl max flush clock tr s ev s' e : exec (initial lvl max flush clock) tr s -> step s ev s' ->
  (ev = EAccept e -> max_after max tr = 0 \/ length (buffer ltb (e_file e) (lfiles s)) < max_after max tr) /\
  (ev = EDiscard e -> 0 < max_after max tr <= length (buffer ltb (e_file e) (lfiles s))).
Proof.
  intros H S. destruct (settings_proof _ _ _ _ _ _ H) as (_ & <- & _).
  cases S; try (split; discriminate).
  - destruct (should_log s x); split; discriminate.
  - unfold accepts. destruct (Nat.eqb_spec (max_size s) 0); cbn; [split; [auto|discriminate]|].
    destruct (Nat.ltb_spec (length (buffer ltb (e_file x) (lfiles s))) (max_size s)); split; try discriminate; intros E; injection E as <-; lia.
  - destruct (next_file ltb p (lfiles s)); split; discriminate.
Qed.
End Account.
