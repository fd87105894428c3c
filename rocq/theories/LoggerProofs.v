From Coq Require Import List Bool Arith ZArith Lia Permutation Sorted.
From Verif Require Import Base ListUpdate LoggerModel LoggerSpec.
Import ListNotations.


Ltac cases H :=
  destruct H as [H|[H|[H|H]]];
  [ destruct H as [t k l m D Ht|z D|n D|n D|D|D Dc Dp]
  | destruct H as [x l1 l2 Hc|x l1 l2 Hc|x l1 l2 Hc Hh|x l1 l2 Hc|n Hn|P|sw P|P|P|sw p P|k todo P|k x todo n P|k n P|k n P
                  |D|D P|p D|k todo D|k x todo D|k D]
  | destruct H as [k todo P|k x todo n P|k todo D|k x todo D]
  | destruct H as [P|z] ].

Ltac dif := match goal with |- context [if ?c then _ else _] => destruct c end.

Section Proofs.
Context {K M : Type} (ltb : K -> K -> bool).
Hypothesis O : strict_total_order ltb.
Notation entry := (entry K M).
Notation event := (@event K M).
Notation logger := (@logger K M).
Notation files := (@files K M).
Notation step := (step ltb).
Notation exec := (exec ltb).
Notation internal := (internal ltb).
Implicit Types (s : logger) (tr : list event).

(** * File names *)
Lemma equivb_true x y : equivb ltb x y = true <-> x = y.
Proof.
  unfold equivb. split.
  - intros H. apply andb_prop in H. destruct H as [H1 H2]. apply negb_true_iff in H1. apply negb_true_iff in H2. apply (sto_total _ O); auto.
  - intros ->. rewrite (sto_irrefl _ O). reflexivity.
Qed.
Lemma equivb_refl x : equivb ltb x x = true.
Proof. apply equivb_true. reflexivity. Qed.
Lemma equivb_sym x y : equivb ltb x y = equivb ltb y x.
Proof. unfold equivb. apply andb_comm. Qed.
Lemma equivb_false x y : equivb ltb x y = false <-> x <> y.
Proof. rewrite <- equivb_true. destruct (equivb ltb x y); split; congruence. Qed.
Lemma lt_not x y : ltb x y = true -> ltb y x = false.
Proof. intros H. destruct (ltb y x) eqn:E; [|reflexivity]. rewrite <- (sto_irrefl _ O x). symmetry. eapply (sto_trans _ O); eauto. Qed.
Lemma lt_equiv x y : ltb x y = true -> equivb ltb x y = false.
Proof. intros H. unfold equivb. rewrite H. reflexivity. Qed.
Lemma gt_equiv x y : ltb x y = true -> equivb ltb y x = false.
Proof. intros H. rewrite equivb_sym. apply lt_equiv, H. Qed.
Lemma key_cases x y : ltb x y = true \/ x = y \/ ltb y x = true.
Proof. destruct (ltb x y) eqn:A; [auto|]. destruct (ltb y x) eqn:B; [auto|]. right. left. apply (sto_total _ O); auto. Qed.
Lemma key_dec (x y : K) : {x = y} + {x <> y}.
Proof. destruct (equivb ltb x y) eqn:E; [left; apply equivb_true, E|right; apply equivb_false, E]. Qed.

(** * The map *)
Lemma find_put k k' b (l : files) :
  find_file ltb k (put_file ltb k' b l) = if equivb ltb k k' then Some b else find_file ltb k l.
Proof.
  induction l as [|[k0 b0] l IH]; simpl; [destruct (equivb ltb k k'); reflexivity|].
  destruct (ltb k' k0) eqn:A; [simpl; destruct (equivb ltb k k') eqn:E; reflexivity|].
  destruct (ltb k0 k') eqn:B; simpl.
  - rewrite IH. destruct (equivb ltb k k0) eqn:E; [|reflexivity]. apply equivb_true in E. subst k0.
    rewrite lt_equiv by exact B. reflexivity.
  - assert (k0 = k') by (apply (sto_total _ O); auto). subst k0. destruct (equivb ltb k k'); reflexivity.
Qed.
Lemma buffer_put k k' b (l : files) :
  buffer ltb k (put_file ltb k' b l) = if equivb ltb k k' then b else buffer ltb k l.
Proof. unfold buffer. rewrite find_put. destruct (equivb ltb k k'); reflexivity. Qed.

Definition file_lt (f g : K * list entry) : Prop := ltb (fst f) (fst g) = true.
Definition sorted (l : files) : Prop := StronglySorted file_lt l.
Lemma put_in k b (l : files) f : In f (put_file ltb k b l) -> f = (k, b) \/ In f l.
Proof.
  induction l as [|[k0 b0] l IH]; simpl; [intuition|]. destruct (ltb k k0) eqn:A; [simpl; intuition|].
  destruct (ltb k0 k) eqn:B; simpl; [intuition|]. assert (k0 = k) by (apply (sto_total _ O); auto). subst k0. intuition.
Qed.
Lemma put_sorted k b (l : files) : sorted l -> sorted (put_file ltb k b l).
Proof.
  unfold sorted. induction l as [|[k0 b0] l IH]; intros H; simpl; [repeat constructor|]. inversion H as [|? ? H1 H2]; subst.
  destruct (ltb k k0) eqn:A.
  - constructor; [exact H|]. constructor; [exact A|]. eapply Forall_impl; [|exact H2]. intros g Hg. unfold file_lt in *. simpl in *. eapply (sto_trans _ O); eauto.
  - destruct (ltb k0 k) eqn:B.
    + constructor; [auto|]. apply Forall_forall. intros g Hg. apply put_in in Hg. destruct Hg as [->|Hg]; [exact B|].
      rewrite Forall_forall in H2. apply H2, Hg.
    + constructor; [exact H1|exact H2].
Qed.
Lemma find_none k (l : files) : (forall f, In f l -> fst f <> k) -> find_file ltb k l = None.
Proof.
  induction l as [|[k0 b0] l IH]; intros H; simpl; [reflexivity|].
  assert (E : equivb ltb k k0 = false) by (apply equivb_false; intros ->; apply (H (k0, b0)); [left|]; reflexivity).
  rewrite E. apply IH. intros f Hf. apply H. right. exact Hf.
Qed.
Lemma find_some k b (l : files) : sorted l -> In (k, b) l -> find_file ltb k l = Some b.
Proof.
  unfold sorted. induction l as [|[k0 b0] l IH]; intros So H; [destruct H|]. inversion So as [|? ? H1 H2]; subst. simpl.
  destruct H as [H|H].
  - injection H as -> ->. rewrite equivb_refl. reflexivity.
  - rewrite Forall_forall in H2. specialize (H2 _ H). unfold file_lt in H2. simpl in H2. rewrite (gt_equiv _ _ H2). apply IH; auto.
Qed.
Lemma find_in k b (l : files) : find_file ltb k l = Some b -> In (k, b) l.
Proof.
  induction l as [|[k0 b0] l IH]; simpl; [discriminate|]. destruct (equivb ltb k k0) eqn:E; intros H.
  - apply equivb_true in E. subst k0. injection H as ->. auto.
  - right. apply IH, H.
Qed.
Lemma buffer_in k (l : files) : buffer ltb k l <> [] -> In (k, buffer ltb k l) l.
Proof. unfold buffer. destruct (find_file ltb k l) eqn:E; [|congruence]. intros _. apply find_in, E. Qed.

Lemma next_some p k b (l : files) : sorted l -> next_file ltb p l = Some (k, b) ->
  after ltb p k = true /\ In (k, b) l /\ buffer ltb k l = b /\
  forall k', after ltb p k' = true -> ltb k' k = true -> buffer ltb k' l = [].
Proof.
  unfold next_file. intros So H. pose proof (find_some_in := find_some). apply List.find_some in H as H'. destruct H' as [Hi Ha]. simpl in Ha.
  split; [exact Ha|]. split; [exact Hi|]. split; [unfold buffer; rewrite (find_some k b l So Hi); reflexivity|].
  intros k' A L. unfold buffer. rewrite find_none; [reflexivity|]. intros f Hf E. subst k'.
  clear Hi find_some_in. induction l as [|g l IH]; [destruct Hf|]. inversion So as [|? ? H1 H2]; subst. simpl in H. destruct (after ltb p (fst g)) eqn:Ag.
  - injection H as ->. destruct Hf as [<-|Hf]; [simpl in L; rewrite (sto_irrefl _ O) in L; discriminate|].
    rewrite Forall_forall in H2. specialize (H2 _ Hf). unfold file_lt in H2. simpl in H2. rewrite (lt_not _ _ H2) in L. discriminate.
  - destruct Hf as [<-|Hf]; [congruence|]. apply IH; auto.
Qed.
Lemma next_none p (l : files) k : next_file ltb p l = None -> after ltb p k = true -> buffer ltb k l = [].
Proof.
  unfold next_file. intros H A. unfold buffer. rewrite find_none; [reflexivity|]. intros f Hf <-.
  pose proof (List.find_none _ _ H f Hf) as X. simpl in X. congruence.
Qed.
Lemma after_step p k k' : after ltb p k = true -> after ltb (Some k) k' = true -> after ltb p k' = true.
Proof. destruct p as [k0|]; simpl; [|auto]. intros A B. eapply (sto_trans _ O); eauto. Qed.

(** * Where each accepted entry is *)
Definition written_now (k : K) (s : logger) : nat :=
  match pc s with LWrite k' _ n | LRelock k' n => if equivb ltb k k' then n else 0 | _ => 0 end.
Definition settled (A W : list entry) (ok : bool) : Prop := prefix W A /\ (ok = true -> A = W).
Definition place (A W : list entry) (ok : bool) (s : logger) (k : K) : Prop :=
  let b := buffer ltb k (lfiles s) in
  match dtor s with
  | DNone | DStopped | DNotified => A = W ++ skipn (written_now k s) (rev b)
  | DFlush p => if after ltb p k then A = W ++ rev b else settled A W ok
  | DOpen k' todo | DWrite k' todo =>
      if equivb ltb k k' then A = W ++ todo else if ltb k' k then A = W ++ rev b else settled A W ok
  | DDone => settled A W ok
  end.
Definition todo_ok (s : logger) : Prop :=
  match pc s with
  | LOpen k todo => prefix todo (rev (buffer ltb k (lfiles s))) /\ todo <> []
  | LWrite k todo n => prefix todo (skipn n (rev (buffer ltb k (lfiles s)))) /\ n <= length (buffer ltb k (lfiles s))
  | LRelock k n => n <= length (buffer ltb k (lfiles s))
  | _ => True
  end.
Definition fail_in (k : K) (ev : event) : bool := match ev with EFail k' => equivb ltb k k' | _ => false end.
Record inv (A W : K -> list entry) (ok : K -> bool) (s : logger) : Prop := {
  j_sorted : sorted (lfiles s);
  j_place : forall k, place (A k) (W k) (ok k) s k;
  j_todo : todo_ok s;
  j_exited : match dtor s with DFlush _ | DOpen _ _ | DWrite _ _ | DDone => pc s = LExited | _ => True end;
  j_calls : dtor s <> DNone -> calls s = [] /\ pend s = 0;
  j_logging : logging s = true <-> dtor s = DNone
}.

Lemma initial_inv lvl max flush clock ok : inv (fun _ => []) (fun _ => []) ok (initial lvl max flush clock).
Proof.
  constructor; [constructor|intros k; reflexivity|exact I|exact I|cbn; congruence|cbn; tauto].
Qed.

Lemma prefix_app {A} (l l' r : list A) : prefix l l' -> prefix l (l' ++ r).
Proof. intros (x & ->). exists (x ++ r). rewrite app_assoc. reflexivity. Qed.
Lemma prefix_refl {A} (l : list A) : prefix l l.
Proof. exists []. rewrite app_nil_r. reflexivity. Qed.
Lemma prefix_length {A} (l l' : list A) : prefix l l' -> length l <= length l'.
Proof. intros (x & ->). rewrite app_length. lia. Qed.
Lemma skipn_app_le {A} n (l r : list A) : n <= length l -> skipn n (l ++ r) = skipn n l ++ r.
Proof. intros H. rewrite skipn_app. replace (n - length l) with 0 by lia. reflexivity. Qed.

Lemma step_sorted s e s' : sorted (lfiles s) -> step s e s' -> sorted (lfiles s').
Proof.
  intros So H. cases H; cbn; auto.
  - unfold add. destruct (_ || _); cbn; apply put_sorted; auto.
  - apply put_sorted; auto.
Qed.
Lemma in_calls_none (s : logger) (c : @call K M) l1 l2 : (dtor s <> DNone -> calls s = [] /\ pend s = 0) -> calls s = l1 ++ c :: l2 -> dtor s = DNone.
Proof.
  intros J H. destruct (dtor s); auto; destruct J as [J _]; try discriminate; rewrite H in J; destruct l1; discriminate.
Qed.
Lemma pend_none (s : logger) n : (dtor s <> DNone -> calls s = [] /\ pend s = 0) -> pend s = S n -> dtor s = DNone.
Proof. intros J H. destruct (dtor s); auto; destruct J as [_ J]; try discriminate; rewrite H in J; discriminate. Qed.

Definition early (s : logger) : Prop := match dtor s with DNone | DStopped | DNotified => True | _ => False end.
Lemma place_early A W ok (s : logger) k : early s -> (place A W ok s k <-> A = W ++ skipn (written_now k s) (rev (buffer ltb k (lfiles s)))).
Proof. unfold early, place. destruct (dtor s); tauto. Qed.
Lemma pc_early (s : logger) : match dtor s with DFlush _ | DOpen _ _ | DWrite _ _ | DDone => pc s = LExited | _ => True end ->
  pc s <> LExited -> early s.
Proof. unfold early. destruct (dtor s); auto. Qed.
Lemma none_early (s : logger) : dtor s = DNone -> early s.
Proof. unfold early. intros ->. exact I. Qed.
Lemma wake_now k (s : logger) : written_now k (set_pc (wake (pc s)) s) = written_now k s.
Proof. unfold written_now. cbn. destruct (pc s); reflexivity. Qed.
Lemma settle_later A W ok : settled A W ok -> settled A W (ok && false).
Proof. intros [H _]. split; [exact H|]. rewrite andb_false_r. discriminate. Qed.
Lemma settle_fail A W ok todo : A = W ++ todo -> settled A W (ok && false).
Proof. intros ->. split; [exists todo; reflexivity|]. rewrite andb_false_r. discriminate. Qed.
Lemma settle_nil A W ok : A = W ++ [] -> settled A W ok.
Proof. intros ->. rewrite app_nil_r. split; [apply prefix_refl|auto]. Qed.
Lemma prefix_cons {A} (x : A) l l' : prefix (x :: l) l' -> exists r, l' = x :: r /\ prefix l r.
Proof. intros (r & ->). exists (l ++ r). split; [reflexivity|]. exists r. reflexivity. Qed.
Lemma skipn_S {A} n (l : list A) x r : skipn n l = x :: r -> skipn (S n) l = r /\ n < length l.
Proof.
  revert n. induction l as [|a l IH]; intros [|n] H; cbn in *; try discriminate.
  - injection H as -> ->. split; [reflexivity|lia].
  - destruct (IH n H). split; [assumption|lia].
Qed.
Lemma accepted_same k (e : entry) : accepted_in ltb k (EAccept e) = if equivb ltb k (e_file e) then [e] else [].
Proof. reflexivity. Qed.

Lemma add_files e (s : logger) : lfiles (snd (add ltb e s)) =
  put_file ltb (e_file e) ((if accepts ltb e s then [e] else []) ++ buffer ltb (e_file e) (lfiles s)) (lfiles s).
Proof. unfold add, accepts. destruct (_ || _); reflexivity. Qed.
Lemma add_frame e (s : logger) : pc (snd (add ltb e s)) = pc s /\ dtor (snd (add ltb e s)) = dtor s /\ logging (snd (add ltb e s)) = logging s /\
  pend (snd (add ltb e s)) = pend s /\ flush_size (snd (add ltb e s)) = flush_size s /\ max_size (snd (add ltb e s)) = max_size s /\
  level (snd (add ltb e s)) = level s /\ now (snd (add ltb e s)) = now s /\ next_id (snd (add ltb e s)) = next_id s /\
  discarded (snd (add ltb e s)) = (if accepts ltb e s then 0 else 1) + discarded s.
Proof. unfold add, accepts. destruct (_ || _); cbn; auto 15. Qed.
Lemma add_buffer k e (s : logger) : buffer ltb k (lfiles (snd (add ltb e s))) =
  (if accepts ltb e s && equivb ltb k (e_file e) then [e] else []) ++ buffer ltb k (lfiles s).
Proof.
  rewrite add_files, buffer_put. destruct (equivb ltb k (e_file e)) eqn:E.
  - apply equivb_true in E. subst k. destruct (accepts ltb e s); reflexivity.
  - rewrite andb_false_r. reflexivity.
Qed.

Lemma written_le k (s : logger) : todo_ok s -> written_now k s <= length (buffer ltb k (lfiles s)).
Proof.
  unfold todo_ok, written_now. destruct (pc s); try lia; destruct (equivb ltb k k0) eqn:E; try lia; apply equivb_true in E; subst; [intros [_ H]|intros H]; exact H.
Qed.

Ltac noev := rewrite ?app_nil_r, ?andb_true_r.
Lemma step_place A W ok s ev s' : inv A W ok s -> step s ev s' ->
  forall k, place (A k ++ accepted_in ltb k ev) (W k ++ written_in ltb k ev) (ok k && negb (fail_in k ev)) s' k.
Proof.
  intros [So Pl To Ex Ca Lo] H q. specialize (Pl q). pose proof (written_le q s To) as Le.
  cases H; cbn [accepted_in written_in fail_in negb]; noev; try exact Pl;
    try (unfold place, written_now in *; cbn in *; rewrite D in Pl; exact Pl);
    try (unfold place, written_now in *; cbn in *; rewrite P in Pl; exact Pl).
  - (* check *) destruct (should_log s x); cbn; noev; exact Pl.
  - (* add *)
    assert (Dn : dtor s = DNone) by (eapply in_calls_none; eauto). destruct (add_frame x s) as (F1 & F2 & _).
    apply place_early in Pl; [|apply none_early, Dn]. apply place_early; [apply none_early; cbn; congruence|].
    replace (written_now q _) with (written_now q s) by (unfold written_now; cbn; rewrite F1; reflexivity).
    cbn [lfiles set_calls]. rewrite add_buffer. destruct (accepts ltb x s); cbn [accepted_in written_in andb app]; noev; [|exact Pl].
    unfold same_file. destruct (equivb ltb q (e_file x)); cbn [app rev]; noev; [|exact Pl].
    rewrite skipn_app_le by (rewrite rev_length; exact Le). rewrite app_assoc, <- Pl. reflexivity.
  - (* notify *) assert (Dn : dtor s = DNone) by (eapply in_calls_none; eauto).
    apply place_early in Pl; [|apply none_early, Dn]. apply place_early; [apply none_early; exact Dn|].
    change (written_now q _) with (written_now q (set_pc (wake (pc s)) s)). rewrite wake_now. exact Pl.
  - assert (Dn : dtor s = DNone) by (eapply pend_none; eauto).
    apply place_early in Pl; [|apply none_early, Dn]. apply place_early; [apply none_early; exact Dn|].
    change (written_now q _) with (written_now q (set_pc (wake (pc s)) s)). rewrite wake_now. exact Pl.
  - (* check *) unfold place, written_now in *; cbn in *; rewrite P in Pl. destruct (logging s); [destruct sw|]; exact Pl.
  - (* scan *) unfold place, written_now in *; cbn in *; rewrite P in Pl. destruct (next_file ltb p (lfiles s)) as [[k b]|]; [dif|]; exact Pl.
  - (* open *) unfold place, written_now in *; cbn in *; rewrite P in Pl. destruct (equivb ltb q k); exact Pl.
  - (* write *)
    assert (E : early s) by (apply pc_early; congruence). apply place_early in Pl; [|exact E]. apply place_early; [exact E|].
    unfold todo_ok in To. rewrite P in To. destruct To as [To _]. unfold written_now in *. cbn. rewrite P in Pl.
    destruct (equivb ltb q k) eqn:Eq; noev; [|exact Pl]. apply equivb_true in Eq. subst q.
    apply prefix_cons in To. destruct To as (r & Hr & _). rewrite Hr in Pl. apply skipn_S in Hr. destruct Hr as [-> _].
    rewrite <- app_assoc. exact Pl.
  - (* erase *)
    assert (E : early s) by (apply pc_early; congruence). apply place_early in Pl; [|exact E]. apply place_early; [exact E|].
    unfold written_now in *. cbn. rewrite P in Pl. rewrite buffer_put. destruct (equivb ltb q k) eqn:Eq; [|exact Pl].
    apply equivb_true in Eq. subst q. rewrite Pl, skipn_rev. reflexivity.
  - (* notify all *)
    assert (E : early s) by (unfold early; rewrite D; exact I). apply place_early in Pl; [|exact E]. apply place_early; [exact I|].
    change (written_now q _) with (written_now q (set_pc (wake (pc s)) s)). rewrite wake_now. exact Pl.
  - (* join *) unfold place in *. cbn. rewrite D in Pl. unfold written_now in Pl. rewrite P in Pl. exact Pl.
  - (* flush *)
    unfold place in *. cbn. rewrite D in Pl. destruct (next_file ltb p (lfiles s)) as [[k b]|] eqn:N; cbn; noev.
    + destruct (next_some _ _ _ _ So N) as (N1 & N2 & N3 & N4). destruct (Nat.eqb_spec (length b) 0) as [Z|Z].
      * cbn. destruct (key_cases q k) as [L|[->|L]].
        -- rewrite (lt_not _ _ L). destruct (after ltb p q) eqn:Aq; [|exact Pl]. rewrite (N4 q Aq L) in Pl. apply settle_nil, Pl.
        -- rewrite (sto_irrefl _ O). rewrite N1, N3 in Pl. destruct b; [|discriminate]. apply settle_nil, Pl.
        -- rewrite L. rewrite (after_step p k q N1 L) in Pl. exact Pl.
      * destruct (key_cases q k) as [L|[->|L]].
        -- rewrite (lt_equiv _ _ L), (lt_not _ _ L). destruct (after ltb p q) eqn:Aq; [|exact Pl]. rewrite (N4 q Aq L) in Pl. apply settle_nil, Pl.
        -- rewrite equivb_refl. rewrite N1, N3 in Pl. exact Pl.
        -- rewrite (gt_equiv _ _ L), L. rewrite (after_step p k q N1 L) in Pl. exact Pl.
    + destruct (after ltb p q) eqn:Aq; [|exact Pl]. rewrite (next_none _ _ _ N Aq) in Pl. apply settle_nil, Pl.
  - (* dtor writes *)
    unfold place in *. cbn. rewrite D in Pl. destruct (equivb ltb q k) eqn:Eq; noev; [|exact Pl]. rewrite <- app_assoc. exact Pl.
  - unfold place in *. cbn. rewrite D in Pl. destruct (equivb ltb q k) eqn:Eq.
    + apply equivb_true in Eq. subst q. rewrite (sto_irrefl _ O). apply settle_nil, Pl.
    + destruct (ltb k q) eqn:L; exact Pl.
  - (* failures *)
    assert (E : early s) by (apply pc_early; congruence). apply place_early in Pl; [|exact E]. apply place_early; [exact E|].
    unfold written_now in *. cbn. rewrite P in Pl. destruct (equivb ltb q k); exact Pl.
  - assert (E : early s) by (apply pc_early; congruence). apply place_early in Pl; [|exact E]. apply place_early; [exact E|].
    unfold written_now in *. cbn. rewrite P in Pl. exact Pl.
  - unfold place in *. cbn. rewrite D in Pl. destruct (equivb ltb q k) eqn:Eq.
    + apply equivb_true in Eq. subst q. rewrite (sto_irrefl _ O). eapply settle_fail, Pl.
    + cbn. rewrite andb_true_r. destruct (ltb k q) eqn:L; exact Pl.
  - unfold place in *. cbn. rewrite D in Pl. destruct (equivb ltb q k) eqn:Eq.
    + apply equivb_true in Eq. subst q. rewrite (sto_irrefl _ O). eapply settle_fail, Pl.
    + cbn. rewrite andb_true_r. destruct (ltb k q) eqn:L; exact Pl.
Qed.

Lemma step_todo A W ok s ev s' : inv A W ok s -> step s ev s' -> todo_ok s'.
Proof.
  intros [So Pl To Ex Ca Lo] H. unfold todo_ok in *.
  cases H; cbn -[skipn]; try exact To; try exact I; try (rewrite P in To; exact To).
  - (* add *)
    destruct (add_frame x s) as (F1 & _). rewrite F1.
    assert (G : forall k, exists a, buffer ltb k (lfiles (snd (add ltb x s))) = a ++ buffer ltb k (lfiles s)) by (intros k; rewrite add_buffer; eauto).
    destruct (pc s); auto; destruct (G k) as (a & ->).
    + destruct To as [T1 T2]. split; [rewrite rev_app_distr; apply prefix_app, T1|exact T2].
    + destruct To as [T1 T2]. split; [|rewrite app_length; lia]. rewrite rev_app_distr, skipn_app_le by (rewrite rev_length; exact T2). apply prefix_app, T1.
    + rewrite app_length. lia.
  - destruct (pc s); cbn; exact To.
  - destruct (pc s); cbn; exact To.
  - destruct (logging s); [destruct sw|]; exact I.
  - destruct (next_file ltb p (lfiles s)) as [[k b]|] eqn:N; [|exact I]. destruct (next_some _ _ _ _ So N) as (N1 & N2 & N3 & N4).
    destruct (Nat.eqb_spec (length b) 0) as [Z|Z]; cbn; [exact I|]. destruct (flush_size s <=? length b); [|exact I].
    rewrite N3. split; [apply prefix_refl|]. intros E. apply (f_equal (@length _)) in E. rewrite rev_length in E. cbn in E. lia.
  - rewrite P in To. cbn. split; [apply To|lia].
  - rewrite P in To. destruct To as [T1 T2]. apply prefix_cons in T1. destruct T1 as (r & Hr & T1). apply skipn_S in Hr.
    destruct Hr as [Hr L]. rewrite rev_length in L. rewrite Hr. split; [exact T1|lia].
  - rewrite P in To. apply To.
  - destruct (pc s); cbn; exact To.
  - lia.
  - rewrite P in To. apply To.
Qed.
Lemma step_inv A W ok s ev s' : inv A W ok s -> step s ev s' ->
  inv (fun k => A k ++ accepted_in ltb k ev) (fun k => W k ++ written_in ltb k ev) (fun k => ok k && negb (fail_in k ev)) s'.
Proof.
  intros J H. pose proof J as [So Pl To Ex Ca Lo]. constructor.
  - eapply step_sorted; eauto.
  - eapply step_place; eauto.
  - eapply step_todo; eauto.
  - cases H; cbn; try exact Ex; try (rewrite D; exact I); try exact I;
      try (rewrite D in Ex; exact Ex); try (destruct (dtor s); congruence).
    + destruct (add_frame x s) as (F1 & F2 & _). rewrite F1, F2. exact Ex.
    + destruct (dtor s); auto; rewrite Ex; reflexivity.
    + destruct (dtor s); auto; rewrite Ex; reflexivity.
    + rewrite D in Ex. destruct (next_file ltb p (lfiles s)) as [[k b]|]; [dif|]; exact Ex.
  - intros N. cases H; cbn in *; try congruence; try (apply Ca; congruence); try (exfalso; destruct (Ca N) as [C _]; rewrite Hc in C; destruct l1; discriminate); auto.
    + exfalso. destruct (add_frame x s) as (F1 & F2 & F3 & F4 & _). rewrite F2 in N. destruct (Ca N) as [C _]. rewrite Hc in C. destruct l1; discriminate.
    + exfalso. destruct (Ca N) as [_ C]. congruence.
  - cases H; cbn; try exact Lo; try (rewrite Lo, D; intuition congruence); try (rewrite Lo; intuition congruence).
    + intuition discriminate.
    + destruct (add_frame x s) as (F1 & F2 & F3 & _). rewrite F2, F3. exact Lo.
    + rewrite Lo, D. destruct (next_file ltb p (lfiles s)) as [[k b]|]; [dif|]; intuition discriminate.
Qed.

Definition fails (k : K) (tr : list event) : bool := existsb (fail_in k) tr.
Lemma exec_inv_from A W s0 tr s : inv A W (fun _ => true) s0 -> exec s0 tr s ->
  inv (fun k => A k ++ accepted_for ltb k tr) (fun k => W k ++ written_to ltb k tr) (fun k => negb (fails k tr)) s.
Proof.
  intros I0 H. induction H as [|tr s e s' H IH S].
  - cbn. destruct I0 as [So Pl To Ex Ca Lo]. constructor; auto. intros k. rewrite !app_nil_r. apply Pl.
  - pose proof (step_inv _ _ _ _ _ _ IH S) as [So Pl To Ex Ca Lo]. constructor; auto.
    intros k. specialize (Pl k). cbn in Pl. unfold accepted_for, written_to, fails in *. rewrite !flat_map_snoc, !app_assoc, existsb_app. cbn.
    rewrite orb_false_r, negb_orb. exact Pl.
Qed.
Lemma exec_inv lvl max flush clock tr s : exec (initial lvl max flush clock) tr s ->
  inv (fun k => accepted_for ltb k tr) (fun k => written_to ltb k tr) (fun k => negb (fails k tr)) s.
Proof. intros H. exact (exec_inv_from _ _ _ _ _ (initial_inv lvl max flush clock (fun _ => true)) H). Qed.

(** C59 *)
Lemma prefix_proof lvl max flush clock tr s k : exec (initial lvl max flush clock) tr s ->
  prefix (written_to ltb k tr) (accepted_for ltb k tr).
Proof.
  intros H. pose proof (j_place _ _ _ _ (exec_inv _ _ _ _ _ _ H) k) as Pl. unfold place in Pl.
  destruct (dtor s); try (exists (skipn (written_now k s) (rev (buffer ltb k (lfiles s)))); exact Pl).
  - destruct (after ltb p k); [eexists; exact Pl|apply Pl].
  - destruct (equivb ltb k k0); [eexists; exact Pl|]. destruct (ltb k0 k); [eexists; exact Pl|apply Pl].
  - destruct (equivb ltb k k0); [eexists; exact Pl|]. destruct (ltb k0 k); [eexists; exact Pl|apply Pl].
  - apply Pl.
Qed.
Lemma exec_app s0 tr1 s1 tr2 s2 : exec s0 tr1 s1 -> exec s1 tr2 s2 -> exec s0 (tr1 ++ tr2) s2.
Proof.
  intros H1 H2. induction H2 as [|tr s e s' H IH S]; [rewrite app_nil_r; exact H1|].
  rewrite app_assoc. econstructor; eauto.
Qed.
Lemma step_destroy (s s' : logger) : step s EDestroy s' ->
  dtor s = DNone /\ s' = set_dtor DStopped (set_logging false s) /\ calls s = [] /\ pend s = 0.
Proof.
  intros [H|[H|[H|H]]]; inversion H; subst; auto;
    repeat match goal with Q : context [if ?c then _ else _] |- _ => destruct c; try discriminate
    | Q : context [match ?c with Some _ => _ | None => _ end] |- _ => destruct c; try discriminate end.
Qed.
Lemma all_written_proof lvl max flush clock tr1 s1 s2 tr2 s k :
  exec (initial lvl max flush clock) tr1 s1 -> step s1 EDestroy s2 -> exec s2 tr2 s -> dtor s = DDone ->
  ~ In (EFail k) tr2 ->
  written_to ltb k (tr1 ++ EDestroy :: tr2) = accepted_for ltb k (tr1 ++ EDestroy :: tr2).
Proof.
  intros H1 S H2 D NF. pose proof (step_inv _ _ _ _ _ _ (exec_inv _ _ _ _ _ _ H1) S) as [So Pl To Ex Ca Lo].
  destruct (step_destroy _ _ S) as (_ & E2 & _). subst s2. cbn in Pl.
  assert (I2 : inv (fun k => accepted_for ltb k tr1) (fun k => written_to ltb k tr1) (fun _ => true) (set_dtor DStopped (set_logging false s1))).
  { constructor; auto. intros q. specialize (Pl q). rewrite !app_nil_r in Pl. exact Pl. }
  pose proof (j_place _ _ _ _ (exec_inv_from _ _ _ _ _ I2 H2) k) as P. unfold place in P. rewrite D in P. destruct P as [_ P].
  assert (F : negb (fails k tr2) = true).
  { apply negb_true_iff. destruct (fails k tr2) eqn:F; [|reflexivity]. apply existsb_exists in F. destruct F as (e & He & F). destruct e; try discriminate.
    exfalso. apply equivb_true in F. subst. contradiction. }
  specialize (P F). unfold accepted_for, written_to in *. rewrite !flat_map_app. cbn. symmetry. exact P.
Qed.
(** what is not written yet is in the buffer *)
Lemma buffered_proof lvl max flush clock tr s k : exec (initial lvl max flush clock) tr s -> dtor s = DNone ->
  exists n, n <= length (buffer ltb k (lfiles s)) /\
  accepted_for ltb k tr = written_to ltb k tr ++ skipn n (rev (buffer ltb k (lfiles s))) /\
  (pc s = LWaiting -> n = 0).
Proof.
  intros H D. pose proof (exec_inv _ _ _ _ _ _ H) as [So Pl To Ex Ca Lo]. specialize (Pl k).
  apply place_early in Pl; [|apply none_early, D]. exists (written_now k s). split; [apply written_le, To|]. split; [exact Pl|].
  intros P. unfold written_now. rewrite P. reflexivity.
Qed.
End Proofs.
