(** Proofs about the logger whose two reads are separate. *)
From Coq Require Import List Bool Arith ZArith Lia Permutation.
From Verif Require Import Base ListUpdate LoggerModel LoggerSpec LoggerProofs LoggerAccount LoggerLive LoggerSplitModel LoggerSplitSpec.
Import ListNotations.

Section Proofs.
Context {K M : Type} (ltb : K -> K -> bool).
Notation entry := (entry K M).
Notation event := (@event K M).
Notation logger := (@logger K M).
Notation split := (@split K M).
Notation step := (step ltb).
Notation exec := (exec ltb).
Notation sstep := (sstep ltb).
Notation sexec := (sexec ltb).
Implicit Types (b : logger) (s : split) (tr : list event).

(** * Executions that satisfy a condition on their steps *)
Inductive runs (C : logger -> event -> Prop) b0 : list event -> logger -> Prop :=
| runs_nil : runs C b0 [] b0
| runs_snoc tr b e b' : runs C b0 tr b -> step b e b' -> C b e -> runs C b0 (tr ++ [e]) b'.
Inductive sruns (C : logger -> event -> Prop) s0 : list event -> split -> Prop :=
| sruns_nil : sruns C s0 [] s0
| sruns_snoc tr s e s' : sruns C s0 tr s -> sstep s e s' -> C (base s) e -> sruns C s0 (tr ++ [e]) s'.
Definition always b (ev : event) : Prop := True.

Lemma runs_exec b0 tr b : runs always b0 tr b -> exec b0 tr b.
Proof. intros H. induction H; econstructor; eauto. Qed.
Lemma runs_calm b0 tr b : runs calm_flush b0 tr b -> exec_calm ltb b0 tr b.
Proof. intros H. induction H; econstructor; eauto. Qed.
Lemma exec_sruns s0 tr s : sexec s0 tr s -> sruns always s0 tr s.
Proof. intros H. induction H; econstructor; eauto. exact I. Qed.
Lemma calm_sruns s0 tr s : sexec_calm ltb s0 tr s -> sruns calm_flush s0 tr s.
Proof. intros H. induction H; econstructor; eauto. Qed.

(** * Moving events *)
Lemma delayed_trans l1 l2 l3 : @delayed K M l1 l2 -> delayed l2 l3 -> delayed l1 l3.
Proof. intros H. induction H as [|l1 n ev l2 l' N H IH]; intros H2; [exact H2|]. apply delayed_swap; auto. Qed.
Lemma delayed_app l1 l2 l3 : @delayed K M l1 l2 -> delayed (l1 ++ l3) (l2 ++ l3).
Proof.
  intros H. induction H as [|l1 n ev l2 l' N H IH]; [apply delayed_same|].
  rewrite <- app_assoc in *. cbn in *. apply delayed_swap; assumption.
Qed.
Lemma delayed_past l ms ev : (forall m, ev <> EMax m) -> @delayed K M (l ++ map EMax ms ++ [ev]) (l ++ ev :: map EMax ms).
Proof.
  intros N. revert l. induction ms as [|m ms IH] using rev_ind; intros l; [apply delayed_same|].
  rewrite !map_app. cbn. rewrite <- app_assoc. cbn.
  replace (l ++ map EMax ms ++ [EMax m; ev]) with ((l ++ map EMax ms) ++ EMax m :: ev :: []) by (rewrite <- app_assoc; reflexivity).
  apply delayed_swap; [exact N|].
  specialize (IH l). apply delayed_app with (l3 := [EMax m]) in IH. rewrite <- !app_assoc in IH. cbn in IH. rewrite <- app_assoc. exact IH.
Qed.
Lemma visible_app tr tr' : @visible K M (tr ++ tr') = visible tr ++ visible tr'.
Proof. apply filter_app. Qed.
Lemma visible_max ms : @visible K M (map EMax ms) = map EMax ms.
Proof. unfold visible. induction ms as [|m ms IH]; cbn; [reflexivity|]. f_equal. exact IH. Qed.

(** what does not look at ETau and EMax is the same before and after *)
Lemma flat_visible {A} (f : event -> list A) tr : f ETau = [] -> flat_map f (visible tr) = flat_map f tr.
Proof. intros T. unfold visible. induction tr as [|ev tr IH]; cbn; [reflexivity|]. destruct ev; cbn; rewrite ?T, ?IH; reflexivity. Qed.
Lemma flat_delayed {A} (f : event -> list A) l l' : (forall m, f (EMax m) = []) -> delayed l l' -> flat_map f l = flat_map f l'.
Proof.
  intros T H. induction H as [|l1 n ev l2 l' N H IH]; [reflexivity|]. rewrite <- IH, !flat_map_app. cbn. rewrite T. reflexivity.
Qed.
Lemma flat_same {A} (f : event -> list A) tr tr' : f ETau = [] -> (forall m, f (EMax m) = []) -> delayed (visible tr) (visible tr') ->
  flat_map f tr = flat_map f tr'.
Proof. intros T T' H. rewrite <- (flat_visible f tr T), <- (flat_visible f tr' T). apply flat_delayed; assumption. Qed.
Lemma fold_visible {A} (f : A -> event -> A) tr x : (forall y, f y ETau = y) -> fold_left f (visible tr) x = fold_left f tr x.
Proof. intros T. revert x. induction tr as [|ev tr IH]; intros x; cbn; [reflexivity|]. destruct ev; cbn; rewrite ?T; apply IH. Qed.
Lemma fold_delayed {A} (f : A -> event -> A) l l' x : (forall y m, f y (EMax m) = y) -> delayed l l' -> fold_left f l x = fold_left f l' x.
Proof. intros T H. induction H as [|l1 n ev l2 l' N H IH]; [reflexivity|]. rewrite <- IH, !fold_left_app. cbn. rewrite !T. reflexivity. Qed.
Lemma fold_same {A} (f : A -> event -> A) tr tr' x : (forall y, f y ETau = y) -> (forall y m, f y (EMax m) = y) -> delayed (visible tr) (visible tr') ->
  fold_left f tr x = fold_left f tr' x.
Proof. intros T T' H. rewrite <- (fold_visible f tr x T), <- (fold_visible f tr' x T). apply fold_delayed; assumption. Qed.

(** * The maximum size matters only to p_add *)
Definition idle b : Prop := dtor b = DNone \/ calls b = [].
Lemma add_dtor e b : dtor (snd (add ltb e b)) = dtor b.
Proof. unfold add. destruct (_ || _); reflexivity. Qed.
Lemma idle_step b ev b' : idle b -> step b ev b' -> idle b'.
Proof.
  intros J H. assert (C : forall c l1 l2, calls b = l1 ++ c :: l2 -> dtor b = DNone).
  { intros c l1 l2 E. destruct J as [J|J]; [exact J|]. rewrite J in E. destruct l1; discriminate. }
  cases H; try exact J; try (left; exact D); try (left; exact (C _ _ _ Hc)); try (destruct J as [J|J]; [congruence|right; exact J]).
  - right. exact Dc.
  - left. cbn. rewrite add_dtor. exact (C _ _ _ Hc).
Qed.
Lemma idle_runs (C : logger -> event -> Prop) lvl max flush clock tr b : runs C (initial lvl max flush clock) tr b -> idle b.
Proof. intros H. induction H; [left; reflexivity|]. eapply idle_step; eauto. Qed.

Lemma set_max_same b : set_max (max_size b) b = b.
Proof. destruct b; reflexivity. Qed.

Lemma gap_step b ev b' m_ : step b ev b' -> no_add ev ->
  (exists n, ev = EMax n /\ b' = set_max n b /\ dtor b = DNone) \/
  ((forall n, ev <> EMax n) /\ step (set_max m_ b) ev (set_max m_ b') /\ max_size b' = max_size b).
Proof.
  intros H N. cases H.
  - right. split; [discriminate|]. split; [left; exact (c_call (set_max m_ b) t k l m D Ht)|reflexivity].
  - right. split; [discriminate|]. split; [left; exact (c_level (set_max m_ b) z D)|reflexivity].
  - left. exists n. auto.
  - right. split; [discriminate|]. split; [left; exact (c_flush (set_max m_ b) n D)|reflexivity].
  - right. split; [discriminate|]. split; [left; exact (c_reset (set_max m_ b) D)|reflexivity].
  - right. split; [discriminate|]. split; [left; exact (c_destroy (set_max m_ b) D Dc Dp)|reflexivity].
  - right. split; [destruct (should_log b x); discriminate|]. split; [right; left; exact (p_check ltb (set_max m_ b) x l1 l2 Hc)|reflexivity].
  - right. split; [discriminate|]. split; [right; left; exact (p_time ltb (set_max m_ b) x l1 l2 Hc)|reflexivity].
  - exfalso. destruct (accepts ltb x b); exact N.
  - right. split; [discriminate|]. split; [right; left; exact (p_notify ltb (set_max m_ b) x l1 l2 Hc)|reflexivity].
  - right. split; [discriminate|]. split; [right; left; exact (f_notify ltb (set_max m_ b) n Hn)|reflexivity].
  - right. split; [discriminate|]. split; [right; left; exact (l_start ltb (set_max m_ b) P)|reflexivity].
  - right. split; [discriminate|]. split; [right; left; exact (l_check ltb (set_max m_ b) sw P)|reflexivity].
  - right. split; [discriminate|]. split; [right; left; exact (l_wait ltb (set_max m_ b) P)|reflexivity].
  - right. split; [discriminate|]. split; [right; left; exact (l_woken ltb (set_max m_ b) P)|reflexivity].
  - right. split; [discriminate|]. split; [right; left; exact (l_scan ltb (set_max m_ b) sw p P)|reflexivity].
  - right. split; [discriminate|]. split; [right; left; exact (l_open ltb (set_max m_ b) k todo P)|reflexivity].
  - right. split; [discriminate|]. split; [right; left; exact (l_write ltb (set_max m_ b) k x todo n P)|reflexivity].
  - right. split; [discriminate|]. split; [right; left; exact (l_written ltb (set_max m_ b) k n P)|reflexivity].
  - right. split; [discriminate|]. split; [right; left; exact (l_erase ltb (set_max m_ b) k n P)|reflexivity].
  - right. split; [discriminate|]. split; [right; left; exact (d_notify ltb (set_max m_ b) D)|reflexivity].
  - right. split; [discriminate|]. split; [right; left; exact (d_join ltb (set_max m_ b) D P)|reflexivity].
  - right. split; [destruct (next_file ltb p (lfiles b)); discriminate|]. split; [right; left; exact (d_flush ltb (set_max m_ b) p D)|reflexivity].
  - right. split; [discriminate|]. split; [right; left; exact (d_open ltb (set_max m_ b) k todo D)|reflexivity].
  - right. split; [discriminate|]. split; [right; left; exact (d_write ltb (set_max m_ b) k x todo D)|reflexivity].
  - right. split; [discriminate|]. split; [right; left; exact (d_written ltb (set_max m_ b) k D)|reflexivity].
  - right. split; [discriminate|]. split; [right; right; left; exact (l_fail_open (set_max m_ b) k todo P)|reflexivity].
  - right. split; [discriminate|]. split; [right; right; left; exact (l_fail (set_max m_ b) k x todo n P)|reflexivity].
  - right. split; [discriminate|]. split; [right; right; left; exact (d_fail_open (set_max m_ b) k todo D)|reflexivity].
  - right. split; [discriminate|]. split; [right; right; left; exact (d_fail (set_max m_ b) k x todo D)|reflexivity].
  - right. split; [discriminate|]. split; [right; right; right; exact (sp_wake (set_max m_ b) P)|reflexivity].
  - right. split; [discriminate|]. split; [right; right; right; exact (tk (set_max m_ b) z)|reflexivity].
Qed.
(** a call stays where it is unless it takes a step itself *)
Lemma timed_stays b ev b' e : step b ev b' -> no_add ev -> In (CTimed e) (calls b) -> In (CTimed e) (calls b').
Proof.
  intros H N I.
  assert (X : forall c l1 l2 l, calls b = l1 ++ c :: l2 -> c <> CTimed e -> In (CTimed e) (l1 ++ l ++ l2)).
  { intros c l1 l2 l E Nc. rewrite E in I. apply in_app_or in I. apply in_or_app. destruct I as [I|[I|I]]; [auto|contradiction|]. right. apply in_or_app. auto. }
  cases H; cbn; try exact I; try (rewrite Dc in I; destruct I).
  - apply in_or_app. auto.
  - apply (X _ _ _ _ Hc). discriminate.
  - apply (X _ _ _ [_] Hc). discriminate.
  - exfalso. destruct (accepts ltb x b); exact N.
  - apply (X _ _ _ [] Hc). discriminate.
Qed.
Lemma max_runs (C : logger -> event -> Prop) b0 tr b ms : (forall b n, C b (EMax n)) -> runs C b0 tr b -> dtor b = DNone ->
  runs C b0 (tr ++ map EMax ms) (set_max (last ms (max_size b)) b).
Proof.
  intros CM H D. induction ms as [|m ms IH] using rev_ind; [cbn; rewrite app_nil_r, set_max_same; exact H|].
  rewrite map_app, app_assoc, last_last. cbn.
  eapply runs_snoc; [exact IH| |apply CM]. left. exact (c_max (set_max (last ms (max_size b)) b) m D).
Qed.

Section Simulation.
Variable C : logger -> event -> Prop.
Hypothesis C_max : forall b n, C b (EMax n).
Hypothesis C_add : forall b e, C b (EAccept e) /\ C b (EDiscard e).
Hypothesis C_set : forall b ev m, C b ev -> C (set_max m b) ev.

(** the execution of LoggerModel.v that has gone as far, with the changes of the maximum size made while an entry is being added still to come *)
Definition related b0 tr s : Prop := exists tr',
  match adding s with
  | None => runs C b0 tr' (base s) /\ delayed (visible tr) (visible tr')
  | Some (e, m) => exists ms, runs C b0 tr' (set_max m (base s)) /\ delayed (visible tr) (visible tr' ++ map EMax ms) /\
      max_size (base s) = last ms m /\ holds (pc (base s)) = false /\ In (CTimed e) (calls (base s))
  end.

Lemma add_with_add m e b : fst (fst (add_with ltb m e b)) = (if accepts ltb e (set_max m b) then EAccept e else EDiscard e) /\
  snd (fst (add_with ltb m e b)) = fst (add ltb e (set_max m b)) /\
  snd (add_with ltb m e b) = set_max (max_size b) (snd (add ltb e (set_max m b))).
Proof. unfold add_with, add, accepts. cbn. destruct (_ || _); cbn; destruct b; auto. Qed.

Lemma other_related lvl max flush clock tr s ev b' : related (initial lvl max flush clock) tr s -> step (base s) ev b' -> C (base s) ev -> no_add ev ->
  free s b' -> related (initial lvl max flush clock) (tr ++ [ev]) (Split b' (adding s)).
Proof.
  intros (tr' & R) H c N F. unfold related. cbn. destruct s as [b [[e m]|]]; cbn in *.
  - destruct R as (ms & R & V & X & Hd & Ti). destruct F as [F|F]; [discriminate|].
    pose proof (timed_stays _ _ _ _ H N Ti) as Ti'.
    destruct (gap_step _ _ _ m H N) as [(n & -> & -> & D)|(Ne & G & Y)].
    + exists tr'. exists (ms ++ [n]). split; [exact R|]. split.
      * rewrite visible_app, map_app, app_assoc. apply delayed_app. exact V.
      * rewrite last_last. split; [reflexivity|]. split; assumption.
    + exists (tr' ++ [ev]). exists ms. split; [eapply runs_snoc; [exact R|exact G|apply C_set; exact c]|]. split.
      * rewrite !visible_app. destruct (is_visible ev) eqn:E; cbn; rewrite E.
        -- eapply delayed_trans; [apply delayed_app; exact V|]. rewrite <- !app_assoc. cbn. apply delayed_past. exact Ne.
        -- rewrite !app_nil_r. exact V.
      * split; [congruence|]. split; assumption.
  - destruct R as (R & V). exists (tr' ++ [ev]). split; [eapply runs_snoc; eauto|]. rewrite !visible_app. apply delayed_app. exact V.
Qed.
Lemma step_related lvl max flush clock tr s ev s' : related (initial lvl max flush clock) tr s -> sstep s ev s' -> C (base s) ev ->
  related (initial lvl max flush clock) (tr ++ [ev]) s'.
Proof.
  intros R [H|(b' & H & ->)] c.
  - destruct H as [e l1 l2 A E Hd|e m l1 l2 A E|ev b' H N F].
    + destruct R as (tr' & R). rewrite A in R. destruct R as (R & V). exists tr'. cbn. exists []. rewrite set_max_same. split; [exact R|]. split.
      * rewrite visible_app. cbn. rewrite !app_nil_r. exact V.
      * cbn. split; [reflexivity|]. split; [exact Hd|]. rewrite E. apply in_or_app. right. left. reflexivity.
    + destruct R as (tr' & R). rewrite A in R. destruct R as (ms & R & V & X & Hd & Ti).
      destruct (add_with_add m e (base s)) as (E1 & E2 & E3). set (b := base s) in *.
      assert (D : dtor b = DNone).
      { destruct (idle_runs _ _ _ _ _ _ _ R) as [D|D]; [exact D|]. cbn in D. rewrite D in E. destruct l1; discriminate. }
      assert (P : runs C (initial lvl max flush clock) (tr' ++ [if accepts ltb e (set_max m b) then EAccept e else EDiscard e])
        (set_calls (l1 ++ some_call (fst (add ltb e (set_max m b))) ++ l2) (snd (add ltb e (set_max m b))))).
      { eapply runs_snoc; [exact R| |destruct (accepts _ _ _); apply C_add]. right. left. exact (p_add ltb (set_max m b) e l1 l2 E Hd). }
      apply (max_runs _ _ _ _ ms C_max) in P; [|cbn; rewrite add_dtor; exact D].
      exists ((tr' ++ [if accepts ltb e (set_max m b) then EAccept e else EDiscard e]) ++ map EMax ms). cbn [adding base]. rewrite E1, E2, E3. split.
      * assert (Z : last ms (max_size (set_calls (l1 ++ some_call (fst (add ltb e (set_max m b))) ++ l2) (snd (add ltb e (set_max m b))))) = max_size b).
        { rewrite X. cbn. f_equal. unfold add. cbn. destruct (_ || _); reflexivity. }
        rewrite Z in P. exact P.
      * rewrite !visible_app, visible_max. eapply delayed_trans; [apply delayed_app; exact V|]. rewrite <- !app_assoc.
        destruct (accepts ltb e (set_max m b)); cbn; apply delayed_past; discriminate.
    + apply other_related with (1 := R); auto. right. left. exact H.
  - apply other_related with (1 := R); auto.
    + destruct H as [H|[H|H]]; [left|right; right; left|right; right; right]; exact H.
    + destruct H as [H|[H|H]]; destruct H; exact I.
    + destruct (adding s) as [[e m]|] eqn:A; [|left; exact A]. right. destruct R as (tr' & R). rewrite A in R. destruct R as (ms & _ & _ & _ & Hd & _).
      destruct H as [H|[H|H]]; destruct H; cbn; try exact Hd; reflexivity.
Qed.
Lemma sruns_related lvl max flush clock tr s : sruns C (sinitial lvl max flush clock) tr s -> related (initial lvl max flush clock) tr s.
Proof.
  intros H. induction H as [|tr s ev s' H IH S c].
  - exists []. cbn. split; [apply runs_nil|apply delayed_same].
  - eapply step_related; eauto.
Qed.
End Simulation.
Lemma always_related lvl max flush clock tr s : sexec (sinitial lvl max flush clock) tr s -> related always (initial lvl max flush clock) tr s.
Proof. intros H. apply sruns_related; try (intros; split; exact I); try (intros; exact I). apply exec_sruns. exact H. Qed.

(** * The two models *)
Lemma split_refines lvl max flush clock tr s : sexec (sinitial lvl max flush clock) tr s -> adding s = None ->
  exists tr', exec (initial lvl max flush clock) tr' (base s) /\ delayed (visible tr) (visible tr').
Proof.
  intros H A. destruct (always_related _ _ _ _ _ _ H) as (tr' & R). rewrite A in R. destruct R as (R & V). exists tr'. split; [apply runs_exec; exact R|exact V].
Qed.
Lemma sexec_app s0 tr s tr' s' : sexec s0 tr s -> sexec s tr' s' -> sexec s0 (tr ++ tr') s'.
Proof. intros H H'. induction H' as [|tr' s1 e s' H' IH S]; [rewrite app_nil_r; exact H|]. rewrite app_assoc. econstructor; eauto. Qed.
Lemma add_is b e : add_with ltb (max_size b) e b = ((if accepts ltb e b then EAccept e else EDiscard e), fst (add ltb e b), snd (add ltb e b)).
Proof. unfold add_with, add, accepts. destruct (_ || _); reflexivity. Qed.
Lemma add_not b ev b' : step b ev b' -> no_add ev \/ exists x l1 l2, calls b = l1 ++ CTimed x :: l2 /\ holds (pc b) = false /\
  ev = (if accepts ltb x b then EAccept x else EDiscard x) /\ b' = set_calls (l1 ++ some_call (fst (add ltb x b)) ++ l2) (snd (add ltb x b)).
Proof.
  intros H. cases H; try (left; exact I).
  - left. destruct (should_log b x); exact I.
  - right. eauto 10.
  - left. destruct (next_file ltb p (lfiles b)); exact I.
Qed.
Lemma step_split b ev b' : step b ev b' -> exists tr', sexec (Split b None) tr' (Split b' None) /\ visible tr' = visible [ev].
Proof.
  intros H. destruct (add_not _ _ _ H) as [N|(x & l1 & l2 & E & Hd & -> & ->)].
  - exists [ev]. split; [|reflexivity]. apply (sexec_snoc _ _ [] _ _ _ (sexec_nil _ _)).
    destruct H as [H|[H|H]]; [right; exists b'; split; [left; exact H|reflexivity]|left; exact (s_inner ltb (Split b None) ev b' H N (or_introl eq_refl))|].
    right. exists b'. split; [right; exact H|reflexivity].
  - exists [ETau; if accepts ltb x b then EAccept x else EDiscard x]. split; [|reflexivity].
    apply (sexec_snoc _ _ [ETau] (Split b (Some (x, max_size b)))).
    + apply (sexec_snoc _ _ [] _ _ _ (sexec_nil _ _)). left. exact (s_read ltb (Split b None) x l1 l2 eq_refl E Hd).
    + left. pose proof (s_add ltb (Split b (Some (x, max_size b))) x (max_size b) l1 l2 eq_refl E) as X. cbn [base] in X. rewrite add_is in X. exact X.
Qed.
Lemma exec_split b0 tr b : exec b0 tr b -> exists tr', sexec (Split b0 None) tr' (Split b None) /\ visible tr' = visible tr.
Proof.
  intros H. induction H as [|tr b ev b' H (tr1 & R & V) S]; [exists []; split; [apply sexec_nil|reflexivity]|].
  destruct (step_split _ _ _ S) as (tr2 & R2 & V2). exists (tr1 ++ tr2). split; [eapply sexec_app; eauto|]. rewrite !visible_app. congruence.
Qed.

(** * What follows *)
Lemma split_counted lvl max flush clock tr s : sexec (sinitial lvl max flush clock) tr s ->
  NoDup (passes tr) /\ Permutation (passes tr) (acceptances tr ++ discards tr ++ flat_map undecided (calls (base s))) /\
  discarded (base s) = discarded_since_reset tr.
Proof.
  intros H. destruct (always_related _ _ _ _ _ _ H) as (tr' & R).
  assert (X : exists b, exec (initial lvl max flush clock) tr' b /\ calls b = calls (base s) /\ discarded b = discarded (base s) /\
    exists ms, delayed (visible tr) (visible (tr' ++ map EMax ms))).
  { destruct (adding s) as [[e m]|].
    - destruct R as (ms & R & V & _). exists (set_max m (base s)). split; [apply runs_exec; exact R|]. split; [reflexivity|]. split; [reflexivity|].
      exists ms. rewrite visible_app, visible_max. exact V.
    - destruct R as (R & V). exists (base s). split; [apply runs_exec; exact R|]. split; [reflexivity|]. split; [reflexivity|].
      exists []. rewrite app_nil_r. exact V. }
  destruct X as (b & R' & E1 & E2 & ms & V). destruct (counted_proof ltb _ _ _ _ _ _ R') as (N & P & Dc). rewrite E1 in P.
  assert (Z : forall A (f : event -> list A), f ETau = [] -> (forall m, f (EMax m) = []) -> flat_map f tr = flat_map f tr').
  { intros A f T T'. rewrite (flat_same f _ _ T T' V), flat_map_app. rewrite <- app_nil_r. f_equal. clear -T'. induction ms as [|m ms IH]; cbn; [reflexivity|]. rewrite T', IH. reflexivity. }
  unfold passes, acceptances, discards. rewrite !Z by reflexivity. split; [exact N|]. split; [exact P|].
  rewrite <- E2, Dc. unfold discarded_since_reset. rewrite (fold_same count_discard tr (tr' ++ map EMax ms) 0 (fun _ => eq_refl) (fun _ _ => eq_refl) V), fold_left_app.
  symmetry. clear. induction ms as [|m ms IH]; cbn; [reflexivity|]. exact IH.
Qed.
Lemma split_order (O : strict_total_order ltb) lvl max flush clock tr s k : sexec (sinitial lvl max flush clock) tr s ->
  prefix (written_to ltb k tr) (accepted_for ltb k tr).
Proof.
  intros H. destruct (always_related _ _ _ _ _ _ H) as (tr' & R).
  assert (X : exists b, exec (initial lvl max flush clock) tr' b /\ exists ms, delayed (visible tr) (visible (tr' ++ map EMax ms))).
  { destruct (adding s) as [[e m]|].
    - destruct R as (ms & R & V & _). exists (set_max m (base s)). split; [apply runs_exec; exact R|]. exists ms. rewrite visible_app, visible_max. exact V.
    - destruct R as (R & V). exists (base s). split; [apply runs_exec; exact R|]. exists []. rewrite app_nil_r. exact V. }
  destruct X as (b & R' & ms & V).
  assert (Z : forall A (f : event -> list A), f ETau = [] -> (forall m, f (EMax m) = []) -> flat_map f tr = flat_map f tr').
  { intros A f T T'. rewrite (flat_same f _ _ T T' V), flat_map_app. rewrite <- app_nil_r. f_equal. clear -T'. induction ms as [|m ms IH]; cbn; [reflexivity|]. rewrite T', IH. reflexivity. }
  unfold written_to, accepted_for. rewrite !Z by reflexivity. exact (prefix_proof ltb O _ _ _ _ _ _ k R').
Qed.
Lemma split_quiescent lvl max flush clock tr s : sexec (sinitial lvl max flush clock) tr s -> squiescent ltb s -> adding s = None /\ quiescent ltb (base s).
Proof.
  intros H Q. assert (A : adding s = None).
  { destruct (adding s) as [[e m]|] eqn:A; [|reflexivity]. exfalso. destruct (always_related _ _ _ _ _ _ H) as (tr' & R). rewrite A in R.
    destruct R as (ms & _ & _ & _ & _ & Ti). apply in_split in Ti. destruct Ti as (l1 & l2 & E). eapply Q. exact (s_add ltb s e m l1 l2 A E). }
  split; [exact A|]. intros ev b' S. destruct (add_not (base s) ev b' (or_intror (or_introl S))) as [N|(x & l1 & l2 & E & Hd & _)].
  - eapply Q. exact (s_inner ltb s ev b' S N (or_introl A)).
  - eapply Q. exact (s_read ltb s x l1 l2 A E Hd).
Qed.
Lemma calm_exec s0 tr s : sexec_calm ltb s0 tr s -> sexec s0 tr s.
Proof. intros H. induction H; econstructor; eauto. Qed.
Lemma split_flushed (O : strict_total_order ltb) lvl max flush clock tr s k : sexec_calm ltb (sinitial lvl max flush clock) tr s ->
  squiescent ltb s -> dtor (base s) = DNone -> ~ due (flush_size (base s)) (buffer ltb k (lfiles (base s))).
Proof.
  intros H Q D. destruct (split_quiescent _ _ _ _ _ _ (calm_exec _ _ _ H) Q) as (A & Qb).
  assert (R : related calm_flush (initial lvl max flush clock) tr s).
  { apply sruns_related; try (intros; split; exact I); try (intros; exact I); [|apply calm_sruns; exact H]. intros b ev m c. destruct ev; exact c. }
  destruct R as (tr' & R). rewrite A in R. destruct R as (R & _). exact (flushed_proof ltb O _ _ _ _ _ _ k (runs_calm _ _ _ R) Qb D).
Qed.
End Proofs.
