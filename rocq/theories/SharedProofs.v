(** Proofs about processes that share a log file with rotation. *)
From Coq Require Import List Bool Arith Ascii Lia Permutation.
From Verif Require Import Base LogFileModel CrashModel OutsideModel OutsideSpec OutsideProofs SharedModel SharedSpec.
Import ListNotations.
Local Arguments set_nat : simpl never.

Section Shared.
Variables (RS RL : nat -> Prop) (H : bool -> Prop) (HT LT : list ascii -> Prop).
Notation qstep := (qstep RS RL H HT LT).
Notation qrun := (qrun RS RL H HT LT).
Notation xstep := (xstep Nat.eqb H HT LT).
Notation xrun := (xrun Nat.eqb H HT LT).
Notation one := (one_at_a_time RS RL H HT LT).

(** * What rotation does to the files is what other programs may do to them *)
Definition outside (e : qevent) : list (xevent nat) :=
  match e with
  | QOpen i => [XOpen i 0] | QPut i l => [XPut i l] | QFlush i l rest => [XFlush i l rest] | QClose i | QRotate i _ => [XClose i]
  | QExists _ _ _ | QFail _ => [] | QRemove _ k _ _ => [XRemove k] | QRename _ k _ => [XRemove (S k); XRename k (S k)]
  end.
Lemma one_step s e s' : xstep s e s' -> xrun s [e] s'.
Proof. intros S. exact (xrun_snoc _ _ _ _ _ [] _ _ _ (xrun_nil _ _ _ _ _) S). Qed.
Lemma opened_step i s : streams s i = None -> xstep s (XOpen i 0) (opened i s).
Proof. intros E. unfold opened. destruct (dir s 0) as [o|] eqn:D; [apply x_open|apply x_create]; assumption. Qed.
(** a process that rotates has no stream *)
Definition streamless (s : shared) : Prop := forall i, match phases s i with Ready | Fresh => True | _ => streams (files s) i = None end.
Lemma opened_other i s j : j <> i -> streams (opened i s) j = streams s j.
Proof. intros N. unfold opened. destruct (dir s 0); cbn; apply set_else, N. Qed.
Lemma streamless_step s e s' : streamless s -> qstep s e s' -> streamless s'.
Proof.
  intros W S j. specialize (W j). destruct S as [i P1 E1|i f P1 E1 E2|i f l rest E1 E2 E3|i f rsize hd ht lt P1 E1 R1 R2 H1 H2 H3 l|i f rsize lim P1 E1 R1 R2 R3 R4 E2|i lim k num P1 D1|i lim k num o P1 D1 L1|i lim k num o P1 D1 L1|i lim k num P1|i k o P1 D1|i P1|i f hd ht lt P1 E1 H1 H2 H3 l|i P1 E1]; cbn;
    (destruct (Nat.eq_dec j i) as [->|N]; [rewrite ?set_here; try rewrite P1 in W; cbn; try exact I; try exact W|rewrite ?set_else by exact N; try rewrite opened_other by exact N; exact W]).
  - destruct (phases s i); try exact I; rewrite E1 in W; discriminate.
  - reflexivity.
Qed.
Lemma simulate s e s' : streamless s -> qstep s e s' -> xrun (files s) (outside e) (files s').
Proof.
  intros W S. destruct S as [i P1 E1|i f P1 E1 E2|i f l rest E1 E2 E3|i f rsize hd ht lt P1 E1 R1 R2 H1 H2 H3 l|i f rsize lim P1 E1 R1 R2 R3 R4 E2|i lim k num P1 D1|i lim k num o P1 D1 L1|i lim k num o P1 D1 L1|i lim k num P1|i k o P1 D1|i P1|i f hd ht lt P1 E1 H1 H2 H3 l|i P1 E1]; cbn.
  - apply one_step, opened_step, E1.
  - apply one_step. exact (x_close _ _ _ _ _ _ _ E1 E2).
  - apply one_step, x_flush; assumption.
  - apply one_step. exact (x_put _ _ _ _ _ _ _ _ _ _ E1 H1 H2 H3).
  - apply one_step. exact (x_close _ _ _ _ _ _ _ E1 E2).
  - apply xrun_nil.
  - apply xrun_nil.
  - apply xrun_nil.
  - apply one_step, x_remove.
  - apply (xrun_snoc _ _ _ _ _ [XRemove (S k)] (relinked (set_nat (S k) None (dir (files s))) (files s))); [apply one_step, x_remove|].
    apply (x_rename _ _ _ _ (relinked (set_nat (S k) None (dir (files s))) (files s)) k (S k) o); cbn; [rewrite set_else by lia; exact D1|apply set_here].
  - apply one_step, opened_step. specialize (W i). rewrite P1 in W. exact W.
  - apply one_step. exact (x_put _ _ _ _ _ _ _ _ _ _ E1 H1 H2 H3).
  - apply xrun_nil.
Qed.
Lemma simulation s0 tr s : streamless s0 -> qrun s0 tr s -> streamless s /\ xrun (files s0) (flat_map outside tr) (files s).
Proof.
  intros W R. induction R as [|tr s e s' R IH S]; [split; [exact W|apply xrun_nil]|]. destruct IH as (A & B). split; [exact (streamless_step _ _ _ A S)|].
  rewrite flat_map_app. cbn. rewrite app_nil_r. exact (xrun_app _ _ _ _ _ _ _ B _ _ (simulate _ _ _ A S)).
Qed.
Lemma init_streamless s : qinit s -> streamless s.
Proof. intros (_ & P & _) i. rewrite P. exact I. Qed.
Lemma wrote_put i tr : put_by i (flat_map outside tr) = wrote i tr.
Proof.
  unfold wrote. induction tr as [|e tr IH]; [reflexivity|].
  change (flat_map outside (e :: tr)) with (outside e ++ flat_map outside tr). rewrite put_app, IH. cbn. f_equal. destruct e; try reflexivity.
  unfold put_by. cbn. destruct (i0 =? i); [cbn; apply app_nil_r|reflexivity].
Qed.

(** * Every file that has lost its name was removed or overwritten *)
Definition placed (tr : list qevent) (s : shared) (o : nat) : Prop :=
  linked (files s) o \/ (exists i k lim, In (QRemove i k lim (Some o)) tr) \/ overwritten tr o.
Lemma placed_more tr e s s' o : dir (files s') = dir (files s) -> placed tr s o -> placed (tr ++ [e]) s' o.
Proof.
  intros E [(p & L)|[(i & k & lim & I)|(i & k & I)]]; [left; exists p; rewrite E; exact L|right; left; exists i, k, lim|right; right; exists i, k];
    apply in_or_app; left; exact I.
Qed.
Lemma placed_opened tr e s s' i o : files s' = opened i (files s) -> o < next_inode (files s') -> (o < next_inode (files s) -> placed tr s o) -> placed (tr ++ [e]) s' o.
Proof.
  intros E. rewrite E. unfold opened. destruct (dir (files s) 0) as [q|] eqn:D; cbn; intros L A.
  - apply (placed_more _ _ s); [rewrite E; unfold opened; rewrite D; reflexivity|auto].
  - destruct (Nat.eq_dec o (next_inode (files s))) as [->|N].
    + left. exists 0. rewrite E. unfold opened. rewrite D. cbn. apply set_here.
    + destruct A as [(p & X)|[(j & k & lim & I)|(j & k & I)]]; [lia|left|right; left; exists j, k, lim|right; right; exists j, k]; try (apply in_or_app; left; exact I).
      exists p. rewrite E. unfold opened. rewrite D. cbn. rewrite set_else; [exact X|]. intros ->. congruence.
Qed.
Lemma placed_run s0 tr s o : qrun s0 tr s -> o < next_inode (files s) -> next_inode (files s0) <= o \/ linked (files s0) o -> placed tr s o.
Proof.
  intros R. induction R as [|tr s e s' R IH S]; intros L D; [left; destruct D as [D|D]; [lia|exact D]|].
  destruct S as [i P1 E1|i f P1 E1 E2|i f l rest E1 E2 E3|i f rsize hd ht lt P1 E1 R1 R2 H1 H2 H3 l|i f rsize lim P1 E1 R1 R2 R3 R4 E2|i lim k num P1 D1|i lim k num q P1 D1 L1|i lim k num q P1 D1 L1|i lim k num P1|i k q P1 D1|i P1|i f hd ht lt P1 E1 H1 H2 H3 l|i P1 E1];
    try (apply (placed_more _ _ s); [reflexivity|apply IH; [exact L|exact D]]).
  - apply (placed_opened _ _ s _ i); [reflexivity|exact L|intros L'; exact (IH L' D)].
  - destruct (IH L D) as [(p & X)|[(j & m & lim' & I)|(j & m & I)]].
    + destruct (Nat.eq_dec p k) as [->|N].
      * right. left. exists i, k, lim. apply in_or_app. right. left. rewrite X. reflexivity.
      * left. exists p. cbn. rewrite set_else by exact N. exact X.
    + right. left. exists j, m, lim'. apply in_or_app. left. exact I.
    + right. right. exists j, m. apply in_or_app. left. exact I.
  - destruct (IH L D) as [(p & X)|[(j & m & lim' & I)|(j & m & I)]].
    + destruct (Nat.eq_dec p (S k)) as [->|N].
      * right. right. exists i, k. apply in_or_app. right. left. rewrite X. reflexivity.
      * left. destruct (Nat.eq_dec p k) as [->|N'].
        -- exists (S k). cbn. unfold moved. rewrite set_here. congruence.
        -- exists p. cbn. unfold moved. rewrite !set_else by assumption. exact X.
    + right. left. exists j, m, lim'. apply in_or_app. left. exact I.
    + right. right. exists j, m. apply in_or_app. left. exact I.
  - apply (placed_opened _ _ s _ i); [reflexivity|exact L|intros L'; exact (IH L' D)].
Qed.

(** * What is removed lies beyond the limit *)
Definition phased (s : shared) : Prop := forall i lim k num, phases s i = Removing lim k num -> lim <= k.
Lemma phased_run s0 tr s : qinit s0 -> qrun s0 tr s -> phased s /\ forall i k lim o, In (QRemove i k lim o) tr -> lim <= k.
Proof.
  intros (_ & P & _) R. induction R as [|tr s e s' R IH S]; [split; [intros i lim k num E; rewrite P in E; discriminate|intros i k lim o []]|].
  destruct IH as (A & B). split.
  - intros j lim' k' num'. destruct S as [i P1 E1|i f P1 E1 E2|i f l rest E1 E2 E3|i f rsize hd ht lt P1 E1 R1 R2 H1 H2 H3 l|i f rsize lim P1 E1 R1 R2 R3 R4 E2|i lim k num P1 D1|i lim k num q P1 D1 L1|i lim k num q P1 D1 L1|i lim k num P1|i k q P1 D1|i P1|i f hd ht lt P1 E1 H1 H2 H3 l|i P1 E1];
    cbn; try (apply A); (destruct (Nat.eq_dec j i) as [->|N]; [rewrite set_here|rewrite set_else by exact N; apply A]); try discriminate.
    intros E. injection E as <- <- <-. exact L1.
  - intros j k' lim' o' I. apply in_app_or in I. destruct I as [I|[I|[]]]; [exact (B _ _ _ _ I)|]. subst e. inversion S; subst. eapply A. eassumption.
Qed.

Lemma conserved_proof s0 tr s i x : qinit s0 -> all_named s0 -> qrun s0 tr s -> In x (wrote i tr) ->
  In x (pending i (files s)) \/ exists o, In x (data (files s) o) /\ (linked (files s) o \/ gone_by_limit tr o \/ overwritten tr o).
Proof.
  intros I F R X. pose proof (simulation _ _ _ (init_streamless _ I) R) as (_ & XR). pose proof I as (XI & _).
  pose proof (renamed_all_proof nat Nat.eqb Nat.eqb_eq H HT LT _ _ _ i XI XR) as (C & _). rewrite wrote_put in C.
  apply (Permutation_in _ (Permutation_sym C)) in X. apply in_app_or in X. destruct X as [X|X]; [|left; exact X]. right.
  apply in_flat_map in X. destruct X as (o & O & X). apply in_seq in O. exists o. split; [apply filter_In in X; apply X|].
  destruct (placed_run _ _ _ o R) as [L|[(j & k & lim & L)|L]].
  - lia.
  - destruct (Nat.lt_ge_cases o (next_inode (files s0))) as [L|L]; [right; exact (F o L)|left; exact L].
  - left. exact L.
  - right. left. exists j, k, lim. split; [exact L|]. exact (proj2 (phased_run _ _ _ I R) _ _ _ _ L).
  - right. right. exact L.
Qed.
(** all of it, once, and in each file in order *)
Lemma ordered_proof s0 tr s i : qinit s0 -> qrun s0 tr s ->
  Permutation (flat_map (fun o => mine i (data (files s) o)) (seq 0 (next_inode (files s))) ++ pending i (files s)) (wrote i tr) /\ from 0 (wrote i tr) /\
  (forall o, ascending (mine i (data (files s) o))).
Proof.
  intros I R. pose proof (simulation _ _ _ (init_streamless _ I) R) as (_ & XR). pose proof I as (XI & _).
  pose proof (renamed_all_proof nat Nat.eqb Nat.eqb_eq H HT LT _ _ _ i XI XR) as (A & B & C & _). rewrite wrote_put in A, B. auto.
Qed.

Lemma shared_lines_proof s0 tr s o : qinit s0 -> qrun s0 tr s -> flushes_whole tr ->
  exists l, map plain_byte (data (files s) o) = map plain_byte (data (files s0) o) ++ l /\ whole_lines (fun t => HT t \/ LT t) l.
Proof.
  intros I R W. pose proof (simulation _ _ _ (init_streamless _ I) R) as (_ & XR). pose proof I as (XI & _).
  apply (lines_proof _ _ _ _ _ _ _ o XI XR). intros i l rest X. apply in_flat_map in X. destruct X as (e & E & X).
  destruct e; cbn in X; try (destruct X as [X|X]; [discriminate X|]); try contradiction; try (destruct X as [X|X]; [discriminate X|]); try contradiction.
  destruct X as [X|[]]. injection X as -> -> ->. exact (W _ _ _ E).
Qed.

(** * One rotation at a time *)
Definition guarded (s : shared) : Prop :=
  (forall i j, rotating i s -> rotating j s -> i = j) /\
  forall i, match phases s i with
    | Scanning lim k num => num = Nat.min k lim /\ forall m, 1 <= m -> lim <= m -> m < k -> dir (files s) m = None
    | Removing lim k num => num = Nat.min k lim /\ lim <= k /\ forall m, 1 <= m -> lim <= m -> m < k -> dir (files s) m = None
    | Shifting (S k) => dir (files s) (S k) = None
    | _ => True
    end.
Lemma opened_dir i s m : 1 <= m -> dir (opened i s) m = dir s m.
Proof. intros L. unfold opened. destruct (dir s 0); cbn; [reflexivity|apply set_else; lia]. Qed.
Lemma guarded_keep s s' i p : guarded s -> phases s' = set_nat i p (phases s) -> (forall m, 1 <= m -> dir (files s') m = dir (files s) m) ->
  match p with Ready | Fresh | Shifting 0 => True | _ => False end -> guarded s'.
Proof.
  intros (A & B) E D N. unfold guarded, rotating in *. rewrite E. split.
  - intros j j' X Y. unfold set_nat in X, Y. destruct (j =? i); [destruct p as [| | |[|k]|]; contradiction|]. destruct (j' =? i); [destruct p as [| | |[|k]|]; contradiction|]. auto.
  - intros j. specialize (B j). unfold set_nat. destruct (j =? i); [destruct p as [| | |[|k]|]; try exact I; contradiction|].
    destruct (phases s j) as [|lim k num|lim k num|[|k]|]; try exact I.
    + destruct B as (B1 & B2). split; [exact B1|]. intros m M1 M2 M3. rewrite D by exact M1. auto.
    + destruct B as (B1 & B2 & B3). split; [exact B1|]. split; [exact B2|]. intros m M1 M2 M3. rewrite D by exact M1. auto.
    + rewrite D by lia. exact B.
Qed.
Lemma guarded_move s s' i p : guarded s -> phases s' = set_nat i p (phases s) -> (forall j, rotating j s -> j = i) ->
  (match p with
    | Scanning lim k num => num = Nat.min k lim /\ forall m, 1 <= m -> lim <= m -> m < k -> dir (files s') m = None
    | Removing lim k num => num = Nat.min k lim /\ lim <= k /\ forall m, 1 <= m -> lim <= m -> m < k -> dir (files s') m = None
    | Shifting (S k) => dir (files s') (S k) = None
    | _ => True
    end) -> guarded s'.
Proof.
  intros (A & B) E O G. split.
  - assert (X : forall j, rotating j s' -> j = i).
    { intros j R. unfold rotating in *. rewrite E in R. unfold set_nat in R. destruct (j =? i) eqn:J; [apply Nat.eqb_eq; exact J|exact (O _ R)]. }
    intros j j' R R'. rewrite (X j R), (X j' R'). reflexivity.
  - intros j. rewrite E. unfold set_nat. destruct (j =? i) eqn:J; [exact G|]. specialize (O j). unfold rotating in O.
    apply Nat.eqb_neq in J. destruct (phases s j) as [| | |[|k]|]; try exact I; exfalso; apply J, O, I.
Qed.
Lemma only s i : guarded s -> rotating i s -> forall j, rotating j s -> j = i.
Proof. intros (A & _) R j R'. exact (A _ _ R' R). Qed.
Lemma guarded_step s e s' : guarded s -> qstep s e s' -> alone s e ->
  guarded s' /\ match e with QRename _ _ o => o = None | _ => True end.
Proof.
  intros G S O. pose proof G as (G1 & G2). destruct S as [i P1 E1|i f P1 E1 E2|i f l rest E1 E2 E3|i f rsize hd ht lt P1 E1 R1 R2 H1 H2 H3 l|i f rsize lim P1 E1 R1 R2 R3 R4 E2|i lim k num P1 D1|i lim k num q P1 D1 L1|i lim k num q P1 D1 L1|i lim k num P1|i k q P1 D1|i P1|i f hd ht lt P1 E1 H1 H2 H3 l|i P1 E1];
    (split; [|try exact I]).
  - eapply guarded_keep; [exact G|reflexivity|intros m M; apply opened_dir, M|exact I].
  - eapply guarded_keep; [exact G|reflexivity|reflexivity|exact I].
  - exact G.
  - eapply guarded_keep; [exact G|reflexivity|reflexivity|exact I].
  - eapply guarded_move; [exact G|reflexivity|intros j R; destruct (O j R)|]. cbn. split; [reflexivity|]. intros m M1 M2 M3. lia.
  - assert (R : rotating i s) by (unfold rotating; rewrite P1; exact I). pose proof (G2 i) as X. rewrite P1 in X. destruct X as (X & Y).
    eapply guarded_move; [exact G|reflexivity|exact (only _ _ G R)|]. cbn. destruct num as [|num]; [exact I|].
    destruct (Nat.lt_ge_cases lim k) as [L|L].
    + replace (S num) with lim by lia. apply Y; lia.
    + replace (S num) with k by lia. exact D1.
  - assert (R : rotating i s) by (unfold rotating; rewrite P1; exact I). pose proof (G2 i) as X. rewrite P1 in X. destruct X as (X & Y).
    eapply guarded_move; [exact G|reflexivity|exact (only _ _ G R)|]. cbn -[Nat.min]. split; [lia|]. intros m M1 M2 M3. lia.
  - assert (R : rotating i s) by (unfold rotating; rewrite P1; exact I). pose proof (G2 i) as X. rewrite P1 in X. destruct X as (X & Y).
    eapply guarded_move; [exact G|reflexivity|exact (only _ _ G R)|]. cbn. auto.
  - assert (R : rotating i s) by (unfold rotating; rewrite P1; exact I). pose proof (G2 i) as X. rewrite P1 in X. destruct X as (X & Z & Y).
    eapply guarded_move; [exact G|reflexivity|exact (only _ _ G R)|]. cbn -[Nat.min]. split; [lia|]. intros m M1 M2 M3. unfold set_nat.
    destruct (m =? k) eqn:E; [reflexivity|]. apply Nat.eqb_neq in E. apply Y; lia.
  - assert (R : rotating i s) by (unfold rotating; rewrite P1; exact I).
    eapply guarded_move; [exact G|reflexivity|exact (only _ _ G R)|]. cbn. destruct k as [|k]; [exact I|]. unfold moved.
    rewrite set_else by lia. apply set_here.
  - pose proof (G2 i) as X. rewrite P1 in X. exact X.
  - eapply guarded_keep; [exact G|reflexivity|intros m M; apply opened_dir, M|exact I].
  - eapply guarded_keep; [exact G|reflexivity|reflexivity|exact I].
  - eapply guarded_keep; [exact G|reflexivity|reflexivity|exact I].
Qed.
Lemma one_run s0 tr s : one s0 tr s -> qrun s0 tr s.
Proof. intros R. induction R; econstructor; eauto. Qed.
Lemma one_guarded s0 tr s : qinit s0 -> one s0 tr s -> guarded s /\ forall o, ~ overwritten tr o.
Proof.
  intros I R. induction R as [|tr s e s' R IH S A].
  - destruct I as (_ & P & _). split; [|intros o (i & k & [])]. split; [|intros i; rewrite P; exact I].
    intros i j X. unfold rotating in X. rewrite P in X. contradiction.
  - destruct IH as (G & N). destruct (guarded_step _ _ _ G S A) as (G' & O). split; [exact G'|].
    intros o (i & k & X). apply in_app_or in X. destruct X as [X|[X|[]]]; [apply (N o); exists i, k; exact X|]. subst e. discriminate.
Qed.
Lemma alone_proof s0 tr s i x : qinit s0 -> all_named s0 -> one s0 tr s -> In x (wrote i tr) ->
  In x (pending i (files s)) \/ exists o, In x (data (files s) o) /\ (linked (files s) o \/ gone_by_limit tr o).
Proof.
  intros I F R X. destruct (conserved_proof _ _ _ i x I F (one_run _ _ _ R) X) as [A|(o & A & [B|[B|B]])]; [left; exact A|right; exists o; auto|right; exists o; auto|].
  destruct (proj2 (one_guarded _ _ _ I R) o B).
Qed.
End Shared.
