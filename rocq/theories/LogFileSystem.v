(** The logger together with its disk. *)
From Coq Require Import List Bool Arith String Lia.
From Verif Require Import Base ListUpdate LoggerModel LoggerSpec LoggerProofs LogFileModel LogFileSpec LogFileProofs.
Import ListNotations.

(** with enough fuel and no failing operation a batch is written completely *)
Section Complete.
Context {P E : Type} (peqb : P -> P -> bool).
Hypothesis Peq : forall p q, peqb p q = true <-> p = q.
Variable path : nat -> P.
Hypothesis Inj : forall i j, path i = path j -> i = j.
Lemma write_all_done fuel rsize header (l : list (item E)) d b : (forall i c, In i l -> i_ok i c = true) -> d (path 0) <> None ->
  (forall i, b <= i -> d (path i) = None) -> b + List.length l < fuel ->
  fst (fst (write_all peqb path fuel rsize header l d)) = Done.
Proof.
  revert d b. induction l as [|i l IH]; intros d b Ok D0 Hb Hf; [reflexivity|]. cbn [write_all List.length] in *.
  destruct (d (path 0)) as [c|] eqn:Dc; [clear D0|congruence].
  destruct (write_entry peqb path (i_ok i) fuel (i_limit i) rsize header (i_head i) (i_line i) (i_entry i) d) as [o d1] eqn:We.
  assert (Ho : o = Done).
  { destruct (first_missing path d b) as (m & Mb & Rm); [apply Hb; lia|].
    destruct (rotate_ends peqb Peq path Inj (i_ok i) (i_limit i) fuel 0 d m Rm) as [_ X]; [lia|].
    specialize (X (fun c => Ok i c (or_introl eq_refl))). unfold write_entry in We.
    destruct (negb (rsize =? 0) && (rsize <=? size_at (path 0) d)); [|injection We as <- _; reflexivity].
    destruct (rotate peqb path (i_ok i) (i_limit i) fuel 0 d) as [[o1 c1] d2]. cbn in X. subst o1.
    rewrite (Ok i c1 (or_introl eq_refl)) in We. injection We as <- _. reflexivity. }
  subst o. destruct (entry_spec peqb Peq path Inj _ _ _ _ _ _ _ _ _ _ _ We Dc) as (c' & d2 & _ & E1 & E2 & E3).
  specialize (IH d1 (S b)). destruct (write_all peqb path fuel rsize header l d1) as [[o2 n2] d3]. cbn in IH |- *. apply IH; try lia.
  - intros j c0 Hj. apply Ok. right. exact Hj.
  - rewrite E1. discriminate.
  - intros j Hj. rewrite E2 by (intros X; apply Inj in X; lia). destruct E3 as [(_ & ->)|(_ & _ & m & Rm & (_ & _ & _ & R4 & _))]; [apply Hb; lia|].
    assert (m <= b). { destruct (Nat.lt_ge_cases b m) as [Lt|]; [|assumption]. exfalso. apply (proj1 Rm b Lt), Hb. lia. }
    rewrite R4 by lia. apply Hb. lia.
Qed.
Lemma write_batch_done fuel rsize header (l : list (item E)) d b : (forall i c, In i l -> i_ok i c = true) ->
  (forall i, b <= i -> d (path i) = None) -> S b + List.length l < fuel ->
  fst (fst (write_batch peqb path fuel rsize header l d)) = Done.
Proof.
  intros Ok Hb Hf. unfold write_batch. destruct (open_spec peqb Peq path d) as [O1 O2]. apply (write_all_done _ _ _ _ _ (S b)); auto.
  - rewrite O1. discriminate.
  - intros i Hi. rewrite O2 by (intros X; apply Inj in X; lia). apply Hb. lia.
Qed.
(** a rotation, complete or not *)
Lemma rotate_keeps_proof ok limit fuel c d o c' (d' : @disk P E) fs : rotate peqb path ok limit fuel c d = (o, c', d') -> all_files path d fs ->
  (exists older older', fs = older ++ files_below path limit d /\ all_files path d' (older' ++ files_below path limit d) /\ sublist older' older) /\
  (forall p, (forall j, p <> path j) -> d' p = d p).
Proof.
  intros R F. destruct (all_slack path d fs limit F) as (b & B0 & B1 & B2 & ->).
  destruct (rotate_keeps peqb Peq path Inj _ _ _ _ _ _ _ _ b R B2 B0) as (R1 & (older & older' & R2 & R3 & R4) & _ & _ & R7).
  split; [|exact R7]. exists older, older'. split; [exact R2|]. split; [|exact R4]. exists b. split; [exact R1|]. symmetry. exact R3.
Qed.
(** writes that do not fail *)
Lemma write_entry_io_good ok w fuel limit rsize header ht lt (e : E) d : (forall i, w i = true) ->
  write_entry_io peqb path ok w fuel limit rsize header true ht lt e d =
  match write_entry peqb path ok fuel limit rsize header ht lt e d with (o, d') => (o, true, d') end.
Proof.
  intros W. assert (X : forall d, emit_io peqb path w header true ht lt e d = (true, emit peqb path header ht lt e d)).
  { intros d0. unfold emit_io, emit. rewrite !W, andb_true_r, andb_true_r. destruct (header && (size_at (path 0) d0 =? 0)); reflexivity. }
  unfold write_entry_io, write_entry. rewrite X. cbn [negb orb]. destruct (negb (rsize =? 0) && (rsize <=? size_at (path 0) d)); [|reflexivity].
  destruct (rotate peqb path ok limit fuel 0 d) as [[o c] d1]. destruct o; [|reflexivity|reflexivity]. destruct (ok c); [rewrite X|]; reflexivity.
Qed.
Lemma write_batch_io_good fuel rsize header (l : list (item E * (nat -> bool))) d : (forall x i, In x l -> snd x i = true) ->
  write_batch_io peqb path fuel rsize header l d = write_batch peqb path fuel rsize header (map fst l) d.
Proof.
  unfold write_batch_io, write_batch. generalize (open_file peqb (path 0) d). clear d. induction l as [|[i w] l IH]; intros d W; [reflexivity|].
  cbn [write_all_io write_all map fst]. rewrite write_entry_io_good by (intros j; apply (W (i, w)); left; reflexivity).
  destruct (write_entry peqb path (i_ok i) fuel (i_limit i) rsize header (i_head i) (i_line i) (i_entry i) d) as [o d1].
  destruct o; [|reflexivity|reflexivity]. rewrite IH by (intros x j Hx; apply W; right; exact Hx). reflexivity.
Qed.
(** without rotation a stream that went bad stays bad: nothing more is written, all the entries count as written *)
Lemma write_all_io_bad fuel header (l : list (item E * (nat -> bool))) : forall d,
  write_all_io peqb path fuel 0 header false l d = (Done, List.length l, d).
Proof.
  induction l as [|[i w] l IH]; intros d; [reflexivity|]. cbn [write_all_io write_entry_io]. unfold write_entry_io. cbn [Nat.eqb negb andb].
  unfold emit_io. rewrite !andb_false_r. cbn. rewrite IH. reflexivity.
Qed.
Lemma bad_stream_proof fuel header (l1 l2 : list (item E * (nat -> bool))) x d :
  (forall y i, In y l1 -> snd y i = true) -> (forall i, snd x i = false) ->
  exists d', write_batch peqb path fuel 0 header (map fst l1) d = (Done, List.length l1, d') /\
  write_batch_io peqb path fuel 0 header (l1 ++ x :: l2) d = (Done, List.length (l1 ++ x :: l2), d').
Proof.
  unfold write_batch_io, write_batch. intros W Wx. generalize (open_file peqb (path 0) d). clear d.
  induction l1 as [|[i w] l1 IH]; intros d.
  - exists d. split; [reflexivity|]. destruct x as [i w]. cbn [app write_all_io List.length]. unfold write_entry_io. cbn [Nat.eqb negb andb].
    unfold emit_io. cbn [snd] in Wx. rewrite !Wx, !andb_false_r. destruct (header && true && _); cbn [andb]; rewrite write_all_io_bad; reflexivity.
  - cbn [app write_all_io write_all map fst List.length]. rewrite write_entry_io_good by (intros j; apply (W (i, w)); left; reflexivity).
    unfold write_entry at 1 2. cbn [Nat.eqb negb andb].
    destruct (IH (fun y j Hy => W y j (or_intror Hy)) (emit peqb path header (i_head i) (i_line i) (i_entry i) d)) as (d' & A & B).
    exists d'. rewrite A, B. split; reflexivity.
Qed.
(** ** gapless numbering *)
Lemma gapless_proof ok limit fuel c d c' d' : rotate peqb path ok limit fuel c d = (Done, c', d') ->
  (forall i, d (path (S i)) <> None -> d (path i) <> None :> option (list (chunk E))) -> (exists i, d (path i) = None) ->
  forall i, limit < i -> d' (path i) = None.
Proof.
  intros R G (j & Hj) i Hi. destruct (rotate_spec peqb Peq path Inj _ _ _ _ _ _ _ _ R eq_refl) as (m & Rm & (_ & _ & R3 & R4 & _)).
  destruct (Nat.lt_ge_cases i m) as [Lt|Ge]; [apply R3; lia|]. rewrite R4 by lia.
  assert (X : forall n, d (path (m + n)) = None).
  { induction n as [|n IH]; [rewrite Nat.add_0_r; apply Rm|]. destruct (d (path (m + S n))) eqn:D; [|reflexivity].
    exfalso. rewrite Nat.add_succ_r in D. apply (G (m + n)); [congruence|exact IH]. }
  replace i with (m + (i - m)) by lia. apply X.
Qed.
End Complete.

Section Opened.
Context {Q K M : Type} (peqb : Q -> Q -> bool) (path : K -> nat -> Q) (ltb : K -> K -> bool).
Hypothesis Peq : forall p q, peqb p q = true <-> p = q.
Hypothesis Inj : forall k i j, path k i = path k j -> i = j.
Variables (Li Rs : nat -> Prop) (Hd : bool -> Prop).
Notation logger := (@logger K M).
Notation event := (@event K M).
Notation disk := (@disk Q (entry K M)).
Notation dstep := (disk_step peqb path Li Rs Hd).
Notation system := (system peqb path Li Rs Hd ltb).
Implicit Types (s : logger) (d : disk) (tr : list event).

Lemma system_exec s0 d0 tr s d : system s0 d0 tr s d -> exec ltb s0 tr s.
Proof. intros S. induction S; [constructor|econstructor; eauto]. Qed.

(** the file being written exists *)
Definition opened s d : Prop :=
  match pc s with LWrite k _ _ => d (path k 0) <> None | _ => True end /\
  match dtor s with DWrite k _ => d (path k 0) <> None | _ => True end /\
  match dtor s with DFlush _ | DOpen _ _ | DWrite _ _ | DDone => pc s = LExited | _ => True end.
Definition touches (ev : event) : option K := match ev with EOpen k | EWrite k _ | EFail k => Some k | _ => None end.
Definition needs_open (ev : event) d : Prop := match ev with EWrite k _ => d (path k 0) <> None | _ => True end.

Lemma step_needs s ev s' d : opened s d -> step ltb s ev s' -> needs_open ev d.
Proof.
  intros (A & B & _) S. cases S; try exact I; cbn.
  - destruct (should_log s x); exact I.
  - destruct (accepts ltb x s); exact I.
  - rewrite P in A. exact A.
  - destruct (next_file ltb p (lfiles s)); exact I.
  - rewrite D in B. exact B.
Qed.
Lemma threw_open k ok fuel limit rsize header ht lt e d d' :
  write_entry peqb (path k) ok fuel limit rsize header ht lt e d = (Threw, d') -> d (path k 0) <> None.
Proof.
  unfold write_entry, size_at. intros W D. rewrite D in W. destruct rsize; cbn in W; discriminate.
Qed.
Lemma dstep_opens ev d d' : dstep d ev d' -> match ev with EOpen k => d' (path k 0) <> None | EWrite k _ => d (path k 0) <> None -> d' (path k 0) <> None | _ => True end.
Proof.
  intros S. inversion S; subst; try exact I.
  - rewrite (proj1 (open_spec peqb Peq (path k) d)). discriminate.
  - intros D0. match goal with W : write_entry _ _ _ _ _ _ _ _ _ _ _ = _ |- _ => apply (entry_kept peqb Peq (path k) (Inj k) _ _ _ _ _ _ _ _ _ _ _ W D0) end. reflexivity.
  - destruct ev; contradiction || exact I.
Qed.
Lemma dstep_idle ev d d' : dstep d ev d' -> touches ev = None -> d' = d.
Proof. intros S T. inversion S; subst; try discriminate. reflexivity. Qed.
Lemma step_opened s ev s' d d' : opened s d -> step ltb s ev s' -> dstep d ev d' -> opened s' d'.
Proof.
  intros (A & B & C) S DS. pose proof (dstep_opens _ _ _ DS) as Op. pose proof (dstep_idle _ _ _ DS) as Id. clear DS. unfold opened.
  cases S; cbn [pc dtor set_files set_pc set_logging set_level set_max set_flush set_discarded set_calls set_pend set_dtor set_now set_next] in *;
    try rewrite (Id eq_refl) by reflexivity; try rewrite D in *; try rewrite P in *; try (repeat split; auto; fail).
  - rewrite Id by (destruct (should_log s x); reflexivity). auto.
  - rewrite Id by (destruct (accepts ltb x s); reflexivity). destruct (add_frame ltb x s) as (-> & -> & _). auto.
  - destruct (pc s) eqn:E; cbn; repeat split; auto; destruct (dtor s); auto; congruence.
  - destruct (pc s) eqn:E; cbn; repeat split; auto; destruct (dtor s); auto; congruence.
  - repeat split; auto. destruct (dtor s); auto; discriminate.
  - repeat split; auto; [destruct (logging s); [destruct sw|]; exact I|]. destruct (dtor s); auto; discriminate.
  - repeat split; auto. destruct (dtor s); auto; discriminate.
  - repeat split; auto. destruct (dtor s); auto; discriminate.
  - split; [|split; [exact B|destruct (dtor s); auto; discriminate]].
    destruct (next_file ltb p (lfiles s)) as [[k b]|]; [|exact I]. destruct (negb _ && _); exact I.
  - split; [exact Op|]. split; [|destruct (dtor s); auto; discriminate]. destruct (dtor s); auto; discriminate.
  - split; [apply Op, A|]. split; [|destruct (dtor s); auto; discriminate]. destruct (dtor s); auto; discriminate.
  - repeat split; auto. destruct (dtor s); auto; discriminate.
  - repeat split; auto. destruct (dtor s); auto; discriminate.
  - split; [destruct (pc s); auto|]. split; auto.
  - rewrite Id by (destruct (next_file ltb p (lfiles s)) as [[? ?]|]; reflexivity). split; [exact A|].
    destruct (next_file ltb p (lfiles s)) as [[k b]|]; [destruct (Nat.eqb _ _)|]; auto.
  - rewrite C in *. auto.
  - rewrite C in *. auto.
  - split; [exact I|]. split; [|destruct (dtor s); auto; discriminate]. destruct (dtor s); auto; discriminate.
  - split; [exact I|]. split; [|destruct (dtor s); auto; discriminate]. destruct (dtor s); auto; discriminate.
  - rewrite C in *. auto.
  - rewrite C in *. auto.
  - repeat split; auto. destruct (dtor s); auto; discriminate.
Qed.
Lemma system_opened_inj lvl max flush clock d0 tr s d : system (initial lvl max flush clock) d0 tr s d -> opened s d.
Proof.
  intros S. remember (initial lvl max flush clock) as s0 eqn:E. induction S as [|tr s d e s' d' S IH St DS]; [subst; repeat split|].
  eapply step_opened; eauto.
Qed.

End Opened.

Section System.
Context {Q K M : Type} (peqb : Q -> Q -> bool) (path : K -> nat -> Q) (ltb : K -> K -> bool).
Hypothesis Peq : forall p q, peqb p q = true <-> p = q.
Hypothesis O : strict_total_order ltb.
Hypothesis Sep : separate path.
Variables (Li Rs : nat -> Prop) (Hd : bool -> Prop).
Notation logger := (@logger K M).
Notation event := (@event K M).
Notation disk := (@disk Q (entry K M)).
Notation dstep := (disk_step peqb path Li Rs Hd).
Notation system := (system peqb path Li Rs Hd ltb).
Implicit Types (s : logger) (d : disk) (tr : list event).

Notation opened := (opened path).
Notation needs_open := (needs_open path).
Notation threw_open := (threw_open peqb path).
Notation step_needs := (step_needs path ltb).
Lemma sep_inj k i j : path k i = path k j -> i = j.
Proof. intros X. apply (Sep _ _ _ _ X). Qed.
Lemma sep_other k k' i : k <> k' -> forall j, path k i <> path k' j.
Proof. intros N j X. apply N, (Sep _ _ _ _ X). Qed.

Lemma system_opened lvl max flush clock d0 tr s d : system (initial lvl max flush clock) d0 tr s d -> opened s d.
Proof. apply (system_opened_inj peqb path ltb Peq sep_inj). Qed.

(** what a step of the system does to the files of log file [k] *)
Definition chain_kept (fixed : option nat) (off : Prop) (k : K) d d' (es : list (entry K M)) : Prop :=
  (forall fs, all_files (path k) d fs -> exists fs', all_files (path k) d' fs' /\
    sublist (all_lines fs') (all_lines fs ++ es) /\
    (forall limit, fixed = Some limit -> (forall i, limit < i -> d (path k i) = None) -> suffix_of (all_lines fs') (all_lines fs ++ es)) /\
    (off -> all_lines fs' = all_lines fs ++ es)) /\
  (forall limit, fixed = Some limit -> forall i, limit < i -> d (path k i) = None -> d' (path k i) = None).
Lemma chain_same fixed off k d d' : (forall i, d' (path k i) = d (path k i)) -> chain_kept fixed off k d d' [].
Proof.
  intros Eq. split; [|intros; rewrite Eq; assumption]. intros fs (b & Hb & ->). exists (files_below (path k) b d'). rewrite app_nil_r.
  split; [exists b; split; [intros; rewrite Eq; auto|reflexivity]|]. rewrite (below_ext (path k) b d d') by (intros; apply Eq).
  split; [apply sub_refl|]. split; [intros; apply suffix_refl|reflexivity].
Qed.
Lemma chain_trans fixed off k d d1 d' es es' : chain_kept fixed off k d d1 es -> chain_kept fixed off k d1 d' es' -> chain_kept fixed off k d d' (es ++ es').
Proof.
  intros (A1 & A2) (B1 & B2). split.
  - intros fs Hf. destruct (A1 fs Hf) as (fs1 & F1 & F2 & F3 & F4). destruct (B1 fs1 F1) as (fs2 & G1 & G2 & G3 & G4).
    exists fs2. split; [exact G1|]. rewrite app_assoc. split; [|split].
    + eapply sub_trans; [exact G2|]. apply sub_app; [exact F2|apply sub_refl].
    + intros l Hl Hb. eapply suffix_trans; [apply (G3 l Hl); intros i Hi; apply (A2 l Hl); auto|]. apply suffix_app, (F3 l Hl), Hb.
    + intros Z. rewrite G4, F4 by exact Z. reflexivity.
  - intros l Hl i Hi Di. apply (B2 l Hl); auto. apply (A2 l Hl); auto.
Qed.
Lemma kept_chain limit rsize fixed (off : Prop) k d d' es : (forall l, fixed = Some l -> l = limit) -> (off -> rsize = 0) ->
  kept (path k) limit rsize d d' es -> chain_kept fixed off k d d' es.
Proof.
  intros F Z (A1 & A2 & A3). split.
  - intros fs Hf. destruct (A1 fs Hf) as (fs1 & F1 & F2 & F3 & F4). exists fs1. repeat split; auto. intros l Hl. rewrite (F l Hl). exact F3.
  - intros l Hl. rewrite (F l Hl). exact A2.
Qed.
Definition fixes (fixed : option nat) : Prop := forall l, fixed = Some l -> forall n, Li n -> n = l.
Definition switched_off : Prop := forall n, Rs n -> n = 0.

Lemma dstep_chain fixed ev d d' k : fixes fixed -> dstep d ev d' -> needs_open ev d ->
  chain_kept fixed switched_off k d d' (written_in ltb k ev) /\
  (forall p, (forall k i, p <> path k i) -> d' p = d p).
Proof.
  intros Fx DS Ne.
  assert (Z : forall rsize k', Rs rsize -> forall limit es, Li limit -> kept (path k') limit rsize d d' es -> chain_kept fixed switched_off k' d d' es /\
    (forall q, q <> k' -> chain_kept fixed switched_off q d d' []) /\ (forall p, (forall k i, p <> path k i) -> d' p = d p)).
  { intros rsize k' Hr limit es Hl Kp. split; [|split].
    - eapply kept_chain; [|intros X; apply X, Hr|exact Kp]. intros l E. symmetry. apply (Fx l E limit Hl).
    - intros q Nq. apply chain_same. intros i. apply Kp. apply sep_other, Nq.
    - intros p Hp. apply Kp. intros j. apply Hp. }
  assert (T : forall k', (forall limit rsize, kept (path k') limit rsize d d' []) -> chain_kept fixed switched_off k d d' [] /\
    (forall p, (forall k i, p <> path k i) -> d' p = d p)).
  { intros k' Kp. split; [|intros p Hp; apply (Kp 0 0); intros j; apply Hp].
    destruct (key_dec ltb O k k') as [->|N]; [|apply chain_same; intros i; apply (Kp 0 0), sep_other, N].
    eapply kept_chain; [| |apply (Kp match fixed with Some l => l | None => 0 end 0)]; [intros l ->; reflexivity|reflexivity]. }
  assert (W : forall k' ev es, (forall q, written_in ltb q ev = if equivb ltb q k' then es else []) ->
    chain_kept fixed switched_off k' d d' es /\ (forall q, q <> k' -> chain_kept fixed switched_off q d d' []) /\ (forall p, (forall k i, p <> path k i) -> d' p = d p) ->
    chain_kept fixed switched_off k d d' (written_in ltb k ev) /\ (forall p, (forall k i, p <> path k i) -> d' p = d p)).
  { intros k' ev0 es E (Z1 & Z2 & Z3). split; [|exact Z3]. rewrite E. destruct (equivb ltb k k') eqn:Ek.
    - apply equivb_true in Ek; [|exact O]. subst. exact Z1.
    - apply Z2. apply equivb_false in Ek; [exact Ek|exact O]. }
  destruct DS as [k'|k' e ok fuel limit rsize header ht lt d' Hl Hr Hh We|k' created|k' e ok fuel limit rsize header ht lt d' created Hl Hr Hh We|ev N].
  - apply (T k'). intros. apply (open_kept peqb Peq (path k') (sep_inj k')).
  - cbn in Ne. destruct (entry_kept peqb Peq (path k') (sep_inj k') _ _ _ _ _ _ _ _ _ _ _ We Ne) as [Kp _].
    apply (W k' _ [e]); [reflexivity|]. eapply Z; eauto.
  - apply (T k'). intros. destruct created; [apply (open_kept peqb Peq (path k') (sep_inj k'))|apply kept_same].
  - destruct (entry_kept peqb Peq (path k') (sep_inj k') _ _ _ _ _ _ _ _ _ _ _ We (threw_open _ _ _ _ _ _ _ _ _ _ _ We)) as [Kp _].
    apply (W k' _ []); [intros; cbn; destruct (equivb ltb q k'); reflexivity|]. eapply Z; [exact Hr|exact Hl|].
    destruct created; [|exact Kp]. change (@nil (entry K M)) with (@nil (entry K M) ++ []). eapply kept_trans; [exact Kp|apply (open_kept peqb Peq (path k') (sep_inj k'))].
  - split; [|reflexivity]. replace (written_in ltb k ev) with (@nil (entry K M)); [apply chain_same; reflexivity|]. destruct ev; contradiction || reflexivity.
Qed.
Lemma system_chain fixed lvl max flush clock d0 tr s d k : fixes fixed -> system (initial lvl max flush clock) d0 tr s d ->
  chain_kept fixed switched_off k d0 d (written_to ltb k tr) /\ (forall p, (forall k i, p <> path k i) -> d p = d0 p).
Proof.
  intros Fx S. induction S as [|tr s d e s' d' S IH St DS]; [split; [apply chain_same|]; reflexivity|].
  destruct IH as [I1 I2]. pose proof (step_needs _ _ _ _ (system_opened _ _ _ _ _ _ _ _ S) St) as Ne.
  destruct (dstep_chain fixed _ _ _ k Fx DS Ne) as [D1 D2].
  split; [|intros p Hp; rewrite D2, I2 by exact Hp; reflexivity]. unfold written_to. rewrite flat_map_snoc. eapply chain_trans; eauto.
Qed.

(** C65 for executions *)
Lemma sub_prefix {A} (l w a l0 : list A) : sublist l (l0 ++ w) -> prefix w a -> sublist l (l0 ++ a).
Proof. intros S (r & ->). eapply sub_trans; [exact S|]. rewrite app_assoc. rewrite <- (app_nil_r (l0 ++ w)) at 1. apply sub_app; [apply sub_refl|apply sub_nil_l]. Qed.
Lemma files_proof lvl max flush clock d0 tr s d k fs0 : system (initial lvl max flush clock) d0 tr s d -> all_files (path k) d0 fs0 ->
  exists fs, all_files (path k) d fs /\ sublist (all_lines fs) (all_lines fs0 ++ written_to ltb k tr) /\
    sublist (all_lines fs) (all_lines fs0 ++ accepted_for ltb k tr).
Proof.
  intros S F. assert (Fx : fixes None) by (intros l; discriminate).
  destruct (system_chain None _ _ _ _ _ _ _ _ k Fx S) as [[C _] _]. destruct (C fs0 F) as (fs & F1 & F2 & _).
  exists fs. split; [exact F1|]. split; [exact F2|]. eapply sub_prefix; [exact F2|]. eapply prefix_proof; [exact O|]. eapply system_exec; eauto.
Qed.
Lemma files_limit_proof limit lvl max flush clock d0 tr s d k fs0 : (forall n, Li n -> n = limit) ->
  system (initial lvl max flush clock) d0 tr s d -> all_files (path k) d0 fs0 -> (forall i, limit < i -> d0 (path k i) = None) ->
  (forall i, limit < i -> d (path k i) = None) /\
  exists fs, all_files (path k) d fs /\ suffix_of (all_lines fs) (all_lines fs0 ++ written_to ltb k tr).
Proof.
  intros Fx S F Hb. assert (Fx' : fixes (Some limit)) by (intros l [= <-]; exact Fx).
  destruct (system_chain (Some limit) _ _ _ _ _ _ _ _ k Fx' S) as [[C C'] _]. destruct (C fs0 F) as (fs & F1 & _ & F2 & _).
  split; [intros i Hi; apply (C' limit eq_refl i Hi), Hb, Hi|]. exists fs. split; [exact F1|]. apply (F2 limit eq_refl Hb).
Qed.
Lemma files_off_proof lvl max flush clock d0 tr s d k fs0 : (forall n, Rs n -> n = 0) ->
  system (initial lvl max flush clock) d0 tr s d -> all_files (path k) d0 fs0 ->
  exists fs, all_files (path k) d fs /\ all_lines fs = all_lines fs0 ++ written_to ltb k tr.
Proof.
  intros Z S F. assert (Fx : fixes None) by (intros l; discriminate).
  destruct (system_chain None _ _ _ _ _ _ _ _ k Fx S) as [[C _] _]. destruct (C fs0 F) as (fs & F1 & _ & _ & F2).
  exists fs. split; [exact F1|]. exact (F2 Z).
Qed.
Lemma files_other_proof lvl max flush clock d0 tr s d p : system (initial lvl max flush clock) d0 tr s d -> (forall k i, p <> path k i) -> d p = d0 p.
Proof.
  intros S N. induction S as [|tr s d e s' d' S IH St DS]; [reflexivity|]. rewrite <- IH.
  assert (Fx : fixes None) by (intros l; discriminate). pose proof (step_needs _ _ _ _ (system_opened _ _ _ _ _ _ _ _ S) St) as Ne.
  destruct DS as [k'|k' e ok fuel limit rsize header ht lt d' Hl Hr Hh We|k' created|k' e ok fuel limit rsize header ht lt d' created Hl Hr Hh We|ev X].
  - apply (dstep_chain None (EOpen k') _ _ k' Fx); [constructor|exact I|exact N].
  - eapply (dstep_chain None (EWrite k' e) _ _ k' Fx); [econstructor; eauto|exact Ne|exact N].
  - apply (dstep_chain None (EFail k') _ _ k' Fx); [constructor|exact I|exact N].
  - eapply (dstep_chain None (EFail k') _ _ k' Fx); [econstructor; eauto|exact I|exact N].
  - reflexivity.
Qed.
(** after the destructor *)
Lemma system_app s0 d0 tr1 s1 d1 tr2 s2 d2 : system s0 d0 tr1 s1 d1 -> system s1 d1 tr2 s2 d2 -> system s0 d0 (tr1 ++ tr2) s2 d2.
Proof.
  intros H1 H2. induction H2 as [|tr s d e s' d' S IH St DS]; [rewrite app_nil_r; exact H1|]. rewrite app_assoc. econstructor; eauto.
Qed.
Lemma all_logged_proof limit lvl max flush clock d0 tr1 s1 d1 s2 tr2 s d k fs0 : (forall n, Li n -> n = limit) ->
  system (initial lvl max flush clock) d0 tr1 s1 d1 -> step ltb s1 EDestroy s2 -> system s2 d1 tr2 s d -> dtor s = DDone ->
  ~ In (EFail k) tr2 -> all_files (path k) d0 fs0 -> (forall i, limit < i -> d0 (path k i) = None) ->
  exists fs, all_files (path k) d fs /\ suffix_of (all_lines fs) (all_lines fs0 ++ accepted_for ltb k (tr1 ++ EDestroy :: tr2)) /\
    ((forall n, Rs n -> n = 0) -> all_lines fs = all_lines fs0 ++ accepted_for ltb k (tr1 ++ EDestroy :: tr2)).
Proof.
  intros Fx S1 St S2 D NF F Hb.
  assert (S : system (initial lvl max flush clock) d0 ((tr1 ++ [EDestroy]) ++ tr2) s d).
  { eapply system_app; [|exact S2]. econstructor; [exact S1|exact St|]. apply k_other. exact I. }
  rewrite <- app_assoc in S. cbn in S.
  assert (E : written_to ltb k (tr1 ++ EDestroy :: tr2) = accepted_for ltb k (tr1 ++ EDestroy :: tr2)).
  { eapply (all_written_proof ltb O); eauto using system_exec. }
  assert (Fx' : fixes (Some limit)) by (intros l [= <-]; exact Fx).
  destruct (system_chain (Some limit) _ _ _ _ _ _ _ _ k Fx' S) as [[C C'] _]. destruct (C fs0 F) as (fs & F1 & _ & F2 & F3).
  exists fs. rewrite <- E. split; [exact F1|]. split; [apply (F2 limit eq_refl Hb)|exact F3].
Qed.
(** headers *)
Lemma dstep_headed ev d d' : (forall b, Hd b -> b = true) -> dstep d ev d' -> needs_open ev d ->
  (forall k, all_headed (path k) d) -> forall k, all_headed (path k) d'.
Proof.
  intros Ht DS Ne Hh k.
  assert (Ot : forall k' dd, (forall p, (forall j, p <> path k' j) -> dd p = d p) -> all_headed (path k') dd -> all_headed (path k) dd).
  { intros k' dd E A. destruct (key_dec ltb O k k') as [->|N]; [exact A|]. intros i c. rewrite E by (apply sep_other, N). apply Hh. }
  destruct DS as [k'|k' e ok fuel limit rsize header ht lt d' Hl Hr Hb We|k' created|k' e ok fuel limit rsize header ht lt d' created Hl Hr Hb We|ev X].
  - apply (Ot k'); [intros p Hp; apply (open_spec peqb Peq (path k')), Hp|]. apply (open_headed peqb Peq (path k') (sep_inj k')), Hh.
  - rewrite (Ht _ Hb) in We. cbn in Ne. destruct (entry_kept peqb Peq (path k') (sep_inj k') _ _ _ _ _ _ _ _ _ _ _ We Ne) as [Kp _].
    apply (Ot k'); [apply Kp|]. eapply (entry_headed peqb Peq (path k') (sep_inj k')); eauto.
  - destruct created; [|apply Hh]. apply (Ot k'); [intros p Hp; apply (open_spec peqb Peq (path k')), Hp|]. apply (open_headed peqb Peq (path k') (sep_inj k')), Hh.
  - rewrite (Ht _ Hb) in We. pose proof (threw_open _ _ _ _ _ _ _ _ _ _ _ We) as Ne'.
    destruct (entry_kept peqb Peq (path k') (sep_inj k') _ _ _ _ _ _ _ _ _ _ _ We Ne') as [Kp _].
    assert (A : all_headed (path k') d') by (eapply (entry_headed peqb Peq (path k') (sep_inj k')); eauto).
    destruct created; [|apply (Ot k'); [apply Kp|exact A]].
    apply (Ot k'); [intros p Hp; rewrite (proj2 (open_spec peqb Peq (path k') d')) by apply Hp; apply Kp, Hp|]. apply (open_headed peqb Peq (path k') (sep_inj k')), A.
  - apply Hh.
Qed.
Lemma headed_proof lvl max flush clock d0 tr s d : (forall b, Hd b -> b = true) -> system (initial lvl max flush clock) d0 tr s d ->
  (forall k i c, d0 (path k i) = Some c -> headed c) -> forall k i c, d (path k i) = Some c -> headed c.
Proof.
  intros Ht S H0. induction S as [|tr s d e s' d' S IH St DS]; [exact H0|].
  pose proof (step_needs _ _ _ _ (system_opened _ _ _ _ _ _ _ _ S) St) as Ne. exact (dstep_headed _ _ _ Ht DS Ne IH).
Qed.
(** the entry is always written to a file that exists and is smaller than the rotation size *)
Lemma written_proof lvl max flush clock d0 tr s d k e s' d' : system (initial lvl max flush clock) d0 tr s d ->
  step ltb s (EWrite k e) s' -> dstep d (EWrite k e) d' ->
  exists c header ht lt rsize, Rs rsize /\ Hd header /\ (rsize = 0 \/ String.length (text_of c) < rsize) /\
  d' (path k 0) = Some (c ++ (if header && (String.length (text_of c) =? 0) then [Head ht] else []) ++ [Line e lt]).
Proof.
  intros S St DS. pose proof (step_needs _ _ _ _ (system_opened _ _ _ _ _ _ _ _ S) St) as Ne. cbn in Ne.
  inversion DS; subst; [|match goal with X : False |- _ => destruct X end].
  destruct (d (path k 0)) as [c|] eqn:Dc; [|congruence].
  match goal with W : write_entry _ _ _ _ _ _ _ _ _ _ _ = _ |- _ => destruct (entry_text_spec peqb Peq (path k) (sep_inj k) _ _ _ _ _ _ _ _ _ _ _ W Dc) as (c' & d1 & E1 & E2 & _) end.
  exists c', header, ht, lt, rsize. auto.
Qed.
End System.
