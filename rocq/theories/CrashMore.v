(** Crashes: memory, sizes, headers, several processes, whole lines. *)
From Coq Require Import List Bool Arith Ascii Lia.
From Verif Require Import Base ListUpdate LoggerModel LoggerSpec LoggerProofs LogFileModel LogFileSpec LogFileProofs LogFileSystem CrashModel CrashSpec CrashProofs CrashSystem.
Import ListNotations.

(** * What is in memory *)
Section Memory.
Context {K M : Type} (ltb : K -> K -> bool).
Hypothesis O : strict_total_order ltb.
Notation logger := (@logger K M).
Notation event := (@event K M).
Lemma erased_proof lvl max fl clock (tr : list event) s q : exec ltb (initial lvl max fl clock) tr s ->
  exists tr1 tr2, tr = tr1 ++ tr2 /\ (tr1 = [] \/ exists tr' n, tr1 = tr' ++ [EErase q n]) /\
  accepted_for ltb q tr = written_to ltb q tr1 ++ rev (buffer ltb q (lfiles s)).
Proof.
  intros E. remember (initial lvl max fl clock) as s0 eqn:E0. induction E as [|tr s ev s' E IH St].
  - subst. exists [], []. repeat split; auto.
  - subst s0. destruct IH as (tr1 & tr2 & Et & Cl & IH).
    assert (Keep : accepted_in ltb q ev = [] -> buffer ltb q (lfiles s') = buffer ltb q (lfiles s) ->
      exists tr3 tr4, tr ++ [ev] = tr3 ++ tr4 /\ (tr3 = [] \/ exists tr' n, tr3 = tr' ++ [EErase q n]) /\
      accepted_for ltb q (tr ++ [ev]) = written_to ltb q tr3 ++ rev (buffer ltb q (lfiles s'))).
    { intros A B. exists tr1, (tr2 ++ [ev]). rewrite app_assoc, <- Et. split; [reflexivity|]. split; [exact Cl|].
      unfold accepted_for. rewrite flat_map_snoc, A, app_nil_r, B. exact IH. }
    pose proof (exec_inv ltb O _ _ _ _ _ _ E) as [So Pl To Ex Ca Lo].
    cases St; try (apply Keep; reflexivity).
    + apply Keep; [destruct (should_log s x); reflexivity|reflexivity].
    + destruct (accepts ltb x s) eqn:Ac.
      * exists tr1, (tr2 ++ [EAccept x]). rewrite app_assoc, <- Et. split; [reflexivity|]. split; [exact Cl|].
        unfold accepted_for. rewrite flat_map_snoc. fold (accepted_for ltb q tr). rewrite IH, <- app_assoc. f_equal.
        cbn [lfiles set_calls]. rewrite add_buffer, Ac by exact O. cbn [accepted_in andb]. unfold same_file.
        destruct (equivb ltb q (e_file x)); cbn [rev app]; rewrite ?app_nil_r; reflexivity.
      * apply Keep; [reflexivity|]. cbn [lfiles set_calls]. rewrite add_buffer, Ac by exact O. reflexivity.
    + (* erasing *)
      destruct (equivb ltb q k) eqn:Ek.
      * specialize (Pl q). apply place_early in Pl; [|apply pc_early; [exact Ex|congruence]].
        unfold written_now in Pl. rewrite P, Ek in Pl. pose proof Ek as Ek'. apply equivb_true in Ek'; [|exact O]. subst k.
        exists (tr ++ [EErase q n]), []. rewrite app_nil_r. split; [reflexivity|]. split; [right; eauto|].
        unfold accepted_for, written_to in *. rewrite !flat_map_snoc. cbn [accepted_in written_in]. rewrite !app_nil_r, Pl. f_equal.
        cbn. rewrite buffer_put, Ek by exact O. rewrite skipn_rev. reflexivity.
      * apply Keep; [reflexivity|]. cbn. rewrite buffer_put, Ek by exact O. reflexivity.
    + apply Keep; [destruct (next_file ltb p (lfiles s)) as [[? ?]|]; reflexivity|destruct (next_file ltb p (lfiles s)) as [[? ?]|]; reflexivity].
Qed.
End Memory.

Lemma closing_dec {K M} (ev : @event K M) : closing ev \/ ~ closing ev.
Proof. destruct ev; cbn; tauto. Qed.
Lemma last_closing {K M} (tr : list (@event K M)) : exists tr1 tr2, tr = tr1 ++ tr2 /\ after_closing tr1 /\ forall ev, In ev tr2 -> ~ closing ev.
Proof.
  induction tr as [|x tr IH] using rev_ind.
  - exists [], []. split; [reflexivity|]. split; [left; reflexivity|intros ev []].
  - destruct (closing_dec x) as [C|C].
    + exists (tr ++ [x]), []. rewrite app_nil_r. split; [reflexivity|]. split; [right; eauto|intros ev []].
    + destruct IH as (tr1 & tr2 & -> & A & B). exists tr1, (tr2 ++ [x]). split; [rewrite app_assoc; reflexivity|]. split; [exact A|].
      intros ev I0. apply in_app_or in I0. destruct I0 as [I0|[<-|[]]]; [apply B, I0|exact C].
Qed.

Section System.
Context {Q K M : Type} (peqb : Q -> Q -> bool) (path : K -> nat -> Q) (ltb : K -> K -> bool).
Hypothesis Peq : forall p q, peqb p q = true <-> p = q.
Hypothesis O : strict_total_order ltb.
Hypothesis Sep : separate path.
Variables (L R : nat -> Prop) (H : bool -> Prop) (HT : bytes -> Prop) (LT : entry K M -> bytes -> Prop).
Notation bdisk := (bdisk Q).
Notation st := (st Q).
Notation logger := (@logger K M).
Notation event := (@event K M).
Notation logical := (logical peqb).
Notation crashed := (crashed peqb path ltb L R H HT LT).
Notation csystem := (csystem peqb path ltb L R H HT LT).
Notation lives := (lives peqb path ltb L R H HT LT).
Notation summary := (summary peqb path ltb L R H HT LT).
Implicit Types (s : logger) (u : st) (tr : list event) (d : bdisk).

(** ** properties of single files *)
Section Files.
Variables (k : K) (good fair : bytes -> Prop).
Hypothesis Good_fair : forall c, good c -> fair c.
Hypothesis Fair_prefix : forall c c', prefix c c' -> fair c' -> fair c.
Hypothesis Good_nil : good [].
Hypothesis Emit : forall c limit rsize header ht lt e done rest, good c -> L limit -> R rsize -> H header -> HT ht -> LT e lt ->
  rsize = 0 \/ length c < rsize \/ c = [] -> block header ht lt (length c) = done ++ rest -> fair (c ++ done) /\ (rest = [] -> good (c ++ done)).
Definition all_good (P0 : bytes -> Prop) d : Prop := forall i c, d (path k i) = Some c -> P0 c.
Lemma put_good (P0 : bytes -> Prop) d d1 c : (forall i, d (path k i) = put_at peqb (path k 0) (Some c) d1 (path k i)) -> all_good P0 d1 -> P0 c -> all_good P0 d.
Proof.
  intros E A B i c' X. rewrite E, (put_path peqb Peq (path k) (inj_at path Sep k)) in X. destruct (Nat.eqb i 0); [injection X as <-; exact B|]. apply (A i), X.
Qed.
Lemma summary_good ev u u' fin : all_good good (logical u) -> summary k ev u u' fin ->
  all_good fair (logical u') /\ (fin = true -> all_good good (logical u')).
Proof.
  intros A Su.
  assert (Z : all_good good (logical u') -> all_good fair (logical u') /\ (fin = true -> all_good good (logical u'))).
  { intros B. split; [intros i c X; apply Good_fair, (B i), X|auto]. }
  destruct Su as [(_ & [B|(_ & _ & B)] & _)|[(limit & rsize & c0 & Hl & Hr & C0 & (R1 & R2 & D1 & R3 & R4) & _)|(e & limit & rsize & header & ht & lt & c0 & done & rest & -> & Hl & Hr & Hh & Ht & Hlt & C0 & Em & Rt)]].
  - apply Z. intros i c. rewrite B. apply A.
  - apply Z. eapply put_good; [exact B|exact A|exact Good_nil].
  - apply Z. assert (G : all_good good D1).
    { intros i c X. destruct (moves_files peqb Peq (path k) (inj_at path Sep k) _ _ _ R3 i c X) as (j & Y). apply (A j), Y. }
    assert (Lg : forall q, logical u' q = on_disk u' q) by (intros q; unfold CrashProofs.logical; rewrite R1; reflexivity).
    destruct R4 as [R4|(_ & R4)]; [intros i c; rewrite Lg, R4; apply G|]. eapply put_good; [intros i; rewrite Lg; apply R4|exact G|exact Good_nil].
  - destruct Em as (D1 & c1 & n1 & w & Or & Bl & E1 & E2 & _ & E3).
    assert (X : all_good good D1 /\ good c1 /\ (rsize = 0 \/ length c1 < rsize \/ c1 = [])).
    { destruct Or as [(-> & -> & Sz & Eq)|(-> & -> & Rs & Mv & D10)].
      - split; [intros i c; rewrite Eq; apply A|]. split; [apply (A 0), C0|tauto].
      - split; [|split; [exact Good_nil|auto]]. intros i c X. destruct (moves_files peqb Peq (path k) (inj_at path Sep k) _ _ _ Mv i c X) as (j & Y). apply (A j), Y. }
    destruct X as (X1 & X2 & X3). destruct (Emit c1 limit rsize header ht lt e done rest X2 Hl Hr Hh Ht Hlt X3 Bl) as (Y1 & Y2). split.
    + eapply put_good; [intros i; apply E3| |exact Y1]. intros i c X. apply Good_fair, (X1 i), X.
    + intros Fi. eapply put_good; [intros i; apply E3|exact X1|]. apply Y2, Rt, Fi.
Qed.
Lemma disk_prefix u : (forall p w, stream u = Some (p, w) -> on_disk u p <> None /\ exists k, p = path k 0) ->
  forall p c, on_disk u p = Some c -> exists c', logical u p = Some c' /\ prefix c c'.
Proof.
  intros E p c X. destruct (stream u) as [[q w]|] eqn:Es.
  - destruct (p_dec peqb Peq p q) as [->|N].
    + exists (c ++ w). rewrite (logical_at peqb Peq _ _ _ Es), X. split; [reflexivity|exists w; reflexivity].
    + exists c. rewrite (logical_off peqb Peq _ _ _ _ Es N). split; [exact X|exists []; rewrite app_nil_r; reflexivity].
  - exists c. unfold CrashProofs.logical. rewrite Es. split; [exact X|exists []; rewrite app_nil_r; reflexivity].
Qed.
Lemma csystem_good lvl max fl clock d0 tr s u : csystem (initial lvl max fl clock) d0 tr s u -> all_good good d0 -> all_good good (logical u).
Proof.
  intros S A0. induction S as [|tr s u e s' u' o p S IH St Ep Ru]; [exact A0|].
  pose proof (csystem_held peqb path ltb Peq O Sep L R H HT LT _ _ _ _ _ _ _ _ S) as He.
  destruct (event_reach peqb path ltb Peq O Sep L R H HT LT s e u o p u' (End o) He (held_needs _ _ _ _ _ _ He St) Ep Ru (or_intror eq_refl)) as [Su _].
  apply (summary_good _ _ _ _ IH (Su k true (fun _ => eq_refl))). reflexivity.
Qed.
Lemma crash_good lvl max fl clock d0 tr s e d : crashed (initial lvl max fl clock) d0 tr s e d -> all_good good d0 -> all_good fair d.
Proof.
  intros [u s' p u' p' S St Ep Ru ->] A0. pose proof (csystem_good _ _ _ _ _ _ _ _ S A0) as A.
  pose proof (csystem_held peqb path ltb Peq O Sep L R H HT LT _ _ _ _ _ _ _ _ S) as He.
  destruct (event_reach peqb path ltb Peq O Sep L R H HT LT s e u Done p u' p' He (held_needs _ _ _ _ _ _ He St) Ep Ru (or_introl eq_refl)) as [Su _].
  destruct (summary_good _ _ _ _ A (Su k false (fun X => ltac:(discriminate)))) as (F & _).
  intros i c X. destruct (disk_prefix u' (event_streams peqb path Peq Sep L R H HT LT s e u Done p u' p' He (held_needs _ _ _ _ _ _ He St) Ep Ru) _ _ X) as (c' & Y1 & Y2).
  apply (Fair_prefix _ _ Y2), (F i), Y1.
Qed.
End Files.

(** sizes *)
Lemma crash_small r a b k lvl max fl clock d0 tr s e d : (forall n, R n -> 0 < n <= r) -> (forall ht, HT ht -> length ht <= a) -> (forall x lt, LT x lt -> length lt <= b) ->
  crashed (initial lvl max fl clock) d0 tr s e d -> (forall i c, d0 (path k i) = Some c -> length c < r + a + b + 2) ->
  forall i c, d (path k i) = Some c -> length c < r + a + b + 2.
Proof.
  intros Hr Ha Hb Cr D0.
  assert (Rpos : R 0 -> False) by (intros X; apply Hr in X; lia).
  destruct (Nat.eq_dec r 0) as [->|Nr].
  { (* no rotation size: nothing can be written *)
    refine (crash_good k (fun c => length c < 0 + a + b + 2) (fun c => length c < 0 + a + b + 2) _ _ _ _ _ _ _ _ _ _ _ _ _ Cr _); auto.
    - intros c c' (x & ->) Le. rewrite app_length in Le. lia.
    - cbn. lia.
    - intros c limit rsize header ht lt x done rest _ _ Rr. apply Hr in Rr. lia. }
  refine (crash_good k (fun c => length c < r + a + b + 2) (fun c => length c < r + a + b + 2) _ _ _ _ _ _ _ _ _ _ _ _ _ Cr _); auto.
  - intros c c' (x & ->) Le. rewrite app_length in Le. lia.
  - cbn. lia.
  - intros c limit rsize header ht lt x done rest Gd _ Rr _ Ht Hlt Sz Bl.
    assert (X : length (c ++ done) < r + a + b + 2); [|auto]. rewrite app_length.
    assert (Ld : length done <= a + b + 2).
    { apply f_equal with (f := @length ascii) in Bl. unfold block in Bl. rewrite !app_length in Bl. apply Ha in Ht. apply Hb in Hlt.
      destruct (header && (length c =? 0)); rewrite ?app_length in Bl; cbn in Bl; lia. }
    pose proof (Hr _ Rr). destruct Sz as [->|[Sz| ->]]; [lia|lia|cbn; lia].
Qed.
Lemma prefix_trans {A} (x y z : list A) : prefix x y -> prefix y z -> prefix x z.
Proof. intros (r & ->) (r' & ->). exists (r ++ r'). rewrite app_assoc. reflexivity. Qed.
Lemma prefix_both {A} (x y z : list A) : prefix x z -> prefix y z -> prefix x y \/ prefix y x.
Proof.
  revert y z. induction x as [|a x IH]; intros y z X Y; [left; exists y; reflexivity|].
  destruct y as [|b y]; [right; exists (a :: x); reflexivity|]. destruct X as (r & ->), Y as (r' & E). cbn in E. injection E as -> E.
  destruct (IH y (x ++ r)) as [(q & ->)|(q & ->)]; [exists r; reflexivity|exists r'; exact E|left; exists q; reflexivity|right; exists q; reflexivity].
Qed.
(** headers *)
Lemma crash_headers h k lvl max fl clock d0 tr s e d : (forall b, H b -> b = true) -> (forall ht, HT ht -> ht = h) ->
  crashed (initial lvl max fl clock) d0 tr s e d -> (forall i c, d0 (path k i) = Some c -> complete_header h c) ->
  forall i c, d (path k i) = Some c -> begins h c.
Proof.
  intros Hb Hh Cr D0. refine (crash_good k (complete_header h) (begins h) _ _ _ _ _ _ _ _ _ _ _ _ _ Cr _); auto.
  - intros c [->|X]; [right; exists (h ++ [nl]); reflexivity|left; exact X].
  - intros c c' Px [X|X]; [|right; eapply prefix_trans; eauto]. destruct (prefix_both _ _ _ X Px) as [Y|Y]; [left|right]; exact Y.
  - left. reflexivity.
  - intros c limit rsize header ht lt x done rest Gd _ _ Hd Ht _ _ Bl. rewrite (Hb _ Hd) in Bl. rewrite (Hh _ Ht) in Bl. destruct Gd as [->|X].
    + cbn [length app] in *. unfold block in Bl. cbn in Bl. split.
      * destruct (prefix_both (h ++ [nl]) done ((h ++ [nl]) ++ lt ++ [nl])) as [Y|Y]; [exists (lt ++ [nl]); reflexivity|exists rest; exact Bl|left; exact Y|right; exact Y].
      * intros ->. right. rewrite app_nil_r in Bl. rewrite <- Bl. exists (lt ++ [nl]). reflexivity.
    + destruct X as (r & ->). assert (prefix (h ++ [nl]) (((h ++ [nl]) ++ r) ++ done)) by (exists (r ++ done); rewrite app_assoc; reflexivity).
      split; [left; assumption|intros _; right; assumption].
Qed.

(** ** several processes *)
Lemma lives_tracked m k T0 d0 log d : (forall limit rsize, L limit -> R rsize -> fits m limit rsize) -> lives d0 log d ->
  all_text (path k) d0 T0 -> room (path k) m d0 ->
  exists T ws, all_text (path k) d T /\ Forall2 (fun tr w => exists es, crash_text ltb HT LT k tr es w) log ws /\
  rel m T (T0 ++ concat ws) /\ room (path k) m d.
Proof.
  intros Fi Li A0 R0. induction Li as [|log d lvl max fl clock tr s e d' Li IH Cr].
  - exists T0, []. cbn. rewrite app_nil_r. split; [exact A0|]. split; [constructor|]. split; [apply rel_refl|exact R0].
  - destruct IH as (T & ws & I1 & I2 & I3 & I4).
    destruct (last_closing tr) as (tr1 & tr2 & Et & Ac & Nc).
    destruct (crash_tracked peqb path ltb Peq O Sep L R H HT LT m k T Fi _ _ _ _ _ _ _ _ _ Cr I1 I4 tr1 tr2 Et Ac) as (T' & W1 & w2 & es & C1 & C2 & C3 & C4 & C5 & C6).
    exists T', (ws ++ [W1 ++ w2]). split; [exact C1|]. split; [|split; [|exact C6]].
    + apply Forall2_app; [exact I2|]. constructor; [|constructor]. exists (written_to ltb k tr1 ++ es), tr1, tr2, e, es, W1, w2. subst tr. auto 10.
    + rewrite concat_app. cbn. rewrite app_nil_r. eapply rel_trans; [exact C5|]. rewrite (app_assoc T0). apply rel_app, I3.
Qed.
Lemma lives_small r a b k d0 log d : (forall n, R n -> 0 < n <= r) -> (forall ht, HT ht -> length ht <= a) -> (forall x lt, LT x lt -> length lt <= b) ->
  lives d0 log d -> (forall i c, d0 (path k i) = Some c -> length c < r + a + b + 2) ->
  forall i c, d (path k i) = Some c -> length c < r + a + b + 2.
Proof. intros Hr Ha Hb Li D0. induction Li as [|log d lvl max fl clock tr s e d' Li IH Cr]; [exact D0|]. eapply crash_small; eauto. Qed.
End System.

(** * Statements *)
Section Final.
Context {Q K M : Type} (peqb : Q -> Q -> bool) (path : K -> nat -> Q) (ltb : K -> K -> bool).
Hypothesis Peq : forall p q, peqb p q = true <-> p = q.
Hypothesis O : strict_total_order ltb.
Hypothesis Sep : separate path.
Variables (L R : nat -> Prop) (H : bool -> Prop) (HT : bytes -> Prop) (LT : entry K M -> bytes -> Prop).
Notation crashed := (crashed peqb path ltb L R H HT LT).
Notation lives := (lives peqb path ltb L R H HT LT).
Notation logger := (@logger K M).
Notation event := (@event K M).
Lemma app_prefix {A} (x y z : list A) : prefix (x ++ y) (x ++ z) -> prefix y z.
Proof. intros (r & E). rewrite <- app_assoc in E. apply app_inv_head in E. exists r. exact E. Qed.
Lemma crash_memory m k T0 lvl max fl clock d0 (tr : list event) s ev d : (forall limit rsize, L limit -> R rsize -> fits m limit rsize) ->
  crashed (initial lvl max fl clock) d0 tr s ev d -> all_text (path k) d0 T0 -> room (path k) m d0 ->
  exists T kept es W w, all_text (path k) d T /\ accepted_for ltb k tr = kept ++ rev (buffer ltb k (lfiles s)) /\
  blocks HT LT kept W /\ prefix es (rev (buffer ltb k (lfiles s))) /\ torn HT LT es w /\ rel m T (T0 ++ W ++ w) /\ room (path k) m d.
Proof.
  intros Fi Cr A0 R0. pose proof Cr as [u s' p u' p' S St _ _ _]. pose proof (csystem_exec peqb path ltb L R H HT LT _ _ _ _ _ S) as E.
  destruct (erased_proof ltb O _ _ _ _ _ _ k E) as (tr1 & tr2 & Et & Cl & Ac).
  assert (Ac1 : after_closing tr1). { destruct Cl as [->|(tr' & n & ->)]; [left; reflexivity|right; exists tr', (EErase k n); split; [reflexivity|exact I]]. }
  destruct (crash_tracked peqb path ltb Peq O Sep L R H HT LT m k T0 Fi _ _ _ _ _ _ _ _ _ Cr A0 R0 tr1 tr2 Et Ac1) as (T & W1 & w2 & es & C1 & C2 & C3 & C4 & C5 & C6).
  exists T, (written_to ltb k tr1), es, W1, w2. split; [exact C1|]. split; [exact Ac|]. split; [exact C2|]. split; [|auto].
  apply (app_prefix (written_to ltb k tr1)). rewrite <- Ac.
  assert (P1 : prefix (written_to ltb k tr1 ++ written_to ltb k (tr2 ++ [ev])) (accepted_for ltb k tr)).
  { assert (Pa : prefix (written_to ltb k tr) (accepted_for ltb k tr)) by (eapply prefix_proof; eauto).
    assert (Pb : prefix (written_to ltb k (tr ++ [ev])) (accepted_for ltb k (tr ++ [ev]))) by (eapply prefix_proof; [exact O|econstructor; [exact E|exact St]]).
    unfold written_to, accepted_for in *. rewrite <- flat_map_app, app_assoc, <- Et. rewrite !flat_map_snoc in *.
    destruct ev; cbn [written_in accepted_in] in *; rewrite ?app_nil_r in *; assumption. }
  destruct C3 as (r & C3). eapply prefix_trans; [|exact P1]. rewrite C3. exists r. rewrite app_assoc. reflexivity.
Qed.
Lemma crash_off_proof k T0 lvl max fl clock d0 (tr : list event) s ev d : (forall n, R n -> n = 0) ->
  crashed (initial lvl max fl clock) d0 tr s ev d -> all_text (path k) d0 T0 ->
  exists kept es W w, accepted_for ltb k tr = kept ++ rev (buffer ltb k (lfiles s)) /\
  blocks HT LT kept W /\ prefix es (rev (buffer ltb k (lfiles s))) /\ torn HT LT es w /\ all_text (path k) d (T0 ++ W ++ w).
Proof.
  intros Ro Cr A0. destruct (crash_memory Off k T0 _ _ _ _ _ _ _ _ _ (fun limit rsize _ X => Ro rsize X) Cr A0 I) as (T & kept & es & W & w & X1 & X2 & X3 & X4 & X5 & X6 & _).
  cbn in X6. subst T. exists kept, es, W, w. auto.
Qed.
Lemma crash_limit_proof k n T0 lvl max fl clock d0 (tr : list event) s ev d : (forall i, L i -> i = n) ->
  crashed (initial lvl max fl clock) d0 tr s ev d -> all_text (path k) d0 T0 -> (forall i, n < i -> d0 (path k i) = None) ->
  exists T kept es W w, accepted_for ltb k tr = kept ++ rev (buffer ltb k (lfiles s)) /\
  blocks HT LT kept W /\ prefix es (rev (buffer ltb k (lfiles s))) /\ torn HT LT es w /\ all_text (path k) d T /\ suffix_of T (T0 ++ W ++ w) /\
  forall i, n < i -> d (path k i) = None.
Proof.
  intros Lo Cr A0 R0. destruct (crash_memory (Limit n) k T0 _ _ _ _ _ _ _ _ _ (fun limit rsize X _ => Lo limit X) Cr A0 R0) as (T & kept & es & W & w & X1 & X2 & X3 & X4 & X5 & X6 & X7).
  exists T, kept, es, W, w. cbn in X6, X7. repeat (split; [assumption|]). assumption.
Qed.
Lemma crash_any_proof k T0 lvl max fl clock d0 (tr : list event) s ev d :
  crashed (initial lvl max fl clock) d0 tr s ev d -> all_text (path k) d0 T0 ->
  exists T kept es W w, accepted_for ltb k tr = kept ++ rev (buffer ltb k (lfiles s)) /\
  blocks HT LT kept W /\ prefix es (rev (buffer ltb k (lfiles s))) /\ torn HT LT es w /\ all_text (path k) d T /\ sublist T (T0 ++ W ++ w).
Proof.
  intros Cr A0. destruct (crash_memory Any k T0 _ _ _ _ _ _ _ _ _ (fun limit rsize _ _ => I) Cr A0 I) as (T & kept & es & W & w & X1 & X2 & X3 & X4 & X5 & X6 & _).
  exists T, kept, es, W, w. cbn in X6. repeat (split; [assumption|]). assumption.
Qed.
Lemma crash_closed_proof k T0 lvl max fl clock d0 (tr1 tr2 : list event) s ev d : (forall n, R n -> n = 0) ->
  crashed (initial lvl max fl clock) d0 (tr1 ++ tr2) s ev d -> all_text (path k) d0 T0 -> after_closing tr1 ->
  exists W w es, blocks HT LT (written_to ltb k tr1) W /\ prefix es (written_to ltb k (tr2 ++ [ev])) /\ torn HT LT es w /\ all_text (path k) d (T0 ++ W ++ w).
Proof.
  intros Ro Cr A0 Ac. destruct (crash_tracked peqb path ltb Peq O Sep L R H HT LT Off k T0 (fun limit rsize _ X => Ro rsize X) _ _ _ _ _ _ _ _ _ Cr A0 I tr1 tr2 eq_refl Ac)
    as (T & W1 & w2 & es & C1 & C2 & C3 & C4 & C5 & C6).
  cbn in C5. subst T. exists W1, w2, es. auto.
Qed.
(** several processes *)
Lemma lives_any_proof k T0 d0 log d : lives d0 log d -> all_text (path k) d0 T0 ->
  exists T ws, all_text (path k) d T /\ Forall2 (fun tr w => exists es, crash_text ltb HT LT k tr es w) log ws /\ sublist T (T0 ++ concat ws).
Proof.
  intros Li A0. destruct (lives_tracked peqb path ltb Peq O Sep L R H HT LT Any k T0 _ _ _ (fun _ _ _ _ => I) Li A0 I) as (T & ws & X1 & X2 & X3 & _). eauto.
Qed.
Lemma lives_off_proof k T0 d0 log d : (forall n, R n -> n = 0) -> lives d0 log d -> all_text (path k) d0 T0 ->
  exists ws, Forall2 (fun tr w => exists es, crash_text ltb HT LT k tr es w) log ws /\ all_text (path k) d (T0 ++ concat ws).
Proof.
  intros Ro Li A0. destruct (lives_tracked peqb path ltb Peq O Sep L R H HT LT Off k T0 _ _ _ (fun _ rsize _ X => Ro rsize X) Li A0 I) as (T & ws & X1 & X2 & X3 & _).
  cbn in X3. subst T. eauto.
Qed.
Lemma lives_limit_proof k n T0 d0 log d : (forall i, L i -> i = n) -> lives d0 log d -> all_text (path k) d0 T0 -> (forall i, n < i -> d0 (path k i) = None) ->
  exists T ws, all_text (path k) d T /\ Forall2 (fun tr w => exists es, crash_text ltb HT LT k tr es w) log ws /\
  suffix_of T (T0 ++ concat ws) /\ forall i, n < i -> d (path k i) = None.
Proof.
  intros Lo Li A0 R0. destruct (lives_tracked peqb path ltb Peq O Sep L R H HT LT (Limit n) k T0 _ _ _ (fun limit _ X _ => Lo limit X) Li A0 R0) as (T & ws & X1 & X2 & X3 & X4).
  exists T, ws. auto.
Qed.

(** ** whole lines *)
Lemma block_line (e : entry K M) b x y : block_of HT LT e b -> (x = [] \/ exists x', x = x' ++ [nl]) -> exists lt, LT e lt /\ line_in lt (x ++ b ++ y).
Proof.
  intros (lt & Hl & [->|(ht & _ & ->)]) X; exists lt; (split; [exact Hl|]).
  - exists x, y. split; [rewrite <- !app_assoc; reflexivity|exact X].
  - exists (x ++ ht ++ [nl]), y. split; [rewrite <- !app_assoc; reflexivity|right; exists (x ++ ht); rewrite app_assoc; reflexivity].
Qed.
Lemma block_ends (e : entry K M) b : block_of HT LT e b -> exists b', b = b' ++ [nl].
Proof. intros (lt & _ & [->|(ht & _ & ->)]); eexists; [reflexivity|]. rewrite !app_assoc. reflexivity. Qed.
Lemma blocks_lines (es : list (entry K M)) w x y e : blocks HT LT es w -> (x = [] \/ exists x', x = x' ++ [nl]) -> In e es ->
  exists lt, LT e lt /\ line_in lt (x ++ w ++ y).
Proof.
  intros Bl. revert x. induction Bl as [|e1 es b w Hb Bl IH]; intros x X []; [subst e1; rewrite <- app_assoc; apply block_line; auto|].
  destruct (block_ends _ _ Hb) as (b' & Eb). rewrite <- app_assoc, app_assoc. apply IH; auto. right. exists (x ++ b'). rewrite Eb, app_assoc. reflexivity.
Qed.
Lemma torn_lines (es : list (entry K M)) w x y e : torn HT LT es w -> In e (inner es) -> exists lt, LT e lt /\ line_in lt (x ++ w ++ y).
Proof.
  intros (es1 & w1 & t & Bl & -> & C) I. assert (I1 : In e (tl es1)).
  { destruct C as [(-> & _)|(e' & b & -> & _)].
    - unfold inner in I. clear -I. revert I. generalize (tl es1). intros l. induction l as [|a l IH]; [intros []|]. destruct l; [intros []|]. intros [<-|X]; [left; reflexivity|right; apply IH, X].
    - unfold inner in I. destruct es1 as [|a es1]; [destruct I|]. cbn [tl app] in *. rewrite removelast_last in I. exact I. }
  destruct Bl as [|e1 es1 b w1 Hb Bl]; [destruct I1|]. cbn [tl] in I1. destruct (block_ends _ _ Hb) as (b' & Eb).
  replace (x ++ ((b ++ w1) ++ t) ++ y) with ((x ++ b) ++ w1 ++ t ++ y) by (rewrite <- !app_assoc; reflexivity).
  apply blocks_lines with (es := es1); auto. right. exists (x ++ b'). rewrite Eb, app_assoc. reflexivity.
Qed.
Lemma crash_text_torn k (tr : list event) es w : crash_text ltb HT LT k tr es w -> prefix es (written_to ltb k tr) /\ torn HT LT es w.
Proof.
  intros (tr1 & tr2 & e & es2 & w1 & w2 & -> & _ & _ & Bl & Pr & To & -> & ->). split; [|apply torn_app; auto].
  destruct Pr as (r & Pr). exists r. rewrite <- !app_assoc, <- Pr. unfold written_to. rewrite <- flat_map_app. reflexivity.
Qed.
(** Only the last entry of a process and the first entry of the next one can be damaged. *)
Lemma lines_proof k T0 d0 log d : (forall n, R n -> n = 0) -> lives d0 log d -> all_text (path k) d0 T0 ->
  exists ess ws, length ess = length log /\ Forall2 (fun tr x => crash_text ltb HT LT k tr (fst x) (snd x)) log (combine ess ws) /\
  all_text (path k) d (T0 ++ concat ws) /\
  forall es e, In es ess -> In e (inner es) -> exists lt, LT e lt /\ line_in lt (T0 ++ concat ws).
Proof.
  intros Ro Li A0. destruct (lives_off_proof k T0 _ _ _ Ro Li A0) as (ws & F & A). clear Li A0.
  assert (X : exists ess, length ess = length log /\ Forall2 (fun tr x => crash_text ltb HT LT k tr (fst x) (snd x)) log (combine ess ws) /\ Forall2 (torn HT LT) ess ws).
  { clear A. induction F as [|tr w log ws (es & P1) F (ess & I0 & I1 & I2)]; [exists []; cbn; auto|]. exists (es :: ess). cbn. split; [congruence|].
    split; [constructor; auto|]. constructor; [apply (crash_text_torn _ _ _ _ P1)|exact I2]. }
  destruct X as (ess & F0 & F1 & F2). exists ess, ws. split; [exact F0|]. split; [exact F1|]. split; [exact A|]. clear A F0 F1 F. intros es e I1 I2. revert T0.
  induction F2 as [|es' w ess ws To F2 IH]; [destruct I1|]. intros T0. cbn [concat]. destruct I1 as [->|I1].
  - apply torn_lines with (es := es); auto.
  - rewrite app_assoc. apply IH, I1.
Qed.
End Final.
