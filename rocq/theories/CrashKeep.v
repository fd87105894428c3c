(** Rotation discards nothing as long as there are few bytes, also across crashes. *)
From Coq Require Import List Bool Arith Ascii Lia.
From Verif Require Import Base ListUpdate LoggerModel LoggerSpec LoggerProofs LogFileModel LogFileSpec LogFileProofs LogFileSystem CrashModel CrashSpec CrashProofs CrashSystem CrashMore.
Import ListNotations.

Section Text.
Context {P : Type} (peqb : P -> P -> bool).
Hypothesis Peq : forall p q, peqb p q = true <-> p = q.
Variable path : nat -> P.
Hypothesis Inj : forall i j, path i = path j -> i = j.
Variables (n r : nat).
Lemma text_big limit (d : bdisk P) b : limit <= b -> (forall j, j < limit -> exists c, d (path j) = Some c /\ r <= length c) -> limit * r <= length (text_below path b d).
Proof.
  revert limit. induction b as [|b IH]; intros limit Lb A; [assert (limit = 0) by lia; subst; cbn; lia|]. cbn [text_below]. rewrite app_length.
  destruct (Nat.le_gt_cases limit b) as [Le|Gt]; [specialize (IH limit Le A); lia|]. assert (limit = S b) by lia. subst limit.
  destruct (A b) as (c & -> & Hc); [lia|]. specialize (IH b (le_n b)). cbn [Nat.mul]. assert (b * r <= length (text_below path b d)) by (apply IH; intros j Hj; apply A; lia). lia.
Qed.
Lemma moves_kept limit d d' : moves peqb path limit d d' -> n <= limit -> (forall i c, d (path i) = Some c -> r <= length c) -> forall T, all_text path d T ->
  exists T', all_text path d' T' /\ (T' = T \/ n * r <= length T').
Proof.
  intros Mv Ln Big T Al. induction Mv as [d' E|d1 d' i Mv (T1 & A1 & A2) Li Ex E|d1 d' i Mv (T1 & A1 & A2) Li Fr E].
  - exists T. split; [apply (all_text_ext path d); auto|auto].
  - assert (E' : forall j, d' (path j) = if Nat.eqb j i then None else d1 (path j)) by (intros j; rewrite E; apply (put_path peqb Peq path Inj)). clear E.
    destruct (all_text_slack _ _ _ (S i) A1) as (b & B1 & _ & Hb & ->). exists (text_below path b d'). split.
    + exists b. split; [|reflexivity]. intros j Hj. rewrite E'. destruct (Nat.eqb j i); auto.
    + right. transitivity (limit * r); [apply Nat.mul_le_mono_r, Ln|]. apply text_big; [lia|]. intros j Hj. rewrite E'. destruct (Nat.eqb_spec j i); [lia|].
      specialize (Ex j Hj). destruct (d1 (path j)) as [c|] eqn:Ec; [|congruence]. exists c. split; [reflexivity|].
      destruct (moves_files peqb Peq path Inj _ _ _ Mv j c Ec) as (j' & Y). apply (Big j'), Y.
  - assert (E' : forall j, d' (path j) = if Nat.eqb j (S i) then d1 (path i) else if Nat.eqb j i then None else d1 (path j)) by (intros j; rewrite E, !(put_path peqb Peq path Inj); reflexivity). clear E.
    destruct (all_text_slack _ _ _ (S (S i)) A1) as (b & B1 & _ & Hb & ->). destruct (text_split path (S i) b d1) as (hi & S1 & S2 & S3); [lia|].
    assert (X : text_below path b d' = text_below path b d1).
    { rewrite S1, (S2 d') by (intros j Hj; rewrite E'; destruct (Nat.eqb_spec j (S i)); [lia|]; destruct (Nat.eqb_spec j i); [lia|reflexivity]).
      cbn [text_below]. rewrite !E', Nat.eqb_refl, Fr, (proj2 (Nat.eqb_neq i (S i))), Nat.eqb_refl by lia. cbn. f_equal. unfold content. f_equal.
      apply text_ext. intros j Hj. rewrite E'. destruct (Nat.eqb_spec j (S i)); [lia|]. destruct (Nat.eqb_spec j i); [lia|reflexivity]. }
    exists (text_below path b d1). split; [|exact A2].
    exists b. split; [|symmetry; exact X]. intros j Hj. rewrite E'. destruct (Nat.eqb_spec j (S i)); [lia|]. destruct (Nat.eqb j i); auto.
Qed.
End Text.

Section System.
Context {Q K M : Type} (peqb : Q -> Q -> bool) (path : K -> nat -> Q) (ltb : K -> K -> bool).
Hypothesis Peq : forall p q, peqb p q = true <-> p = q.
Hypothesis O : strict_total_order ltb.
Hypothesis Sep : separate path.
Variables (L R : nat -> Prop) (H : bool -> Prop) (HT : bytes -> Prop) (LT : entry K M -> bytes -> Prop).
Variables (n r : nat) (k : K).
Hypothesis Ln : forall i, L i -> n <= i.
Hypothesis Rr : forall i, R i -> i = 0 \/ r <= i.
Notation bdisk := (bdisk Q).
Notation st := (st Q).
Notation logger := (@logger K M).
Notation event := (@event K M).
Notation logical := (logical peqb).
Notation crashed := (crashed peqb path ltb L R H HT LT).
Notation csystem := (csystem peqb path ltb L R H HT LT).
Notation lives := (lives peqb path ltb L R H HT LT).
Notation summary := (summary peqb path ltb L R H HT LT).
Notation pending := (pending peqb path).
Notation Inj := (inj_at path Sep k).
Implicit Types (s : logger) (u : st) (tr : list event) (d : bdisk).
Definition old_big d : Prop := forall i c, 0 < i -> d (path k i) = Some c -> r <= length c.
Definition big u : Prop := exists T, all_text (path k) (logical u) T /\ n * r + pending k u <= length T.
Notation tracked := (tracked peqb path Off k).

Lemma put_old d d1 x : (forall i, d (path k i) = put_at peqb (path k 0) x d1 (path k i)) -> old_big d1 -> old_big d.
Proof. intros E A i c Hi X. rewrite E, (put_path peqb Peq (path k) Inj) in X. destruct (Nat.eqb_spec i 0); [lia|]. apply (A i c Hi X). Qed.
Lemma moved_big limit rsize d d1 c0 : R rsize -> 0 < rsize <= length c0 -> d (path k 0) = Some c0 -> old_big d -> moves peqb (path k) limit d d1 ->
  (forall i c, d (path k i) = Some c -> r <= length c) /\ old_big d1.
Proof.
  intros Hr Rs C0 A Mv. assert (X : forall i c, d (path k i) = Some c -> r <= length c).
  { intros [|i] c Y; [|apply (A (S i) c); [lia|exact Y]]. rewrite C0 in Y. injection Y as <-. destruct (Rr _ Hr); lia. }
  split; [exact X|]. intros i c _ Y. destruct (moves_files peqb Peq (path k) Inj _ _ _ Mv i c Y) as (j & Z). apply (X j), Z.
Qed.
Lemma summary_old ev u u' fin : old_big (logical u) -> summary k ev u u' fin -> old_big (logical u').
Proof.
  intros A [(_ & [B|(_ & _ & B)] & _)|[(limit & rsize & c0 & Hl & Hr & C0 & (R1 & R2 & D1 & R3 & R4) & _)|(e & limit & rsize & header & ht & lt & c0 & done & rest & -> & Hl & Hr & Hh & Ht & Hlt & C0 & Em & Rt)]].
  - intros i c Hi. rewrite B. apply A, Hi.
  - eapply put_old; [exact B|exact A].
  - destruct (moved_big _ _ _ _ _ Hr R2 C0 A R3) as (_ & G).
    assert (Lg : forall q, logical u' q = on_disk u' q) by (intros q; unfold CrashProofs.logical; rewrite R1; reflexivity).
    destruct R4 as [R4|(_ & R4)]; [intros i c Hi; rewrite Lg, R4; apply G, Hi|]. eapply put_old; [intros i; rewrite Lg; apply R4|exact G].
  - destruct Em as (D1 & c1 & n1 & w & Or & Bl & E1 & E2 & _ & E3). eapply put_old; [intros i; apply E3|].
    destruct Or as [(-> & -> & Sz & Eq)|(-> & -> & Rs & Mv & D10)]; [intros i c Hi; rewrite Eq; apply A, Hi|apply (moved_big _ _ _ _ _ Hr Rs C0 A Mv)].
Qed.
(** what an event does to the text: [Wd] is added to it, unless much remains *)
Lemma summary_text ev u u' fin T : old_big (logical u) -> all_text (path k) (logical u) T -> summary k ev u u' fin ->
  exists Wd es, prefix es (written_in ltb k ev) /\ torn HT LT es Wd /\ (fin = true -> blocks HT LT (written_in ltb k ev) Wd) /\
  pending k u' <= pending k u + length Wd /\ (all_text (path k) (logical u') (T ++ Wd) \/ big u').
Proof.
  intros A A1 Su.
  assert (None0 : forall T', all_text (path k) (logical u') T' -> pending k u' <= pending k u -> (T' = T \/ n * r + pending k u' <= length T') ->
    (fin = true -> written_in ltb k ev = []) ->
    exists Wd es, prefix es (written_in ltb k ev) /\ torn HT LT es Wd /\ (fin = true -> blocks HT LT (written_in ltb k ev) Wd) /\
    pending k u' <= pending k u + length Wd /\ (all_text (path k) (logical u') (T ++ Wd) \/ big u')).
  { intros T' B1 B2 B3 B4. exists [], []. split; [eexists; reflexivity|]. split; [exists [], [], []; split; [constructor|]; auto|]. rewrite app_nil_r. cbn [length].
    split; [intros X; rewrite (B4 X); constructor|]. split; [lia|]. destruct B3 as [->|B3]; [left; exact B1|right; exists T'; auto]. }
  destruct Su as [(B1 & B2 & B3)|[(limit & rsize & c0 & Hl & Hr & C0 & Ro & B3)|(e & limit & rsize & header & ht & lt & c0 & done & rest & -> & Hl & Hr & Hh & Ht & Hlt & C0 & Em & Rt)]].
  - destruct B2 as [B2|(B2 & B4 & B5)].
    + apply (None0 T); auto. eapply all_text_ext; [exact B2|exact A1].
    + apply (None0 T); auto. rewrite <- (app_nil_r T). eapply (all_text_last (path k) (logical u)); [exact A1|rewrite B4; reflexivity| |].
      * rewrite B5, (bput_same peqb Peq). reflexivity.
      * intros i Hi. rewrite B5. apply (put_zero peqb path Peq Sep k), Hi.
  - destruct Ro as (R1 & R2 & D1 & R3 & R4). destruct (moved_big _ _ _ _ _ Hr R2 C0 A R3) as (Bg & _).
    destruct (moves_kept peqb Peq (path k) Inj n r limit _ _ R3 (Ln _ Hl) Bg T A1) as (T1 & M1 & M2).
    assert (Lg : forall q, logical u' q = on_disk u' q) by (intros q; unfold CrashProofs.logical; rewrite R1; reflexivity).
    pose proof (pending_none peqb path k u' R1) as P0. apply (None0 T1); auto; [|lia|destruct M2 as [M2|M2]; [left; exact M2|right; lia]].
    destruct R4 as [R4|(R4 & R5)].
    + eapply all_text_ext; [|exact M1]. intros i. rewrite Lg. apply R4.
    + rewrite <- (app_nil_r T1). eapply (all_text_last (path k) D1); [exact M1|rewrite R4; reflexivity| |].
      * rewrite Lg, R5, (bput_same peqb Peq). reflexivity.
      * intros i Hi. rewrite Lg, R5. apply (put_zero peqb path Peq Sep k), Hi.
  - destruct Em as (D1 & c1 & n1 & w & Or & Bl & E1 & E2 & _ & E3).
    assert (X : exists T1, all_text (path k) D1 T1 /\ (T1 = T \/ n * r + n1 <= length T1) /\ content (D1 (path k 0)) = c1 /\ n1 <= pending k u).
    { destruct Or as [(-> & -> & _ & Eq)|(-> & -> & Rs & Mv & D10)].
      - exists T. split; [eapply all_text_ext; [|exact A1]; intros i; apply Eq|]. split; [auto|]. split; [rewrite Eq, C0; reflexivity|lia].
      - destruct (moved_big _ _ _ _ _ Hr Rs C0 A Mv) as (Bg & _).
        destruct (moves_kept peqb Peq (path k) Inj n r limit _ _ Mv (Ln _ Hl) Bg T A1) as (T1 & M1 & M2).
        exists T1. split; [exact M1|]. split; [rewrite Nat.add_0_r; exact M2|]. rewrite D10. split; [reflexivity|lia]. }
    destruct X as (T1 & X1 & X2 & X4 & X5).
    assert (We : written_in ltb k (EWrite k e) = [e]) by (cbn; rewrite (equivb_refl ltb O); reflexivity).
    pose proof (block_ok HT LT e header ht lt (length c1) Ht Hlt) as Bo. rewrite Bl in Bo.
    exists done, [e]. rewrite We. split; [exists []; reflexivity|]. split; [exists [], [], done; split; [constructor|]; split; [reflexivity|]; right; exists e, (done ++ rest); split; [reflexivity|]; split; [exact Bo|exists rest; reflexivity]|].
    split; [intros Fi; rewrite (Rt Fi), app_nil_r in Bo; apply blocks_one, Bo|].
    rewrite (pending_here peqb path Peq _ _ _ E1). split; [lia|].
    assert (Y : all_text (path k) (logical u') (T1 ++ done)).
    { eapply (all_text_last (path k) D1); [exact X1|exact X4|rewrite E3, (bput_same peqb Peq); reflexivity|]. intros i Hi. rewrite E3. apply (put_zero peqb path Peq Sep k), Hi. }
    destruct X2 as [->|X2]; [left; exact Y|]. right. exists (T1 ++ done). split; [exact Y|]. rewrite (pending_here peqb path Peq _ _ _ E1), app_length. lia.
Qed.
Lemma summary_big ev u u' fin : old_big (logical u) -> big u -> summary k ev u u' fin -> big u'.
Proof.
  intros A (T & B1 & B2) Su. destruct (summary_text _ _ _ _ _ A B1 Su) as (Wd & es & _ & _ & _ & X & [Y|Y]); [|exact Y].
  exists (T ++ Wd). split; [exact Y|]. rewrite app_length. lia.
Qed.
(** what is on the disk *)
Lemma disk_text u T : (forall p w, stream u = Some (p, w) -> on_disk u p <> None /\ exists k, p = path k 0) -> all_text (path k) (logical u) T ->
  exists T', all_text (path k) (on_disk u) T' /\ T' = firstn (length T - pending k u) T /\ pending k u <= length T.
Proof.
  intros E A1.
  destruct (stream u) as [[p w]|] eqn:Es.
  2:{ exists T. rewrite (pending_none peqb path k u Es), Nat.sub_0_r, firstn_all. split; [|split; [reflexivity|lia]]. eapply all_text_ext; [|exact A1]. intros i. unfold CrashProofs.logical. rewrite Es. reflexivity. }
  destruct (E p w eq_refl) as (Ex & k' & ->). destruct (key_dec ltb O k k') as [<-|N].
  2:{ exists T. rewrite (pending_there peqb path Peq Sep k k' u w N Es), Nat.sub_0_r, firstn_all. split; [|split; [reflexivity|lia]]. eapply all_text_ext; [|exact A1].
      intros i. symmetry. apply (logical_off peqb Peq _ _ _ _ Es). apply (differ path Sep), N. }
  destruct (on_disk u (path k 0)) as [c|] eqn:Ec; [|congruence].
  assert (Lc : logical u (path k 0) = Some (c ++ w)) by (rewrite (logical_at peqb Peq _ _ _ Es), Ec; reflexivity).
  assert (Lo : forall i, 0 < i -> on_disk u (path k i) = logical u (path k i)).
  { intros i Hi. symmetry. apply (logical_off peqb Peq _ _ _ _ Es). intros X. apply Inj in X. lia. }
  destruct (all_text_first (path k) _ _ _ A1 Lc) as (T' & -> & X). specialize (X (on_disk u) c Ec Lo).
  rewrite (pending_here peqb path Peq _ _ _ Es). exists (T' ++ c). split; [exact X|]. split; [|rewrite !app_length; lia].
  replace (length (T' ++ c ++ w) - length w) with (length (T' ++ c)) by (rewrite !app_length; lia). rewrite app_assoc, firstn_app, Nat.sub_diag, firstn_all. cbn. rewrite app_nil_r. reflexivity.
Qed.
Lemma old_disk u : (forall p w, stream u = Some (p, w) -> on_disk u p <> None /\ exists k, p = path k 0) -> old_big (logical u) -> old_big (on_disk u).
Proof.
  intros E A i c Hi X. apply (A i c Hi). rewrite <- X. destruct (stream u) as [[p w]|] eqn:Es; [|unfold CrashProofs.logical; rewrite Es; reflexivity].
  destruct (E p w eq_refl) as (_ & k' & ->). apply (logical_off peqb Peq _ _ _ _ Es). intros Y. apply Sep in Y. lia.
Qed.
Section Run.
Variables (lvl : BinNums.Z) (max fl : nat) (clock : BinNums.Z) (d0 : bdisk).
Hypothesis Old0 : old_big d0.
Lemma csystem_old tr s u : csystem (initial lvl max fl clock) d0 tr s u -> old_big (logical u).
Proof.
  intros S. induction S as [|tr s u e s' u' o p S IH St Ep Ru]; [exact Old0|].
  pose proof (csystem_held peqb path ltb Peq O Sep L R H HT LT _ _ _ _ _ _ _ _ S) as He.
  destruct (event_reach peqb path ltb Peq O Sep L R H HT LT s e u o p u' (End o) He (held_needs _ _ _ _ _ _ He St) Ep Ru (or_intror eq_refl)) as [Su _].
  apply (summary_old _ _ _ _ IH (Su k true (fun _ => eq_refl))).
Qed.
Lemma csystem_big tr s u : csystem (initial lvl max fl clock) d0 tr s u -> big (St d0 None) -> big u.
Proof.
  intros S B. induction S as [|tr s u e s' u' o p S IH St Ep Ru]; [exact B|].
  pose proof (csystem_held peqb path ltb Peq O Sep L R H HT LT _ _ _ _ _ _ _ _ S) as He.
  destruct (event_reach peqb path ltb Peq O Sep L R H HT LT s e u o p u' (End o) He (held_needs _ _ _ _ _ _ He St) Ep Ru (or_intror eq_refl)) as [Su _].
  apply (summary_big _ _ _ _ (csystem_old _ _ _ S) IH (Su k true (fun _ => eq_refl))).
Qed.
Lemma csystem_kept T0 tr s u : csystem (initial lvl max fl clock) d0 tr s u -> all_text (path k) d0 T0 ->
  forall tr1 tr2, tr = tr1 ++ tr2 -> after_closing tr1 ->
  big u \/ exists W1 W2, blocks HT LT (written_to ltb k tr1) W1 /\ blocks HT LT (written_to ltb k tr2) W2 /\
    all_text (path k) (logical u) (T0 ++ W1 ++ W2) /\ pending k u <= length W2.
Proof.
  intros S A0. induction S as [|tr s u e s' u' o p S IH St Ep Ru]; intros tr1 tr2 Etr Cl.
  - symmetry in Etr. apply app_eq_nil in Etr. destruct Etr as [-> ->]. right. exists [], []. split; [constructor|]. split; [constructor|]. cbn. rewrite app_nil_r. split; [exact A0|lia].
  - pose proof (csystem_held peqb path ltb Peq O Sep L R H HT LT _ _ _ _ _ _ _ _ S) as He. pose proof (csystem_old _ _ _ S) as Od.
    destruct (event_reach peqb path ltb Peq O Sep L R H HT LT s e u o p u' (End o) He (held_needs _ _ _ _ _ _ He St) Ep Ru (or_intror eq_refl)) as [Su Po]. specialize (Po eq_refl).
    specialize (Su k true (fun _ => eq_refl)).
    destruct tr2 as [|x tr2 _] using rev_ind.
    + rewrite app_nil_r in Etr. subst tr1. destruct (IH [] tr eq_refl (or_introl eq_refl)) as [B|(W1 & W2 & I1 & I2 & I3 & I4)]; [left; eapply summary_big; eauto|].
      destruct (summary_text _ _ _ _ _ Od I3 Su) as (Wd & es & _ & _ & X & _ & [Y|Y]); [|left; exact Y]. specialize (X eq_refl).
      inversion I1; subst W1. cbn [app] in *. right. exists (W2 ++ Wd), []. split; [rewrite written_snoc; apply blocks_app; auto|]. split; [constructor|].
      rewrite app_nil_r. split; [rewrite app_assoc; exact Y|].
      destruct Cl as [Cl|(tr' & ev & Cl & Cg)]; [destruct tr; discriminate|]. apply app_inj_tail in Cl. destruct Cl as [_ <-].
      rewrite (pending_none peqb path k u' (closing_stream path _ _ _ Po Cg)). lia.
    + rewrite app_assoc in Etr. apply app_inj_tail in Etr. destruct Etr as [-> <-].
      destruct (IH tr1 tr2 eq_refl Cl) as [B|(W1 & W2 & I1 & I2 & I3 & I4)]; [left; eapply summary_big; eauto|].
      destruct (summary_text _ _ _ _ _ Od I3 Su) as (Wd & es & _ & _ & X & Pe & [Y|Y]); [|left; exact Y]. specialize (X eq_refl).
      right. exists W1, (W2 ++ Wd). split; [exact I1|]. split; [rewrite written_snoc; apply blocks_app; auto|]. rewrite <- !app_assoc in Y. split; [exact Y|]. rewrite app_length. lia.
Qed.
Lemma crash_kept T0 tr s ev d : crashed (initial lvl max fl clock) d0 tr s ev d -> all_text (path k) d0 T0 ->
  forall tr1 tr2, tr = tr1 ++ tr2 -> after_closing tr1 ->
  old_big d /\
  ((exists T, all_text (path k) d T /\ n * r <= length T) \/
   (~ n * r <= length T0 /\ exists W1 w2 es, blocks HT LT (written_to ltb k tr1) W1 /\ prefix es (written_to ltb k (tr2 ++ [ev])) /\ torn HT LT es w2 /\ all_text (path k) d (T0 ++ W1 ++ w2))).
Proof.
  intros [u s' p u' p' S St Ep Ru ->] A0 tr1 tr2 Etr Cl.
  pose proof (csystem_held peqb path ltb Peq O Sep L R H HT LT _ _ _ _ _ _ _ _ S) as He. pose proof (csystem_old _ _ _ S) as Od.
  destruct (event_reach peqb path ltb Peq O Sep L R H HT LT s ev u Done p u' p' He (held_needs _ _ _ _ _ _ He St) Ep Ru (or_introl eq_refl)) as [Su _].
  specialize (Su k false (fun X => ltac:(discriminate))).
  pose proof (event_streams peqb path Peq Sep L R H HT LT s ev u Done p u' p' He (held_needs _ _ _ _ _ _ He St) Ep Ru) as Es.
  split; [apply old_disk; [exact Es|eapply summary_old; eauto]|].
  assert (Bg : big u' -> exists T, all_text (path k) (on_disk u') T /\ n * r <= length T).
  { intros (T & B1 & B2). destruct (disk_text u' T Es B1) as (T' & D1 & -> & D3). eexists. split; [exact D1|]. rewrite firstn_length. lia. }
  destruct (le_dec (n * r) (length T0)) as [Le|Gt].
  { left. apply Bg. eapply summary_big; [exact Od| |exact Su]. eapply csystem_big; [exact S|]. exists T0. split; [exact A0|]. cbn. lia. }
  destruct (csystem_kept T0 _ _ _ S A0 tr1 tr2 Etr Cl) as [B|(W1 & W2 & I1 & I2 & I3 & I4)]; [left; apply Bg; eapply summary_big; eauto|].
  destruct (summary_text _ _ _ _ _ Od I3 Su) as (Wd & es & (re & Pe) & To & _ & Pn & [Y|Y]); [|left; apply Bg, Y]. right. split; [exact Gt|].
  destruct (disk_text u' _ Es Y) as (T' & D1 & -> & D3).
  pose proof (torn_app HT LT _ _ _ _ I2 To) as To2. set (j := length (W2 ++ Wd) - pending k u') in *.
  destruct (torn_firstn HT LT _ _ j To2) as (es' & (r' & P1) & P2).
  exists W1, (firstn j (W2 ++ Wd)), es'. split; [exact I1|]. split; [|split; [exact P2|]].
  - rewrite written_snoc, Pe, app_assoc, P1. eexists. rewrite <- app_assoc. reflexivity.
  - assert (Ej : firstn (length ((T0 ++ W1 ++ W2) ++ Wd) - pending k u') ((T0 ++ W1 ++ W2) ++ Wd) = T0 ++ W1 ++ firstn j (W2 ++ Wd)).
    { replace ((T0 ++ W1 ++ W2) ++ Wd) with ((T0 ++ W1) ++ (W2 ++ Wd)) by (rewrite <- !app_assoc; reflexivity). rewrite firstn_app. rewrite app_length.
      assert (pending k u' <= length (W2 ++ Wd)) by (rewrite app_length; lia).
      rewrite firstn_all2 by lia. rewrite <- app_assoc. do 3 f_equal. unfold j. lia. }
    rewrite Ej in D1. exact D1.
Qed.
End Run.
Lemma crash_retains_proof T0 lvl max fl clock d0 tr s ev d : crashed (initial lvl max fl clock) d0 tr s ev d -> all_text (path k) d0 T0 ->
  (forall i c, 0 < i -> d0 (path k i) = Some c -> r <= length c) ->
  exists T, all_text (path k) d T /\
  (n * r <= length T \/ exists kept es W w, accepted_for ltb k tr = kept ++ rev (buffer ltb k (lfiles s)) /\ blocks HT LT kept W /\
    prefix es (rev (buffer ltb k (lfiles s))) /\ torn HT LT es w /\ T = T0 ++ W ++ w).
Proof.
  intros Cr A0 Old0. pose proof Cr as [u s' p u' p' S St _ _ _]. pose proof (csystem_exec peqb path ltb L R H HT LT _ _ _ _ _ S) as E.
  destruct (erased_proof ltb O _ _ _ _ _ _ k E) as (tr1 & tr2 & Et & Cl & Ac).
  assert (Ac1 : after_closing tr1). { destruct Cl as [->|(tr' & m & ->)]; [left; reflexivity|right; exists tr', (EErase k m); split; [reflexivity|exact I]]. }
  destruct (crash_kept lvl max fl clock d0 Old0 T0 _ _ _ _ Cr A0 tr1 tr2 Et Ac1) as (_ & [(T & X1 & X2)|(_ & W1 & w2 & es & C2 & C3 & C4 & C5)]); [exists T; auto|].
  exists (T0 ++ W1 ++ w2). split; [exact C5|]. right. exists (written_to ltb k tr1), es, W1, w2. split; [exact Ac|]. split; [exact C2|]. split; [|auto].
  apply (app_prefix (written_to ltb k tr1)). rewrite <- Ac.
  assert (P1 : prefix (written_to ltb k tr1 ++ written_to ltb k (tr2 ++ [ev])) (accepted_for ltb k tr)).
  { assert (Pa : prefix (written_to ltb k tr) (accepted_for ltb k tr)) by (eapply prefix_proof; eauto).
    assert (Pb : prefix (written_to ltb k (tr ++ [ev])) (accepted_for ltb k (tr ++ [ev]))) by (eapply prefix_proof; [exact O|econstructor; [exact E|exact St]]).
    unfold written_to, accepted_for in *. rewrite <- flat_map_app, app_assoc, <- Et. rewrite !flat_map_snoc in *.
    destruct ev; cbn [written_in accepted_in] in *; rewrite ?app_nil_r in *; assumption. }
  destruct C3 as (q & C3). eapply prefix_trans; [|exact P1]. rewrite C3. exists q. rewrite app_assoc. reflexivity.
Qed.
Lemma lives_retain_proof T0 d0 log d : lives d0 log d -> all_text (path k) d0 T0 ->
  (forall i c, 0 < i -> d0 (path k i) = Some c -> r <= length c) ->
  exists T, all_text (path k) d T /\
  (n * r <= length T \/ exists ws, Forall2 (fun tr w => exists es, crash_text ltb HT LT k tr es w) log ws /\ T = T0 ++ concat ws).
Proof.
  intros Li A0 Old0. enough (X : old_big d /\ exists T, all_text (path k) d T /\
    (n * r <= length T \/ exists ws, Forall2 (fun tr w => exists es, crash_text ltb HT LT k tr es w) log ws /\ T = T0 ++ concat ws)) by apply X.
  induction Li as [|log d lvl max fl clock tr s e d' Li IH Cr].
  - split; [exact Old0|]. exists T0. split; [exact A0|]. right. exists []. split; [constructor|]. cbn. rewrite app_nil_r. reflexivity.
  - destruct IH as (Od & T & I1 & I2). destruct (last_closing tr) as (tr1 & tr2 & Et & Ac & Nc).
    destruct (crash_kept lvl max fl clock d Od T _ _ _ _ Cr I1 tr1 tr2 Et Ac) as (Od' & [(T' & X1 & X2)|(Nb & W1 & w2 & es & C2 & C3 & C4 & C5)]).
    + split; [exact Od'|]. exists T'. auto.
    + split; [exact Od'|]. exists (T ++ W1 ++ w2). split; [exact C5|]. right. destruct I2 as [I2|(ws & I2 & ->)]; [contradiction|].
      exists (ws ++ [W1 ++ w2]). split; [|rewrite concat_app; cbn; rewrite app_nil_r, <- !app_assoc; reflexivity].
      apply Forall2_app; [exact I2|]. constructor; [|constructor]. exists (written_to ltb k tr1 ++ es), tr1, tr2, e, es, W1, w2. subst tr. auto 10.
Qed.
End System.
