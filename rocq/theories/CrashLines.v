(** What single files contain after crashes, whatever the rotation settings: C143. *)
From Coq Require Import List Bool Arith Ascii Lia.
From Verif Require Import Base ListUpdate LoggerModel LoggerSpec LoggerProofs LogFileModel LogFileSpec CrashModel CrashSpec CrashProofs CrashSystem CrashMore.
Import ListNotations.

Section System.
Context {Q K M : Type} (peqb : Q -> Q -> bool) (path : K -> nat -> Q) (ltb : K -> K -> bool).
Hypothesis Peq : forall p q, peqb p q = true <-> p = q.
Hypothesis O : strict_total_order ltb.
Hypothesis Sep : separate path.
Variables (L R : nat -> Prop) (H : bool -> Prop) (HT : bytes -> Prop) (LT : entry K M -> bytes -> Prop).
Notation bdisk := (bdisk Q).
Notation st := (st Q).
Notation logger := (@logger K M).
Notation event := (@event K M).
Notation logical := (logical peqb).
Notation crashed := (crashed peqb path ltb L R H HT LT).
Notation csystem := (csystem peqb path ltb L R H HT LT).
Notation lives := (lives peqb path ltb L R H HT LT).
Notation summary := (summary peqb path ltb L R H HT LT).
Notation pending := (pending peqb path).
Implicit Types (s : logger) (u : st) (tr : list event) (d : bdisk).

Lemma infix_app {A} (x l r : list A) : infix x l -> infix x (l ++ r).
Proof. intros (a & b & ->). exists a, (b ++ r). rewrite <- !app_assoc. reflexivity. Qed.
Lemma infix_prefix {A} (x y l : list A) : prefix x y -> infix y l -> infix x l.
Proof. intros (r & ->) (a & b & ->). exists a, (r ++ b). rewrite <- !app_assoc. reflexivity. Qed.

Section File.
Variables (k : K) (d0 : bdisk).
Definition base_ok (b : bytes) : Prop := b = [] \/ exists j, d0 (path k j) = Some b.
Definition old (W : list (entry K M)) (c : bytes) : Prop := exists b es w, base_ok b /\ infix es W /\ blocks HT LT es w /\ c = b ++ w.
Definition new (W : list (entry K M)) (n : nat) (c : bytes) : Prop :=
  exists b pre es w, base_ok b /\ W = pre ++ es /\ blocks HT LT es w /\ c = b ++ w /\ n <= length w.
Definition placed W u : Prop :=
  (forall i c, logical u (path k i) = Some c -> old W c) /\ (forall c, logical u (path k 0) = Some c -> new W (pending k u) c).
(** at any time during an event *)
Definition shown W u : Prop := forall i c, logical u (path k i) = Some c ->
  exists b es w, base_ok b /\ infix es W /\ torn HT LT es w /\ c = b ++ w /\ (i = 0 -> pending k u <= length w).

Lemma new_old W n c : new W n c -> old W c.
Proof. intros (b & pre & es & w & A & -> & B & C & _). exists b, es, w. split; [exact A|]. split; [exists pre, []; rewrite app_nil_r; reflexivity|]. auto. Qed.
Lemma new_nil W : new W 0 [].
Proof. exists [], W, [], []. split; [left; reflexivity|]. rewrite app_nil_r. split; [reflexivity|]. split; [constructor|]. split; [reflexivity|apply le_n]. Qed.
Lemma new_less W n m c : m <= n -> new W n c -> new W m c.
Proof. intros Le (b & pre & es & w & A & B & C & D & E). exists b, pre, es, w. repeat (split; [assumption|]). lia. Qed.
Lemma old_app W W' c : old W c -> old (W ++ W') c.
Proof. intros (b & es & w & A & B & C). exists b, es, w. split; [exact A|]. split; [apply infix_app, B|exact C]. Qed.
Lemma placed_shown W W' u : placed W u -> shown (W ++ W') u.
Proof.
  intros [A B] i c X. destruct i as [|i].
  - destruct (B c X) as (b & pre & es & w & B1 & -> & B3 & B4 & B5). exists b, es, w. split; [exact B1|]. split; [apply infix_app; exists pre, []; rewrite app_nil_r; reflexivity|].
    split; [apply blocks_torn, B3|]. auto.
  - destruct (A _ _ X) as (b & es & w & B1 & B2 & B3 & B4). exists b, es, w. split; [exact B1|]. split; [apply infix_app, B2|]. split; [apply blocks_torn, B3|].
    split; [exact B4|discriminate].
Qed.
Lemma moves_zero limit d d' : moves peqb (path k) limit d d' -> d' (path k 0) = d (path k 0) \/ d' (path k 0) = None.
Proof.
  intros Mv. induction Mv as [d' E|d1 d' n Mv IH Li _ E|d1 d' n Mv IH Li Fr E]; rewrite E; [left; reflexivity|..];
    rewrite !(put_path peqb Peq (path k) (inj_at path Sep k)).
  - destruct (Nat.eqb 0 n); auto.
  - cbn. destruct n; auto.
Qed.
Lemma put_zero' x d i : put_at peqb (path k 0) x d (path k i) = if Nat.eqb i 0 then x else d (path k i).
Proof. apply (put_path peqb Peq (path k) (inj_at path Sep k)). Qed.

Lemma summary_shown ev u u' fin W : placed W u -> summary k ev u u' fin ->
  shown (W ++ written_in ltb k ev) u' /\ (fin = true -> placed (W ++ written_in ltb k ev) u').
Proof.
  intros [A B] Su.
  assert (Z : (fin = true -> written_in ltb k ev = []) -> placed W u' -> shown (W ++ written_in ltb k ev) u' /\ (fin = true -> placed (W ++ written_in ltb k ev) u')).
  { intros N P. split; [apply placed_shown, P|]. intros X. rewrite (N X), app_nil_r. exact P. }
  destruct Su as [(Pe & D & N)|[(limit & rsize & c0 & Hl & Hr & C0 & (R1 & R2 & D1 & R3 & R4) & N)|(e & limit & rsize & header & ht & lt & c0 & done & rest & -> & Hl & Hr & Hh & Ht & Hlt & C0 & Em & Rt)]].
  - apply (Z N). destruct D as [D|(Pz & D & E)].
    + split; [intros i c; rewrite D; apply A|]. intros c X. rewrite D in X. eapply new_less; [exact Pe|apply B, X].
    + split.
      * intros i c X. rewrite E, put_zero' in X. destruct (Nat.eqb i 0); [injection X as <-; eapply new_old, new_nil|apply (A i), X].
      * intros c X. rewrite E, put_zero' in X. cbn in X. injection X as <-. rewrite Pz. apply new_nil.
  - apply (Z N). assert (Lg : forall q, logical u' q = on_disk u' q) by (intros q; unfold CrashProofs.logical; rewrite R1; reflexivity).
    assert (G : forall i c, D1 (path k i) = Some c -> old W c).
    { intros i c X. destruct (moves_files peqb Peq (path k) (inj_at path Sep k) _ _ _ R3 i c X) as (j & Y). apply (A j), Y. }
    assert (Pz : pending k u' = 0) by (apply pending_none, R1).
    destruct R4 as [R4|(R4 & R5)].
    + split; [intros i c X; rewrite Lg, R4 in X; exact (G _ _ X)|]. intros c X. rewrite Lg, R4 in X. rewrite Pz.
      destruct (moves_zero _ _ _ R3) as [Y|Y]; [|congruence]. rewrite Y in X. eapply new_less; [apply Nat.le_0_l|apply B, X].
    + split.
      * intros i c X. rewrite Lg, R5, put_zero' in X. destruct (Nat.eqb i 0); [injection X as <-; eapply new_old, new_nil|exact (G _ _ X)].
      * intros c X. rewrite Lg, R5, put_zero' in X. cbn in X. injection X as <-. rewrite Pz. apply new_nil.
  - destruct Em as (D1 & c1 & n1 & w & Or & Bl & E1 & E2 & _ & E3).
    assert (We : written_in ltb k (EWrite k e) = [e]) by (cbn; rewrite (equivb_refl ltb O); reflexivity). rewrite We.
    assert (X : (forall i c, D1 (path k i) = Some c -> old W c) /\ new W n1 c1).
    { destruct Or as [(-> & -> & Sz & Eq)|(-> & -> & Rs & Mv & D10)].
      - split; [intros i c; rewrite Eq; apply A|]. apply B, C0.
      - split; [|apply new_nil]. intros i c X. destruct (moves_files peqb Peq (path k) (inj_at path Sep k) _ _ _ Mv i c X) as (j & Y). apply (A j), Y. }
    destruct X as (X1 & b & pre & es & v & V1 & V2 & V3 & V4 & V5).
    pose proof (block_ok HT LT e header ht lt (length c1) Ht Hlt) as Bo. rewrite Bl in Bo.
    assert (Pw : pending k u' <= length (v ++ done)) by (rewrite (pending_here peqb path Peq _ _ _ E1), app_length; lia).
    split.
    + intros i c X. rewrite E3, put_zero' in X. destruct (Nat.eqb_spec i 0) as [->|Ni].
      * injection X as <-. exists b, (es ++ [e]), (v ++ done). split; [exact V1|]. split; [exists pre, []; rewrite app_nil_r, V2, app_assoc; reflexivity|].
        split; [|split; [rewrite V4, app_assoc; reflexivity|intros _; exact Pw]]. apply torn_app; [exact V3|].
        exists [], [], done. split; [constructor|]. split; [reflexivity|]. right. exists e, (done ++ rest). split; [reflexivity|]. split; [exact Bo|exists rest; reflexivity].
      * destruct (X1 _ _ X) as (b' & es' & w' & U1 & U2 & U3 & U4). exists b', es', w'. split; [exact U1|]. split; [apply infix_app, U2|]. split; [apply blocks_torn, U3|].
        split; [exact U4|congruence].
    + intros Fi. rewrite (Rt Fi), app_nil_r in Bo.
      assert (Nw : new (W ++ [e]) (pending k u') (c1 ++ done)).
      { exists b, pre, (es ++ [e]), (v ++ done). split; [exact V1|]. split; [rewrite V2, app_assoc; reflexivity|].
        split; [apply blocks_app; [exact V3|apply blocks_one, Bo]|]. split; [rewrite V4, app_assoc; reflexivity|exact Pw]. }
      split.
      * intros i c X. rewrite E3, put_zero' in X. destruct (Nat.eqb i 0); [injection X as <-; eapply new_old, Nw|apply old_app, (X1 i), X].
      * intros c X. rewrite E3, put_zero' in X. cbn in X. injection X as <-. exact Nw.
Qed.
Lemma csystem_placed lvl max fl clock tr s u : csystem (initial lvl max fl clock) d0 tr s u -> placed (written_to ltb k tr) u.
Proof.
  intros S. induction S as [|tr s u e s' u' o p S IH St Ep Ru].
  - assert (G : forall i c, logical (CrashModel.St d0 None) (path k i) = Some c -> new [] 0 c).
    { intros i c X. exists c, [], [], []. split; [right; exists i; exact X|]. split; [reflexivity|]. split; [constructor|]. rewrite app_nil_r. split; [reflexivity|apply le_n]. }
    split; [intros i c X; eapply new_old, G, X|intros c X; exact (G _ _ X)].
  - pose proof (csystem_held peqb path ltb Peq O Sep L R H HT LT _ _ _ _ _ _ _ _ S) as He.
    destruct (event_reach peqb path ltb Peq O Sep L R H HT LT s e u o p u' (End o) He (held_needs _ _ _ _ _ _ He St) Ep Ru (or_intror eq_refl)) as [Su _].
    rewrite written_snoc. apply (summary_shown _ _ _ _ _ IH (Su k true (fun _ => eq_refl))). reflexivity.
Qed.
Lemma crash_shown lvl max fl clock tr s e d : crashed (initial lvl max fl clock) d0 tr s e d ->
  forall i c, d (path k i) = Some c -> exists b es w, base_ok b /\ part_text ltb HT LT k (tr ++ [e]) es w /\ c = b ++ w.
Proof.
  intros [u s' p u' p' S St Ep Ru ->] i c X. pose proof (csystem_placed _ _ _ _ _ _ _ S) as A.
  pose proof (csystem_held peqb path ltb Peq O Sep L R H HT LT _ _ _ _ _ _ _ _ S) as He.
  destruct (event_reach peqb path ltb Peq O Sep L R H HT LT s e u Done p u' p' He (held_needs _ _ _ _ _ _ He St) Ep Ru (or_introl eq_refl)) as [Su _].
  destruct (summary_shown _ _ _ _ _ A (Su k false (fun X => ltac:(discriminate)))) as (F & _). rewrite <- written_snoc in F.
  pose proof (event_streams peqb path Peq Sep L R H HT LT s e u Done p u' p' He (held_needs _ _ _ _ _ _ He St) Ep Ru) as E.
  assert (Z : logical u' (path k i) = Some c -> exists b es w, base_ok b /\ part_text ltb HT LT k (tr ++ [e]) es w /\ c = b ++ w).
  { intros Y. destruct (F _ _ Y) as (b & es & w & B1 & B2 & B3 & B4 & _). exists b, es, w. split; [exact B1|]. split; [split; assumption|exact B4]. }
  destruct (stream u') as [[q v]|] eqn:Es; [|apply Z; unfold CrashProofs.logical; rewrite Es; exact X].
  destruct (p_dec peqb Peq (path k i) q) as [<-|N]; [|apply Z; rewrite (logical_off peqb Peq _ _ _ _ Es N); exact X].
  destruct (E _ _ eq_refl) as (_ & k' & Ek). assert (Ei : k = k' /\ i = 0).
  { destruct (key_dec ltb O k k') as [<-|N]; [split; [reflexivity|apply (inj_at path Sep k), Ek]|]. destruct (differ path Sep k k' i N 0 Ek). }
  destruct Ei as [<- ->]. assert (Y : logical u' (path k 0) = Some (c ++ v)) by (rewrite (logical_at peqb Peq _ _ _ Es), X; reflexivity).
  destruct (F _ _ Y) as (b & es & w & B1 & B2 & B3 & B4 & B5). specialize (B5 eq_refl). rewrite (pending_here peqb path Peq _ _ _ Es) in B5.
  destruct (torn_firstn HT LT es w (length w - length v) B3) as (es' & P1 & P2).
  exists b, es', (firstn (length w - length v) w). split; [exact B1|]. split; [split; [eapply infix_prefix; eassumption|exact P2]|].
  assert (Ll : length c = length b + (length w - length v)) by (apply f_equal with (f := @length ascii) in B4; rewrite !app_length in B4; lia).
  apply f_equal with (f := firstn (length c)) in B4. rewrite firstn_app, firstn_all, Nat.sub_diag, app_nil_r in B4 at 1.
  rewrite B4, Ll, firstn_app_2. reflexivity.
Qed.
End File.

(** ** several processes *)
Lemma lives_shown k d0 log d : lives d0 log d -> forall i c, d (path k i) = Some c ->
  exists b ess ws, (b = [] \/ exists j, d0 (path k j) = Some b) /\ length ess = length log /\
  Forall2 (fun tr x => part_text ltb HT LT k tr (fst x) (snd x)) log (combine ess ws) /\ Forall2 (torn HT LT) ess ws /\ c = b ++ concat ws.
Proof.
  intros Li. induction Li as [|log d lvl max fl clock tr s e d' Li IH Cr]; intros i c X.
  - exists c, [], []. split; [right; exists i; exact X|]. cbn. rewrite app_nil_r. auto.
  - destruct (crash_shown k d _ _ _ _ _ _ _ _ Cr i c X) as (b & es & w & B & P & ->).
    assert (Y : exists b0 ess ws, (b0 = [] \/ exists j, d0 (path k j) = Some b0) /\ length ess = length log /\
      Forall2 (fun tr x => part_text ltb HT LT k tr (fst x) (snd x)) log (combine ess ws) /\ Forall2 (torn HT LT) ess ws /\ b = b0 ++ concat ws).
    { destruct B as [->|(j & B)]; [|exact (IH j b B)].
      exists [], (map (fun _ => []) log), (map (fun _ => []) log). split; [left; reflexivity|]. split; [apply map_length|]. clear.
      induction log as [|tr log (I1 & I2 & I3)]; cbn; [auto|]. split; [constructor; [|exact I1]|split; [constructor; [|exact I2]|exact I3]].
      - split; [exists [], (written_to ltb k tr); reflexivity|apply torn_nil].
      - apply torn_nil. }
    destruct Y as (b0 & ess & ws & Y1 & Y2 & Y3 & Y4 & ->).
    exists b0, (ess ++ [es]), (ws ++ [w]). split; [exact Y1|]. split; [rewrite !app_length, Y2; reflexivity|].
    split; [|split; [apply Forall2_app; [exact Y4|constructor; [apply P|constructor]]|rewrite concat_app; cbn; rewrite app_nil_r, app_assoc; reflexivity]].
    replace (combine (ess ++ [es]) (ws ++ [w])) with (combine ess ws ++ [(es, w)]).
    + apply Forall2_app; [exact Y3|]. constructor; [exact P|constructor].
    + clear -Y4. induction Y4; cbn; [reflexivity|]. rewrite IHY4. reflexivity.
Qed.
Lemma file_lines_proof k d0 log d : lives d0 log d -> forall i c, d (path k i) = Some c ->
  exists b ess ws, (b = [] \/ exists j, d0 (path k j) = Some b) /\ length ess = length log /\
  Forall2 (fun tr x => part_text ltb HT LT k tr (fst x) (snd x)) log (combine ess ws) /\ c = b ++ concat ws /\
  forall es e, In es ess -> In e (inner es) -> exists lt, LT e lt /\ line_in lt c.
Proof.
  intros Li i c X. destruct (lives_shown k _ _ _ Li i c X) as (b & ess & ws & A & B & C & D & ->).
  exists b, ess, ws. split; [exact A|]. split; [exact B|]. split; [exact C|]. split; [reflexivity|]. clear -D. intros es e I1 I2. revert b.
  induction D as [|es' w ess ws To D IH]; [destruct I1|]. intros b. cbn [concat]. destruct I1 as [->|I1].
  - eapply torn_lines; eassumption.
  - rewrite app_assoc. apply IH, I1.
Qed.
End System.
