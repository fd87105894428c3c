(** The buffered stream and single operations of CrashModel.v against LogFileModel.v: as long as the process is not
    killed, the files will contain what LogFileModel.v says. *)
From Coq Require Import List Bool Arith Ascii String Lia.
From Verif Require Import Base LoggerModel LoggerSpec LoggerProofs LogFileModel LogFileSpec LogFileProofs CrashModel CrashSpec CrashProofs CrashSystem.
Import ListNotations.
Local Open Scope list_scope.

Section Entry.
Context {P E : Type} (peqb : P -> P -> bool).
Hypothesis Peq : forall p q, peqb p q = true <-> p = q.
Notation triple := (triple peqb).
Notation logical := (logical peqb).
Notation disk := (@disk P E).
Variable path : nat -> P.
Implicit Types (u : st P) (d : disk).
Lemma bytes_app a b : list_ascii_of_string (a ++ b)%string = list_ascii_of_string a ++ list_ascii_of_string b.
Proof. induction a; cbn; congruence. Qed.
Lemma bytes_length a : List.length (list_ascii_of_string a) = String.length a.
Proof. induction a; cbn; congruence. Qed.
Lemma text_app (a b : list (chunk E)) : bytes_of (a ++ b) = bytes_of a ++ bytes_of b.
Proof.
  unfold bytes_of. induction a as [|x a IH]; [reflexivity|].
  destruct x; cbn [app]; unfold text_of in *; cbn [fold_right]; rewrite ?bytes_app, IH, <- ?app_assoc; reflexivity.
Qed.
Lemma text_length (c : list (chunk E)) : List.length (bytes_of c) = size c.
Proof. unfold bytes_of. rewrite bytes_length, size_text. reflexivity. Qed.
Definition shown d (p : P) : option bytes := option_map bytes_of (d p).
Definition shut_at d u : Prop := stream u = None /\ forall q, on_disk u q = shown d q.
Definition open_at p d u : Prop := (exists w, stream u = Some (p, w)) /\ on_disk u p <> None /\ forall q, logical u q = shown d q.
Lemma shut_at_stable d : stable peqb (shut_at d).
Proof. intros n u (A & B). rewrite flush_none by exact A. split; assumption. Qed.
Lemma open_at_stable p d : stable peqb (open_at p d).
Proof.
  intros n u ((w & A) & B & C). split; [|split].
  - rewrite flush_stream, A. eauto.
  - apply flush_exists; auto.
  - intros q. rewrite (flush_logical peqb Peq). apply C.
Qed.
Lemma shown_set p c d q : shown (set_file peqb p c d) q = if peqb q p then option_map bytes_of c else shown d q.
Proof. unfold shown, set_file. destruct (peqb q p); reflexivity. Qed.
Lemma shut_closed p d u : open_at p d u -> shut_at d (closed peqb u).
Proof. intros (_ & _ & C). split; [apply closed_stream|]. intros q. rewrite logical_closed. apply C. Qed.
Lemma shut_removed p d u : shut_at d u -> shut_at (remove_file peqb p d) (removed peqb p u).
Proof. intros (A & B). split; [exact A|]. intros q. unfold remove_file. rewrite shown_set. cbn. unfold put_at. destruct (peqb q p); auto. Qed.
Lemma shut_renamed p q d u : shut_at d u -> shut_at (rename_file peqb p q d) (renamed peqb p q u).
Proof.
  intros (A & B). split; [exact A|]. intros q'. unfold rename_file, remove_file. rewrite !shown_set. cbn. unfold put_at.
  destruct (peqb q' q); [apply B|]. destruct (peqb q' p); auto.
Qed.
Lemma create_open p d (b : bdisk P) : (forall q, b q = shown d q) -> forall q, create peqb p b q = shown (open_file peqb p d) q.
Proof.
  intros B q. unfold create, open_file. rewrite B. unfold shown at 1. destruct (d p) eqn:E0; cbn; [apply B|].
  rewrite shown_set. unfold put_at. destruct (peqb q p); [reflexivity|apply B].
Qed.
Lemma shut_created p d u : shut_at d u -> shut_at (open_file peqb p d) (St (create peqb p (on_disk u)) (stream u)).
Proof. intros (A & B). split; [exact A|]. cbn. apply create_open, B. Qed.
Lemma shut_opened p d u : shut_at d u -> open_at p (open_file peqb p d) (opened_at peqb p u).
Proof.
  intros (A & B). pose proof (create_open p d _ B) as C. split; [eexists; reflexivity|]. cbn. split.
  - destruct (create_spec peqb Peq p (on_disk u)) as (X & _). rewrite X. discriminate.
  - intros q. unfold CrashProofs.logical. cbn. rewrite <- C. unfold put_at. destruct (peqb q p) eqn:Eq; [|reflexivity]. apply Peq in Eq. subst q.
    destruct (create peqb p (on_disk u) p); [rewrite app_nil_r|]; reflexivity.
Qed.
(** the stream's position is the size of the file *)
Lemma open_tell p d u : open_at p d u -> tell u = size_at p d /\ d p <> None.
Proof.
  intros ((w & A) & B & C). specialize (C p). rewrite (logical_at peqb Peq _ _ _ A) in C. unfold tell, size_at, shown in *. rewrite A.
  destruct (on_disk u p) as [c|]; [|congruence]. destruct (d p) as [x|]; [|discriminate]. cbn in C. injection C as C. split; [|discriminate].
  rewrite <- text_length, <- C, app_length. reflexivity.
Qed.

(** ** scanning *)
Notation Top := (fun _ : st P => True).
Section Rotate.
Variable limit : nat.
Notation scan ok := (scan peqb path ok limit).
Notation shift ok := (shift peqb path ok).
Definition upto (c c' : nat) (ok : nat -> bool) : Prop := forall j, c <= j < c' -> ok j = true.
Lemma triple_scan fuel : forall i num c d K (Qp : outcome -> st P -> Prop),
  (forall num' c' d', c <= c' -> (forall ok, upto c c' ok -> scan ok fuel i num c d = (Done, num', c', d')) -> triple Top (shut_at d') (K num') Qp) ->
  (forall cf d', c <= cf -> (forall ok, upto c cf ok -> ok cf = false -> exists num' c', scan ok fuel i num c d = (Threw, num', c', d')) -> forall u, shut_at d' u -> Qp Threw u) ->
  (forall u, Qp NoFuel u) -> triple Top (shut_at d) (scan_p path limit fuel i num K) Qp.
Proof.
  induction fuel as [|fuel IH]; intros i num c d K Qp Hd Ht Hn; cbn [scan_p].
  - apply triple_end; auto. apply shut_at_stable.
  - apply triple_exists with (F := shut_at d); auto; [apply shut_at_stable| |].
    + intros u (A & B). exists (shut_at d). split; [split; auto|]. rewrite B. unfold shown. destruct (d (path i)) as [x|] eqn:Ei; cbn [option_map].
      * destruct (i <? limit) eqn:Li.
        -- apply (IH (S i) (S num) (S c) d K Qp); auto.
           ++ intros num' c' d' Lc X. apply Hd with (c' := c'); [lia|]. intros ok U. cbn [LogFileModel.scan]. rewrite (U c), Ei, Li by lia. apply X. intros j Hj. apply U. lia.
           ++ intros cf d' Lc X. apply Ht with (cf := cf); [lia|]. intros ok U F. cbn [LogFileModel.scan]. rewrite (U c), Ei, Li by lia. apply X; auto. intros j Hj. apply U. lia.
        -- eapply triple_remove with (A' := shut_at (remove_file peqb (path i) d)) (F := shut_at d); auto; [apply shut_at_stable|intros u'; apply shut_removed| |].
           ++ apply (IH (S i) num (S (S c)) _ K Qp); auto.
              ** intros num' c' d' Lc X. apply Hd with (c' := c'); [lia|]. intros ok U. cbn [LogFileModel.scan]. rewrite (U c), Ei, Li, (U (S c)) by lia. apply X. intros j Hj. apply U. lia.
              ** intros cf d' Lc X. apply Ht with (cf := cf); [lia|]. intros ok U F. cbn [LogFileModel.scan]. rewrite (U c), Ei, Li, (U (S c)) by lia. apply X; auto. intros j Hj. apply U. lia.
           ++ apply triple_end; auto; [apply shut_at_stable|]. intros u'. apply Ht with (cf := S c); [lia|]. intros ok U F. cbn [LogFileModel.scan].
              rewrite (U c), Ei, Li, F by lia. eauto.
      * apply Hd with (c' := S c); [lia|]. intros ok U. cbn [LogFileModel.scan]. rewrite (U c), Ei by lia. reflexivity.
    + apply triple_end; auto; [apply shut_at_stable|]. intros u'. apply Ht with (cf := c); [lia|]. intros ok U F. cbn [LogFileModel.scan]. rewrite F. eauto.
Qed.
Lemma triple_shift i : forall c d K (Qp : outcome -> st P -> Prop),
  (forall c' d', c <= c' -> (forall ok, upto c c' ok -> shift ok i c d = (Done, c', d')) -> triple Top (shut_at d') K Qp) ->
  (forall cf d', c <= cf -> (forall ok, upto c cf ok -> ok cf = false -> exists c', shift ok i c d = (Threw, c', d')) -> forall u, shut_at d' u -> Qp Threw u) ->
  triple Top (shut_at d) (shift_p path i K) Qp.
Proof.
  induction i as [|i IH]; intros c d K Qp Hd Ht; cbn [shift_p].
  - apply (Hd c d); [lia|]. reflexivity.
  - destruct (d (path i)) as [x|] eqn:Ei.
    + eapply triple_rename with (A' := shut_at (rename_file peqb (path i) (path (S i)) d)) (F := shut_at d); auto; [apply shut_at_stable|intros u'; apply shut_renamed| |].
      * apply (IH (S c)); auto.
        -- intros c' d' Lc X. apply Hd with (c' := c'); [lia|]. intros ok U. cbn [LogFileModel.shift]. rewrite Ei, (U c) by lia. apply X. intros j Hj. apply U. lia.
        -- intros cf d' Lc X. apply Ht with (cf := cf); [lia|]. intros ok U F. cbn [LogFileModel.shift]. rewrite Ei, (U c) by lia. apply X; auto. intros j Hj. apply U. lia.
      * apply triple_end; auto; [apply shut_at_stable|]. intros u'. apply Ht with (cf := c); [lia|]. intros ok U F. cbn [LogFileModel.shift]. rewrite Ei, F. eauto.
    + (* the file is missing: rename fails *)
      apply triple_step; auto; [apply shut_at_stable|discriminate|]. intros u u1 p1 (A & B) S1. inversion S1; subst; [left; eexists; split; reflexivity| |].
      * exfalso. match goal with X : on_disk u (path i) <> None |- _ => apply X end. rewrite B. unfold shown. rewrite Ei. reflexivity.
      * right. exists (shut_at d). split; [split; auto|]. apply triple_end; auto; [apply shut_at_stable|]. intros u'. apply Ht with (cf := c); [lia|].
        intros ok U F. cbn [LogFileModel.shift]. rewrite Ei. eauto.
Qed.
End Rotate.

(** ** writing *)
Definition writing_at p d (w : bytes) u : Prop :=
  (exists v, stream u = Some (p, v)) /\ on_disk u p <> None /\ (forall q, q <> p -> logical u q = shown d q) /\
  exists c, d p = Some c /\ logical u p = Some (bytes_of c ++ w).
Lemma writing_stable p d w : stable peqb (writing_at p d w).
Proof.
  intros n u ((v & A) & B & C & c & D1 & D2). split; [rewrite flush_stream, A; eauto|]. split; [apply flush_exists; auto|].
  split; [intros q N; rewrite (flush_logical peqb Peq); apply C, N|]. exists c. rewrite (flush_logical peqb Peq). auto.
Qed.
Lemma open_writing p d u : open_at p d u -> writing_at p d [] u.
Proof.
  intros X. pose proof (proj2 (open_tell _ _ _ X)) as N. destruct X as (A & B & C). split; [exact A|]. split; [exact B|]. split; [intros q _; apply C|].
  rewrite C. unfold shown. destruct (d p) as [c|]; [|congruence]. exists c. rewrite app_nil_r. auto.
Qed.
Lemma triple_puts p l : forall d w (Qp : outcome -> st P -> Prop), (forall u, writing_at p d (w ++ l) u -> Qp Done u) -> triple Top (writing_at p d w) (puts l (End Done)) Qp.
Proof.
  induction l as [|b l IH]; intros d w Qp Hq; cbn [puts].
  - apply triple_end; auto; [apply writing_stable|]. intros u X. apply Hq. rewrite app_nil_r. exact X.
  - apply triple_put with (A' := writing_at p d (w ++ [b])); auto; [apply writing_stable| |].
    + intros u ((v & A) & B & C & c & D1 & D2). clear IH Hq. unfold put. rewrite A. unfold writing_at. cbn [stream on_disk].
      split; [eauto|]. split; [exact B|]. split; [intros q N; rewrite <- (C q N); unfold CrashProofs.logical; rewrite A; cbn [stream on_disk]; rewrite !(bput_other peqb Peq) by exact N; reflexivity|].
      exists c. split; [exact D1|]. unfold CrashProofs.logical in *. rewrite A in D2. cbn [stream on_disk]. rewrite (bput_same peqb Peq) in *. destruct (on_disk u p) as [x|]; [|congruence]. injection D2 as D2. f_equal.
      rewrite app_assoc, D2, <- app_assoc. reflexivity.
    + apply IH. intros u X. apply Hq. rewrite <- app_assoc in X. exact X.
Qed.
Lemma shown_append p x d : d p <> None -> forall q, shown (append peqb p x d) q = if peqb q p then option_map (fun c => c ++ bytes_of x) (shown d q) else shown d q.
Proof.
  intros N q. unfold append. rewrite shown_set. destruct (peqb q p) eqn:Eq; [|reflexivity]. apply Peq in Eq. subst q.
  unfold shown. destruct (d p); [|congruence]. cbn. rewrite text_app. reflexivity.
Qed.
Lemma emit_shown (e : E) header ht lt d u : writing_at (path 0) d (block header (list_ascii_of_string ht) (list_ascii_of_string lt) (size_at (path 0) d)) u ->
  open_at (path 0) (emit peqb path header ht lt e d) u.
Proof.
  intros (A & B & C & c & D1 & D2). split; [exact A|]. split; [exact B|]. intros q. unfold emit, block in *.
  unfold size_at in *. rewrite D1 in D2 |- *. assert (N : d (path 0) <> None) by congruence.
  destruct (header && (size c =? 0)) eqn:Hd.
  - rewrite shown_append by (unfold append, set_file; rewrite (proj2 (Peq _ _) eq_refl), D1; discriminate). rewrite shown_append by exact N.
    destruct (peqb q (path 0)) eqn:Eq; [apply Peq in Eq; subst q|].
    + rewrite D2. unfold shown. rewrite D1. cbn [option_map]. unfold bytes_of at 3 4. cbn [text_of fold_right]. rewrite !bytes_app. cbn [list_ascii_of_string newline].
      rewrite <- !app_assoc. reflexivity.
    + apply C. intros ->. rewrite (proj2 (Peq _ _) eq_refl) in Eq. discriminate.
  - rewrite shown_append by exact N. destruct (peqb q (path 0)) eqn:Eq; [apply Peq in Eq; subst q|].
    + rewrite D2. unfold shown. rewrite D1. cbn [option_map]. unfold bytes_of at 3. cbn [text_of fold_right]. rewrite !bytes_app. cbn [list_ascii_of_string newline].
      reflexivity.
    + apply C. intros ->. rewrite (proj2 (Peq _ _) eq_refl) in Eq. discriminate.
Qed.
Lemma triple_block (e : E) header ht lt d (Qp : outcome -> st P -> Prop) : (forall u, open_at (path 0) (emit peqb path header ht lt e d) u -> Qp Done u) ->
  triple Top (open_at (path 0) d) (puts (block header (list_ascii_of_string ht) (list_ascii_of_string lt) (size_at (path 0) d)) (End Done)) Qp.
Proof.
  intros Hq. apply triple_weak with (A' := writing_at (path 0) d []); [intros u; apply open_writing|]. apply triple_puts. intros u X. apply Hq, emit_shown, X.
Qed.
(** what an entry's program does at its end *)
Definition refined fuel limit rsize header ht lt (e : E) d (o : outcome) u : Prop :=
  o = NoFuel \/ exists ok d', write_entry peqb path ok fuel limit rsize header ht lt e d = (o, d') /\
  ((o = Done /\ open_at (path 0) d' u) \/ (o = Threw /\ exists created : bool, shut_at (if created then open_file peqb (path 0) d' else d') u)).
Lemma triple_refined fuel limit rsize header ht lt (e : E) d :
  triple Top (open_at (path 0) d) (entry_p path fuel limit rsize header (list_ascii_of_string ht) (list_ascii_of_string lt)) (refined fuel limit rsize header ht lt e d).
Proof.
  unfold entry_p. apply triple_tell; auto; [apply open_at_stable|]. intros u X. exists (open_at (path 0) d). split; [exact X|].
  rewrite (proj1 (open_tell _ _ _ X)). destruct (negb (rsize =? 0) && (rsize <=? size_at (path 0) d)) eqn:Ro.
  - apply triple_close with (A' := shut_at d); auto; [apply open_at_stable|intros u' Y; eapply shut_closed, Y|].
    apply (triple_scan limit fuel 0 0 0); [| |left; reflexivity].
    + intros num c d1 _ Sc. apply (triple_shift num c d1).
      * intros c' d2 Lc Sh. apply triple_open with (A' := open_at (path 0) (open_file peqb (path 0) d2)) (F := fun u => exists created : bool, shut_at (if created then open_file peqb (path 0) d2 else d2) u); auto.
        -- apply shut_at_stable.
        -- intros u'. apply shut_opened.
        -- apply triple_tell; auto; [apply open_at_stable|]. intros u' Y. eexists. split; [exact Y|]. rewrite (proj1 (open_tell _ _ _ Y)).
           apply triple_block with (e := e). intros u'' Z. right. exists (fun _ => true). eexists. split; [|left; split; [reflexivity|exact Z]].
           unfold write_entry, rotate. rewrite Ro, (Sc _ (fun _ _ => eq_refl)), (Sh _ (fun _ _ => eq_refl)). reflexivity.
        -- intros u' Y. exists false. exact Y.
        -- intros u' Y. exists true. apply shut_created, Y.
        -- apply triple_end; auto; [intros n u' (cr & Y); exists cr; apply shut_at_stable, Y|]. intros u' (cr & Y). right. exists (fun j => j <? c'). exists d2.
           split; [|right; split; [reflexivity|exists cr; exact Y]]. unfold write_entry, rotate. rewrite Ro.
           rewrite Sc by (intros j Hj; apply Nat.ltb_lt; lia). rewrite Sh by (intros j Hj; apply Nat.ltb_lt; lia). rewrite Nat.ltb_irrefl. reflexivity.
      * intros cf d2 Lc Sh u' Y. right. exists (fun j => j <? cf), d2. split; [|right; split; [reflexivity|exists false; exact Y]].
        unfold write_entry, rotate. rewrite Ro. rewrite Sc by (intros j Hj; apply Nat.ltb_lt; lia).
        destruct (Sh (fun j => j <? cf)) as (c2 & ->); [intros j Hj; apply Nat.ltb_lt; lia|apply Nat.ltb_irrefl|]. reflexivity.
    + intros cf d1 _ Sc u' Y. right. exists (fun j => j <? cf), d1. split; [|right; split; [reflexivity|exists false; exact Y]].
      unfold write_entry, rotate. rewrite Ro. destruct (Sc (fun j => j <? cf)) as (n2 & c2 & ->); [intros j Hj; apply Nat.ltb_lt; lia|apply Nat.ltb_irrefl|]. reflexivity.
  - apply triple_block with (e := e). intros u' Z. right. exists (fun _ => true). eexists. split; [|left; split; [reflexivity|exact Z]].
    unfold write_entry. rewrite Ro. reflexivity.
Qed.
End Entry.

Section System.
Context {Q K M : Type} (peqb : Q -> Q -> bool) (path : K -> nat -> Q) (ltb : K -> K -> bool).
Hypothesis Peq : forall p q, peqb p q = true <-> p = q.
Hypothesis O : strict_total_order ltb.
Hypothesis Sep : separate path.
Variables (L R : nat -> Prop) (H : bool -> Prop) (HT : bytes -> Prop) (LT : entry K M -> bytes -> Prop).
Notation logical := (logical peqb).
Notation Top := (fun _ : st Q => True).
Implicit Types (u : st Q) (d : @disk Q (entry K M)).
Definition matches d u : Prop := (forall p w, stream u = Some (p, w) -> on_disk u p <> None) /\ forall q, logical u q = shown d q.
Lemma matches_stable d : stable peqb (matches d).
Proof.
  intros n u (A & B). split.
  - intros p w. rewrite flush_stream. destruct (stream u) as [[p' w']|] eqn:Es; [|discriminate]. intros [= <- _]. apply flush_exists; eauto.
  - intros q. rewrite (flush_logical peqb Peq). apply B.
Qed.
Lemma shut_matches d u : shut_at d u -> matches d u.
Proof. intros (A & B). split; [rewrite A; discriminate|]. unfold CrashProofs.logical. rewrite A. exact B. Qed.
Lemma open_matches p d u : open_at peqb p d u -> matches d u.
Proof. intros ((w & A) & B & C). split; [intros p' w'; rewrite A; intros [= <- _]; exact B|exact C]. Qed.
Lemma matches_closed d u : matches d u -> shut_at d (closed peqb u).
Proof. intros (A & B). split; [apply closed_stream|]. intros q. rewrite logical_closed. apply B. Qed.
Lemma back (x : bytes) : exists s, x = list_ascii_of_string s.
Proof. exists (string_of_list_ascii x). rewrite list_ascii_of_string_of_list_ascii. reflexivity. Qed.
Lemma event_refined s ev s' u o p u' d : held path s u -> step ltb s ev s' -> event_prog path L R H HT LT s ev o p -> run peqb u p u' (End o) ->
  matches d u -> exists d', disk_step peqb path L R H d ev d' /\ matches d' u'.
Proof.
  intros He St Ep Ru Ma.
  assert (Op : forall k, triple peqb Top (matches d) (Close (open_p (path k))) (fun o u' => match o with Done => matches (open_file peqb (path k 0) d) u' | _ => exists created : bool, matches (if created then open_file peqb (path k 0) d else d) u' end)).
  { intros k. apply triple_close with (A' := shut_at d); auto; [apply matches_stable|intros v; apply matches_closed|].
    unfold open_p. apply triple_open with (A' := open_at peqb (path k 0) (open_file peqb (path k 0) d)) (F := fun u => exists created : bool, shut_at (if created then open_file peqb (path k 0) d else d) u); auto.
    - apply shut_at_stable.
    - intros v. apply shut_opened, Peq.
    - apply triple_end; auto; [apply open_at_stable, Peq|]. intros v. apply open_matches.
    - intros v Y. exists false. exact Y.
    - intros v Y. exists true. apply shut_created; auto.
    - apply triple_end; auto; [intros n v (cr & Y); exists cr; apply shut_at_stable; auto|]. intros v (cr & Y). exists cr. apply shut_matches, Y. }
  assert (Cl : triple peqb Top (matches d) (Close (End Done)) (fun _ u' => matches d u')).
  { apply triple_close with (A' := shut_at d); auto; [apply matches_stable|intros v; apply matches_closed|]. apply triple_end; auto; [apply shut_at_stable|]. intros v. apply shut_matches. }
  assert (En : triple peqb Top (matches d) (End Done) (fun _ u' => matches d u')) by (apply triple_end; auto; apply matches_stable).
  assert (Wr : forall k, open_stream path u k -> open_at peqb (path k 0) d u).
  { intros k (w & A). destruct Ma as (B & C). split; [eauto|]. split; [eapply B, A|exact C]. }
  destruct Ep as [k|k e fuel limit rsize header ht lt Hl Hr Hh _ _|k _|k e fuel limit rsize header ht lt Wt Hl Hr Hh _ _|k n| |ev Ne].
  - eexists. split; [apply k_open|]. apply (proj2 (Op k _ _ _ Ma Ru) Done eq_refl).
  - destruct (back ht) as (hs & ->), (back lt) as (ls & ->). pose proof (held_needs path ltb _ _ _ _ He St) as Ne. cbn in Ne.
    destruct (proj2 (triple_refined peqb Peq (path k) fuel limit rsize header hs ls e d _ _ _ (Wr k Ne) Ru) Done eq_refl) as [X|(ok & d' & X & [(_ & Y)|(X' & _)])]; try discriminate.
    exists d'. split; [eapply k_write; eauto|]. eapply open_matches, Y.
  - destruct (proj2 (Op k _ _ _ Ma Ru) Threw eq_refl) as (cr & Y). eexists. split; [apply k_fail|exact Y].
  - destruct (back ht) as (hs & ->), (back lt) as (ls & ->).
    destruct (proj2 (triple_refined peqb Peq (path k) fuel limit rsize header hs ls e d _ _ _ (Wr k (held_writing path _ _ _ _ He Wt)) Ru) Threw eq_refl) as [X|(ok & d' & X & [(X' & _)|(_ & cr & Y)])]; try discriminate.
    eexists. split; [eapply k_fail_rotate; eauto|]. apply shut_matches, Y.
  - exists d. split; [apply k_other; exact I|]. apply (proj2 (Cl _ _ _ Ma Ru) Done eq_refl).
  - exists d. split; [apply k_other; exact I|]. apply (proj2 (Cl _ _ _ Ma Ru) Done eq_refl).
  - exists d. split; [apply k_other; destruct ev; contradiction || exact I|]. apply (proj2 (En _ _ _ Ma Ru) Done eq_refl).
Qed.
Lemma refine_proof lvl max fl clock d0 (b0 : bdisk Q) (tr : list (@event K M)) s u : csystem peqb path ltb L R H HT LT (initial lvl max fl clock) b0 tr s u ->
  (forall p, b0 p = option_map bytes_of (d0 p)) ->
  exists d, system peqb path L R H ltb (initial lvl max fl clock) d0 tr s d /\ forall p, on_disk (closed peqb u) p = option_map bytes_of (d p).
Proof.
  intros S E0. assert (X : exists d, system peqb path L R H ltb (initial lvl max fl clock) d0 tr s d /\ matches d u).
  { induction S as [|tr s u e s' u' o p S IH St Ep Ru].
    - exists d0. split; [constructor|]. split; [discriminate|exact E0].
    - destruct IH as (d & I1 & I2). destruct (event_refined _ _ _ _ _ _ _ _ (csystem_held peqb path ltb Peq O Sep L R H HT LT _ _ _ _ _ _ _ _ S) St Ep Ru I2) as (d' & X1 & X2).
      exists d'. split; [econstructor; eauto|exact X2]. }
  destruct X as (d & X1 & X2). exists d. split; [exact X1|]. intros p. rewrite logical_closed. apply X2.
Qed.
End System.
