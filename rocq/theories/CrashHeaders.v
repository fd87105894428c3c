(** Headers after any number of crashes. *)
From Coq Require Import List Bool Arith Ascii Lia.
From Verif Require Import Base LoggerModel LoggerSpec LogFileModel LogFileSpec CrashModel CrashSpec CrashProofs CrashSystem CrashMore.
Import ListNotations.

Section Headers.
Context {Q K M : Type} (peqb : Q -> Q -> bool) (path : K -> nat -> Q) (ltb : K -> K -> bool).
Hypothesis Peq : forall p q, peqb p q = true <-> p = q.
Hypothesis O : strict_total_order ltb.
Hypothesis Sep : separate path.
Variables (L R : nat -> Prop) (H : bool -> Prop) (HT : bytes -> Prop) (LT : entry K M -> bytes -> Prop).
Notation crashed := (crashed peqb path ltb L R H HT LT).
Notation lives := (lives peqb path ltb L R H HT LT).
Lemma parts_snoc (w x : bytes) e lt : parts_of_lines LT w -> LT e lt -> prefix x (lt ++ [nl]) -> parts_of_lines LT (w ++ x).
Proof.
  intros (xs & -> & F) Hl Px. exists (xs ++ [x]). rewrite concat_app. cbn. rewrite app_nil_r. split; [reflexivity|].
  apply Forall_app. split; [exact F|]. constructor; [eauto|constructor].
Qed.
Lemma prefix_app {A} (c a b : list A) : prefix c (a ++ b) -> prefix c a \/ exists b', c = a ++ b' /\ prefix b' b.
Proof.
  revert a. induction c as [|x c IH]; intros a [r E]; [left; exists a; reflexivity|].
  destruct a as [|y a]; cbn in E.
  - right. exists (x :: c). split; [reflexivity|]. exists r. exact E.
  - injection E as -> E. destruct (IH a) as [[r' ->]|(b' & -> & P)]; [exists r; exact E|left; exists r'; reflexivity|right; exists b'; auto].
Qed.
Lemma parts_prefix (w w' : bytes) : prefix w w' -> parts_of_lines LT w' -> parts_of_lines LT w.
Proof.
  intros P (xs & -> & F). revert w P. induction F as [|x xs (e & lt & Hl & Px) F IH]; intros w P.
  - destruct P as [r E]. destruct w; [|discriminate]. exists []. auto.
  - cbn in P. apply prefix_app in P as [P|(w' & -> & P)].
    + exists [w]. cbn. rewrite app_nil_r. split; [reflexivity|]. constructor; [|constructor]. exists e, lt. split; [exact Hl|]. eapply prefix_trans; eauto.
    + destruct (IH _ P) as (ys & -> & G). exists (x :: ys). split; [reflexivity|]. constructor; [eauto|exact G].
Qed.
Lemma prefix_nil_app {A} (a b : list A) : prefix a (a ++ b).
Proof. exists b. reflexivity. Qed.
Lemma crash_header_first h k lvl max fl clock d0 tr s e d : (forall b, H b -> b = true) -> (forall ht, HT ht -> ht = h) ->
  crashed (initial lvl max fl clock) d0 tr s e d -> (forall i c, d0 (path k i) = Some c -> header_first h LT c) ->
  forall i c, d (path k i) = Some c -> header_first h LT c.
Proof.
  intros Hb Hh Cr D0. refine (crash_good peqb path ltb Peq O Sep L R H HT LT k (header_first h LT) (header_first h LT) _ _ _ _ _ _ _ _ _ _ _ _ _ Cr _); auto.
  - intros c c' P [->|(q & w & N & Pq & -> & Pw)].
    + destruct P as [r E]. destruct c; [left; reflexivity|discriminate].
    + destruct c as [|a c]; [left; reflexivity|right]. apply prefix_app in P as [P|(w' & E & P)].
      * exists (a :: c), []. rewrite app_nil_r. split; [discriminate|]. split; [eapply prefix_trans; eauto|]. split; [reflexivity|]. exists []. auto.
      * exists q, w'. repeat split; auto. eapply parts_prefix; eauto.
  - left. reflexivity.
  - intros c limit rsize header ht lt x done rest Gd _ _ Hd Ht Hl _ Bl. rewrite (Hb _ Hd), (Hh _ Ht) in Bl.
    assert (G : header_first h LT (c ++ done)); [|auto]. destruct Gd as [->|(q & w & N & Pq & -> & Pw)].
    + cbn [app]. unfold block in Bl. cbn in Bl. assert (P : prefix done ((h ++ [nl]) ++ (lt ++ [nl]))) by (exists rest; exact Bl).
      destruct done as [|b done]; [left; reflexivity|right]. apply prefix_app in P as [P|(w' & E & P)].
      * exists (b :: done), []. rewrite app_nil_r. split; [discriminate|]. split; [exact P|]. split; [reflexivity|]. exists []. auto.
      * exists (h ++ [nl]), w'. split; [destruct h; discriminate|]. split; [exists []; rewrite app_nil_r; reflexivity|]. split; [exact E|].
        apply (parts_snoc [] w' x lt); auto. exists []. auto.
    + right. exists q, (w ++ done). split; [exact N|]. split; [exact Pq|]. split; [rewrite app_assoc; reflexivity|].
      apply (parts_snoc w done x lt); auto. unfold block in Bl. rewrite app_length in Bl.
      replace (length q + length w =? 0) with false in Bl by (symmetry; apply Nat.eqb_neq; destruct q; [congruence|cbn; lia]).
      cbn in Bl. exists rest. exact Bl.
Qed.
Lemma lives_header_first h k d0 log d : (forall b, H b -> b = true) -> (forall ht, HT ht -> ht = h) ->
  lives d0 log d -> (forall i c, d0 (path k i) = Some c -> header_first h LT c) ->
  forall i c, d (path k i) = Some c -> header_first h LT c.
Proof. intros Hb Hh Li D0. induction Li as [|log d lvl max fl clock tr s e d' Li IH Cr]; [exact D0|]. eapply crash_header_first; eauto. Qed.
End Headers.
