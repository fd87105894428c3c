(** The logger with its disk and its stream. *)
From Coq Require Import List Bool Arith Ascii Lia.
From Verif Require Import Base ListUpdate LoggerModel LoggerSpec LoggerProofs LogFileModel LogFileSpec LogFileProofs LogFileSystem CrashModel CrashSpec CrashProofs.
Import ListNotations.

(** * Texts *)
Section Text.
Context {P : Type} (peqb : P -> P -> bool).
Hypothesis Peq : forall p q, peqb p q = true <-> p = q.
Variable path : nat -> P.
Hypothesis Inj : forall i j, path i = path j -> i = j.
Notation bdisk := (bdisk P).
Notation put_at := (put_at peqb).
Implicit Types (d : bdisk).
Definition content (x : option bytes) : bytes := match x with Some c => c | None => [] end.

Lemma text_ext b d d' : (forall i, i < b -> d' (path i) = d (path i)) -> text_below path b d' = text_below path b d.
Proof. intros H. induction b as [|b IH]; cbn; [reflexivity|]. rewrite H by lia. rewrite IH by (intros; apply H; lia). reflexivity. Qed.
Lemma text_more b b' d : b <= b' -> (forall i, b <= i -> d (path i) = None) -> text_below path b' d = text_below path b d.
Proof.
  intros L H. induction b' as [|b' IH]; [replace b with 0 by lia; reflexivity|].
  destruct (Nat.eq_dec b (S b')) as [->|]; [reflexivity|]. cbn. rewrite (H b') by lia. apply IH. lia.
Qed.
Lemma text_split i b d : i < b -> exists hi, text_below path b d = hi ++ content (d (path i)) ++ text_below path i d /\
  (forall d', (forall j, i < j < b -> d' (path j) = d (path j)) -> text_below path b d' = hi ++ content (d' (path i)) ++ text_below path i d') /\
  ((forall j, i < j -> d (path j) = None) -> hi = []).
Proof.
  intros L. induction b as [|b IH]; [lia|]. destruct (Nat.eq_dec i b) as [->|N].
  - exists []. repeat split; reflexivity.
  - destruct IH as (hi & E1 & E2 & E3); [lia|]. cbn [text_below]. exists (content (d (path b)) ++ hi). split; [|split].
    + rewrite E1, <- app_assoc. reflexivity.
    + intros d' H. rewrite (H b) by lia. rewrite (E2 d') by (intros; apply H; lia). rewrite <- app_assoc. reflexivity.
    + intros H. rewrite E3 by exact H. rewrite (H b) by lia. reflexivity.
Qed.
Lemma all_text_ext d d' T : (forall i, d' (path i) = d (path i)) -> all_text path d T -> all_text path d' T.
Proof. intros H (b & Hb & ->). exists b. split; [intros; rewrite H; auto|]. symmetry. apply text_ext. auto. Qed.
Lemma all_text_slack d T n : all_text path d T -> exists b, n <= b /\ 0 < b /\ (forall i, b <= i -> d (path i) = None) /\ T = text_below path b d.
Proof. intros (b & Hb & ->). exists (S (b + n)). split; [lia|]. split; [lia|]. split; [intros; apply Hb; lia|]. symmetry. apply text_more; [lia|exact Hb]. Qed.
Lemma all_text_unique d T T' : all_text path d T -> all_text path d T' -> T = T'.
Proof.
  intros (b & Hb & ->) (b' & Hb' & ->). destruct (Nat.le_ge_cases b b'); [symmetry|]; apply text_more; auto.
Qed.
(** the newest file comes last *)
Lemma all_text_last d d' T x w : all_text path d T -> content (d (path 0)) = x -> d' (path 0) = Some (x ++ w) ->
  (forall i, 0 < i -> d' (path i) = d (path i)) -> all_text path d' (T ++ w).
Proof.
  intros H <- E0 E. destruct (all_text_slack _ _ 0 H) as (b & _ & B & Hb & ->). exists b. split; [intros; rewrite E by lia; auto|].
  destruct (text_split 0 b d B) as (hi & A1 & A2 & _). rewrite A1, (A2 d') by (intros; apply E; lia). rewrite E0. cbn. rewrite !app_nil_r, app_assoc. reflexivity.
Qed.
Lemma all_text_first d T c : all_text path d T -> d (path 0) = Some c -> exists T', T = T' ++ c /\
  (forall d' c', d' (path 0) = Some c' -> (forall i, 0 < i -> d' (path i) = d (path i)) -> all_text path d' (T' ++ c')).
Proof.
  intros H E0. destruct (all_text_slack _ _ 0 H) as (b & _ & B & Hb & ->).
  destruct (text_split 0 b d B) as (hi & A1 & A2 & _). exists hi. rewrite A1, E0. cbn. rewrite app_nil_r. split; [reflexivity|].
  intros d' c' E1 E. exists b. split; [intros; rewrite E by lia; auto|]. rewrite (A2 d') by (intros; apply E; lia). rewrite E1. cbn. rewrite app_nil_r. reflexivity.
Qed.

(** ** Kinds of settings: any; a fixed rotation limit; no rotation *)
Inductive mode := Any | Limit (n : nat) | Off.
Definition rel (m : mode) (T X : bytes) : Prop :=
  match m with Any => sublist T X | Limit _ => suffix_of T X | Off => T = X end.
Definition room (m : mode) d : Prop := match m with Limit n => forall i, n < i -> d (path i) = None | _ => True end.
Definition fits (m : mode) (limit rsize : nat) : Prop := match m with Any => True | Limit n => limit = n | Off => rsize = 0 end.
Lemma rel_refl m T : rel m T T.
Proof. destruct m; cbn; [apply sub_refl|apply suffix_refl|reflexivity]. Qed.
Lemma rel_trans m T1 T2 T3 : rel m T1 T2 -> rel m T2 T3 -> rel m T1 T3.
Proof. destruct m; cbn; [apply sub_trans|apply suffix_trans|congruence]. Qed.
Lemma rel_app m T X w : rel m T X -> rel m (T ++ w) (X ++ w).
Proof. destruct m; cbn; [intros; apply sub_app; [assumption|apply sub_refl]|apply suffix_app|congruence]. Qed.
Lemma sub_drop_last {A} (b : list A) : forall a x y, sublist (a ++ [x]) (b ++ [y]) -> sublist a b.
Proof.
  induction b as [|z b IH]; intros a x y H.
  - destruct a as [|u a]; [constructor|]. cbn in H. inversion H as [|? ? ? H'|? ? ? H']; subst; inversion H'; destruct a; discriminate.
  - cbn in H. inversion H as [|? ? ? H'|? l ? H' E1]; subst; [apply sub_skip; eapply IH, H'|].
    destruct a as [|u a]; [apply sub_nil_l|]. cbn in E1. injection E1 as -> ->. apply sub_keep. eapply IH, H'.
Qed.
Lemma sub_drop {A} (v : list A) : forall a b u, length u = length v -> sublist (a ++ u) (b ++ v) -> sublist a b.
Proof.
  induction v as [|y v IH] using rev_ind; intros a b u L H.
  - destruct u; [|discriminate]. rewrite !app_nil_r in H. exact H.
  - destruct u as [|x u _] using rev_ind; [rewrite app_length in L; cbn in L; lia|]. rewrite !app_length in L. cbn in L.
    rewrite !app_assoc in H. apply sub_drop_last in H. apply (IH a b u); [lia|exact H].
Qed.
Lemma rel_drop m T X u v : length u = length v -> rel m (T ++ u) (X ++ v) -> rel m T X.
Proof.
  intros L. destruct m; cbn.
  - apply sub_drop, L.
  - intros (r & E). exists r. rewrite app_assoc in E.
    assert (Z : X = r ++ T /\ v = u); [|tauto].
    revert E. generalize (r ++ T). intros l E. revert l u L E. clear. induction v as [|y v IH] using rev_ind; intros l u L E.
    + destruct u; [|discriminate]. rewrite !app_nil_r in E. auto.
    + destruct u as [|x u _] using rev_ind; [rewrite app_length in L; cbn in L; lia|]. rewrite !app_length in L. cbn in L. rewrite !app_assoc in E.
      apply app_inj_tail in E. destruct E as [E ->]. destruct (IH l u) as [-> ->]; [lia|exact E|]. auto.
  - intros E. revert X T u L E. clear. induction v as [|y v IH] using rev_ind; intros X T u L E.
    + destruct u; [|discriminate]. rewrite !app_nil_r in E. auto.
    + destruct u as [|x u _] using rev_ind; [rewrite app_length in L; cbn in L; lia|]. rewrite !app_length in L. cbn in L. rewrite !app_assoc in E.
      apply app_inj_tail in E. apply (IH X T u); [lia|apply E].
Qed.

(** ** rotation *)
Lemma put_path i x d j : put_at (path i) x d (path j) = if Nat.eqb j i then x else d (path j).
Proof.
  destruct (Nat.eqb_spec j i) as [->|N]; [apply (bput_same peqb Peq)|]. apply (bput_other peqb Peq). intros X. apply N, Inj, X.
Qed.
Lemma moves_text m limit rsize d d' : moves peqb path limit d d' -> fits m limit rsize -> rsize <> 0 -> forall T, room m d -> all_text path d T ->
  exists T', all_text path d' T' /\ rel m T' T /\ room m d'.
Proof.
  intros Mv Fi Rs T Ro Al. induction Mv as [d' E|d1 d' i Mv (T1 & A1 & A2 & A3) Li _ E|d1 d' i Mv (T1 & A1 & A2 & A3) Li Fr E].
  - exists T. split; [apply (all_text_ext d); auto|]. split; [apply rel_refl|]. destruct m; cbn in *; auto. intros i Hi. rewrite E. auto.
  - assert (E' : forall j, d' (path j) = if Nat.eqb j i then None else d1 (path j)) by (intros j; rewrite E; apply put_path). clear E.
    destruct (all_text_slack _ _ (S i) A1) as (b & B1 & _ & Hb & ->). destruct (text_split i b d1) as (hi & S1 & S2 & S3); [lia|].
    assert (X : text_below path b d' = hi ++ text_below path i d1).
    { rewrite (S2 d') by (intros j Hj; rewrite E'; destruct (Nat.eqb_spec j i); [lia|reflexivity]). rewrite E', Nat.eqb_refl. cbn. f_equal.
      apply text_ext. intros j Hj. rewrite E'. destruct (Nat.eqb_spec j i); [lia|reflexivity]. }
    exists (hi ++ text_below path i d1). split; [|split].
    + exists b. split; [|symmetry; exact X]. intros j Hj. rewrite E'. destruct (Nat.eqb j i); auto.
    + eapply rel_trans; [|exact A2]. rewrite S1. destruct m as [|n|]; cbn in *.
      * apply sub_app; [apply sub_refl|]. change (text_below path i d1) with ([] ++ text_below path i d1) at 1. apply sub_app; [apply sub_nil_l|apply sub_refl].
      * subst limit. destruct (Nat.eq_dec i n) as [->|N]; [rewrite S3 by exact A3; exists (content (d1 (path n))); reflexivity|].
        rewrite (A3 i) by lia. cbn. apply suffix_refl.
      * congruence.
    + destruct m; cbn in *; auto. intros j Hj. rewrite E'. destruct (Nat.eqb j i); auto.
  - assert (E' : forall j, d' (path j) = if Nat.eqb j (S i) then d1 (path i) else if Nat.eqb j i then None else d1 (path j)) by (intros j; rewrite E, !put_path; reflexivity). clear E.
    destruct (all_text_slack _ _ (S (S i)) A1) as (b & B1 & _ & Hb & ->). destruct (text_split (S i) b d1) as (hi & S1 & S2 & S3); [lia|].
    assert (X : text_below path b d' = text_below path b d1).
    { rewrite S1, (S2 d') by (intros j Hj; rewrite E'; destruct (Nat.eqb_spec j (S i)); [lia|]; destruct (Nat.eqb_spec j i); [lia|reflexivity]).
      cbn [text_below]. rewrite !E', Nat.eqb_refl, Fr, (proj2 (Nat.eqb_neq i (S i))), Nat.eqb_refl by lia. cbn. f_equal. unfold content. f_equal.
      apply text_ext. intros j Hj. rewrite E'. destruct (Nat.eqb_spec j (S i)); [lia|]. destruct (Nat.eqb_spec j i); [lia|reflexivity]. }
    exists (text_below path b d1). split; [|split; [exact A2|]].
    + exists b. split; [|symmetry; exact X]. intros j Hj. rewrite E'. destruct (Nat.eqb_spec j (S i)); [lia|]. destruct (Nat.eqb j i); auto.
    + destruct m; cbn in *; auto. subst. intros j Hj. rewrite E'. destruct (Nat.eqb_spec j (S i)); [lia|]. destruct (Nat.eqb j i); auto.
Qed.
(** a file that is there after a rotation was there before *)
Lemma moves_files limit d d' : moves peqb path limit d d' -> forall i c, d' (path i) = Some c -> exists j, d (path j) = Some c.
Proof.
  intros Mv. induction Mv as [d' E|d1 d' n Mv IH Li _ E|d1 d' n Mv IH Li Fr E]; intros i c H; rewrite E in H.
  - exists i. exact H.
  - rewrite put_path in H. destruct (Nat.eqb i n); [discriminate|]. apply (IH i c H).
  - rewrite !put_path in H. destruct (Nat.eqb i (S n)); [apply (IH n c H)|]. destruct (Nat.eqb i n); [discriminate|]. apply (IH i c H).
Qed.
Lemma moves_other limit d d' : moves peqb path limit d d' -> forall p, (forall j, p <> path j) -> d' p = d p.
Proof.
  intros Mv p N. induction Mv as [d' E|d1 d' n Mv IH Li _ E|d1 d' n Mv IH Li Fr E]; rewrite E; [reflexivity|..].
  - rewrite (bput_other peqb Peq) by apply N. exact IH.
  - rewrite !(bput_other peqb Peq) by apply N. exact IH.
Qed.
End Text.

(** * The system *)
Section System.
Context {Q K M : Type} (peqb : Q -> Q -> bool) (path : K -> nat -> Q) (ltb : K -> K -> bool).
Hypothesis Peq : forall p q, peqb p q = true <-> p = q.
Hypothesis O : strict_total_order ltb.
Hypothesis Sep : separate path.
Variables (L R : nat -> Prop) (H : bool -> Prop) (HT : bytes -> Prop) (LT : entry K M -> bytes -> Prop).
Notation bdisk := (bdisk Q).
Notation st := (st Q).
Notation logger := (@logger K M).
Notation event := (@event K M).
Notation logical := (logical peqb).
Notation put_at := (put_at peqb).
Notation run := (run peqb).
Notation event_prog := (event_prog path L R H HT LT).
Notation csystem := (csystem peqb path ltb L R H HT LT).
Implicit Types (s : logger) (u : st) (tr : list event).

Lemma inj_at k i j : path k i = path k j -> i = j.
Proof. intros X. apply (Sep _ _ _ _ X). Qed.
Lemma differ k k' i : k <> k' -> forall j, path k i <> path k' j.
Proof. intros N j X. apply N, (Sep _ _ _ _ X). Qed.

(** bytes in the buffer of a stream to log file [k] *)
Definition pending k u : nat := match stream u with Some (p, w) => if peqb p (path k 0) then length w else 0 | None => 0 end.
Lemma pending_here k u w : stream u = Some (path k 0, w) -> pending k u = length w.
Proof. intros E. unfold pending. rewrite E, (proj2 (Peq _ _) eq_refl). reflexivity. Qed.
Lemma pending_there k k' u w : k <> k' -> stream u = Some (path k' 0, w) -> pending k u = 0.
Proof.
  intros N E. unfold pending. rewrite E. destruct (peqb (path k' 0) (path k 0)) eqn:X; [|reflexivity]. apply Peq in X. apply differ in X; [contradiction|congruence].
Qed.
Lemma pending_none k u : stream u = None -> pending k u = 0.
Proof. intros E. unfold pending. rewrite E. reflexivity. Qed.

(** the same files, the stream has at most been flushed *)
Definition shrunk u0 u : Prop :=
  (forall p, logical u p = logical u0 p) /\
  (forall p w, stream u = Some (p, w) -> on_disk u p <> None /\ exists w0, stream u0 = Some (p, w0) /\ length w <= length w0) /\
  (forall p w0, stream u0 = Some (p, w0) -> exists w, stream u = Some (p, w)).
Lemma shrunk_refl u : (forall p w, stream u = Some (p, w) -> on_disk u p <> None) -> shrunk u u.
Proof.
  intros E. split; [reflexivity|]. split; [intros p w X; split; [apply (E p w X)|exists w; auto]|intros p w X; exists w; exact X].
Qed.
Lemma stable_shrunk u0 : stable peqb (shrunk u0).
Proof.
  intros n u (A & B & C). split; [|split].
  - intros p. rewrite flush_logical by exact Peq. apply A.
  - intros p w. rewrite flush_stream. destruct (stream u) as [[q v]|] eqn:E; [|discriminate]. intros [= <- <-].
    destruct (B q v eq_refl) as (B1 & w0 & B2 & B3). split; [apply flush_exists; [exact Peq|exact B1]|]. exists w0. split; [exact B2|]. rewrite skipn_length. lia.
  - intros p w0 X. destruct (C p w0 X) as (w & Y). rewrite flush_stream, Y. eauto.
Qed.
Lemma shrunk_pending k u0 u : shrunk u0 u -> pending k u <= pending k u0.
Proof.
  intros (_ & B & _). unfold pending. destruct (stream u) as [[p w]|] eqn:E; [|lia]. destruct (B p w eq_refl) as (_ & w0 & -> & Le).
  destruct (peqb p (path k 0)); lia.
Qed.
(** the stream is closed *)
Definition shut u0 u : Prop := stream u = None /\ forall p, on_disk u p = logical u0 p.
Lemma shrunk_shut u0 u : shrunk u0 u -> shut u0 (closed peqb u).
Proof. intros (A & _). split; [apply closed_stream|]. intros p. rewrite logical_closed. apply A. Qed.

(** what may have happened to the files of [k] at some time during the event [ev], or at its end *)
Definition written_part k (ev : event) u u' (fin : bool) : Prop :=
  exists e limit rsize header ht lt c0 done rest,
  ev = EWrite k e /\ L limit /\ R rsize /\ H header /\ HT ht /\ LT e lt /\ logical u (path k 0) = Some c0 /\
  emitting peqb (path k) limit rsize header ht lt (logical u) c0 (pending k u) done rest u' /\ (fin = true -> rest = []).
Definition rotation_part k (ev : event) u u' (fin : bool) : Prop :=
  exists limit rsize c0, L limit /\ R rsize /\ logical u (path k 0) = Some c0 /\
  rotating peqb (path k) limit rsize (logical u) c0 u' /\ (fin = true -> written_in ltb k ev = []).
Definition idle_part k (ev : event) u u' (fin : bool) : Prop :=
  pending k u' <= pending k u /\
  ((forall i, logical u' (path k i) = logical u (path k i)) \/
   (pending k u' = 0 /\ logical u (path k 0) = None /\ forall i, logical u' (path k i) = put_at (path k 0) (Some []) (logical u) (path k i))) /\
  (fin = true -> written_in ltb k ev = []).
Definition summary k ev u u' fin : Prop := idle_part k ev u u' fin \/ rotation_part k ev u u' fin \/ written_part k ev u u' fin.

Definition open_stream u (k : K) : Prop := exists w, stream u = Some (path k 0, w).
Definition held s u : Prop :=
  (forall p w, stream u = Some (p, w) -> on_disk u p <> None /\ exists k, p = path k 0) /\
  match pc s with LWrite k _ _ => open_stream u k | _ => True end /\
  match dtor s with DWrite k _ => open_stream u k | _ => True end /\
  match dtor s with DFlush _ | DOpen _ _ | DWrite _ _ | DDone => pc s = LExited | _ => True end.
Definition needs (ev : event) u : Prop := match ev with EWrite k _ => open_stream u k | _ => True end.
Lemma held_needs s ev s' u : held s u -> step ltb s ev s' -> needs ev u.
Proof.
  intros (_ & A & B & _) S. cases S; try exact I; cbn.
  - destruct (should_log s x); exact I.
  - destruct (accepts ltb x s); exact I.
  - rewrite P in A. exact A.
  - destruct (next_file ltb p (lfiles s)); exact I.
  - rewrite D in B. exact B.
Qed.
Lemma held_writing s k e u : held s u -> writing s k e -> open_stream u k.
Proof. intros (_ & A & B & _) (todo & [(n & E)|E]); rewrite E in *; assumption. Qed.

(** opening a file *)
Definition made k u0 u : Prop :=
  (stream u = None \/ stream u = Some (path k 0, [])) /\ on_disk u (path k 0) <> None /\
  forall p, logical u p = create peqb (path k 0) (logical u0) p.
Lemma stable_made k u0 : stable peqb (made k u0).
Proof.
  intros n u (A & B & C). split; [|split].
  - rewrite flush_stream. destruct A as [->| ->]; [left; reflexivity|right; rewrite skipn_nil; reflexivity].
  - apply flush_exists; [exact Peq|exact B].
  - intros p. rewrite flush_logical by exact Peq. apply C.
Qed.
Lemma shut_stable u0 : stable peqb (shut u0).
Proof. apply stable_closed. intros u A. apply A. Qed.
Lemma triple_open_p k u0 : triple peqb (fun u => shrunk u0 u \/ shut u0 u \/ made k u0 u) (shrunk u0) (Close (open_p (path k)))
  (fun o u => match o with Done => made k u0 u /\ stream u = Some (path k 0, []) | _ => stream u = None /\ (shut u0 u \/ made k u0 u) end).
Proof.
  apply (triple_close peqb _ _ (shut u0)); [apply stable_shrunk|tauto|intros u; apply shrunk_shut|].
  assert (Lg : forall u, shut u0 u -> forall p, on_disk (opened_at peqb (path k 0) u) p = create peqb (path k 0) (logical u0) p).
  { intros u (A & B) p. unfold opened_at. cbn [on_disk]. destruct (p_dec peqb Peq p (path k 0)) as [->|N].
    - rewrite !(proj1 (create_spec peqb Peq _ _)), B. reflexivity.
    - rewrite !(proj2 (create_spec peqb Peq _ _)) by exact N. apply B. }
  apply (triple_open peqb _ _ (fun u => made k u0 u /\ stream u = Some (path k 0, [])) (fun u => stream u = None /\ (shut u0 u \/ made k u0 u))); auto using shut_stable.
  - intros u A. pose proof (Lg u A) as E. split; [split; [right; reflexivity|split]|reflexivity].
    + rewrite E, (proj1 (create_spec peqb Peq _ _)). discriminate.
    + intros p. destruct (p_dec peqb Peq p (path k 0)) as [->|N].
      * rewrite (logical_at peqb Peq _ (path k 0) []) by reflexivity. rewrite E, (proj1 (create_spec peqb Peq _ _)), app_nil_r. reflexivity.
      * rewrite (logical_off peqb Peq _ (path k 0) [] p) by (reflexivity || exact N). apply E.
  - apply triple_end; [|tauto|intros u A; exact A]. intros n u (A & B). split; [apply stable_made, A|]. rewrite flush_stream, B, skipn_nil. reflexivity.
  - intros u A. split; [apply A|left; exact A].
  - intros u A. pose proof (Lg u A) as E. split; [apply A|]. right. split; [left; apply A|]. unfold opened_at in E. cbn [on_disk] in *.
    split; [rewrite E, (proj1 (create_spec peqb Peq _ _)); discriminate|]. intros p. unfold CrashProofs.logical. cbn [stream on_disk]. rewrite (proj1 A). apply E.
  - apply triple_end; [apply stable_closed; intros u A; apply A|tauto|intros u A; exact A].
Qed.
Lemma triple_close_p u0 : triple peqb (fun u => shrunk u0 u \/ shut u0 u) (shrunk u0) (Close (End Done)) (fun o u => shut u0 u).
Proof.
  apply (triple_close peqb _ _ (shut u0)); [apply stable_shrunk|tauto|intros u; apply shrunk_shut|]. apply triple_end; [apply shut_stable|tauto|auto].
Qed.
Lemma triple_none u0 : triple peqb (shrunk u0) (shrunk u0) (End Done) (fun o u => shrunk u0 u).
Proof. apply triple_end; [apply stable_shrunk|auto|auto]. Qed.

Lemma shut_logical u0 u p : shut u0 u -> logical u p = logical u0 p.
Proof. intros (A & B). unfold CrashProofs.logical at 1. rewrite A. apply B. Qed.
Lemma idle_shrunk k ev u u' fin : shrunk u u' -> (fin = true -> written_in ltb k ev = []) -> summary k ev u u' fin.
Proof. intros A F. left. split; [apply shrunk_pending, A|]. split; [left; intros i; apply A|exact F]. Qed.
Lemma idle_shut k ev u u' fin : shut u u' -> (fin = true -> written_in ltb k ev = []) -> summary k ev u u' fin.
Proof. intros A F. left. split; [rewrite (pending_none k u') by apply A; lia|]. split; [left; intros i; apply shut_logical, A|exact F]. Qed.
Lemma idle_made k k' ev u u' fin : made k' u u' -> (fin = true -> written_in ltb k ev = []) -> summary k ev u u' fin.
Proof.
  intros (A & B & C) F. assert (Z : pending k u' = 0).
  { destruct A as [A|A]; [apply pending_none, A|]. unfold pending. rewrite A. destruct (peqb _ _); reflexivity. }
  left. split; [lia|]. split; [|exact F]. destruct (key_dec ltb O k k') as [->|N].
  - destruct (logical u (path k' 0)) as [c|] eqn:E.
    + left. intros i. rewrite C. unfold create. rewrite E. reflexivity.
    + right. split; [exact Z|]. split; [reflexivity|]. intros i. rewrite C. unfold create. rewrite E. reflexivity.
  - left. intros i. rewrite C. apply (create_spec peqb Peq). apply differ, N.
Qed.
(** the events of other log files *)
Lemma other_key k k' ev u u' limit rsize header ht lt c0 n0 fin : k <> k' -> written_in ltb k ev = [] -> pending k u = 0 ->
  all_time peqb (path k') limit rsize header ht lt (logical u) c0 n0 u' -> summary k ev u u' fin.
Proof.
  intros N W Z A. assert (G : pending k u' = 0 -> (forall i, logical u' (path k i) = logical u (path k i)) -> summary k ev u u' fin).
  { intros Z' E. left. split; [lia|]. split; [left; exact E|auto]. }
  destruct A as [(w & A1 & _ & _ & A2)|[(A1 & _ & D1 & A2 & A3)|(done & rest & D1 & c1 & n1 & w & A1 & _ & A2 & _ & _ & A3)]].
  - apply G; [apply (pending_there k k' u' w N A1)|intros i; apply A2].
  - apply G; [apply pending_none, A1|]. intros i. unfold CrashProofs.logical at 1. rewrite A1.
    rewrite <- (moves_other peqb Peq (path k') _ _ _ A2) by (apply differ, N). destruct A3 as [A3|(_ & A3)]; rewrite A3; [reflexivity|].
    apply (bput_other peqb Peq), differ, N.
  - apply G; [apply (pending_there k k' u' w N A2)|]. intros i. rewrite A3, (bput_other peqb Peq) by (apply differ, N).
    destruct A1 as [(_ & _ & _ & E)|(_ & _ & _ & Mv & _)]; [apply E|apply (moves_other peqb Peq (path k') _ _ _ Mv), differ, N].
Qed.
Definition posted (ev : event) u u' : Prop :=
  (forall p w, stream u' = Some (p, w) -> on_disk u' p <> None /\ exists k, p = path k 0) /\
  match ev with
  | EOpen k | EWrite k _ => open_stream u' k
  | EErase _ _ | EDestroyed | EFail _ => stream u' = None
  | _ => forall k, open_stream u k -> open_stream u' k
  end.
Lemma event_reach s ev u o p u' p' : held s u -> needs ev u -> event_prog s ev o p -> run u p u' p' -> o = Done \/ p' = End o ->
  (forall k fin, (fin = true -> p' = End o) -> summary k ev u u' fin) /\ (p' = End o -> posted ev u u').
Proof.
  intros He Ne Ep Ru Oo.
  assert (Sh0 : shrunk u u). { apply shrunk_refl. intros q w E. apply (proj1 He q w E). }
  assert (Pst : forall u2, stream u2 = None -> forall q w, stream u2 = Some (q, w) -> on_disk u2 q <> None /\ exists k, q = path k 0) by (intros u2 E; rewrite E; discriminate).
  assert (Ready : forall k, open_stream u k -> exists c0, logical u (path k 0) = Some c0 /\ ready peqb (path k) (logical u) (pending k u) u).
  { intros k (w & E). destruct (proj1 He _ _ E) as [X _]. destruct (on_disk u (path k 0)) as [c|] eqn:Ec; [|congruence].
    exists (c ++ w). split; [rewrite (logical_at peqb Peq _ _ _ E), Ec; reflexivity|]. exists w. rewrite (pending_here _ _ _ E). split; [exact E|].
    split; [lia|]. split; [congruence|reflexivity]. }
  destruct Ep as [k'|k' e fuel limit rsize header ht lt Hl Hr Hh Ht Hlt|k' Op|k' e fuel limit rsize header ht lt Wr Hl Hr Hh Ht Hlt|k' n| |ev Nv].
  - destruct (triple_open_p k' u _ _ _ Sh0 Ru) as [I0 Q0]. split.
    + intros k fin _. destruct I0 as [I0|[I0|I0]]; [apply idle_shrunk|apply idle_shut|apply (idle_made k k')]; auto.
    + intros E. destruct (Q0 _ E) as (Q1 & Q2). split; [|exists []; exact Q2].
      intros q w. rewrite Q2. intros [= <- <-]. split; [apply Q1|eauto].
  - cbn [needs] in Ne. destruct (Ready k' Ne) as (c0 & C0 & Rd).
    destruct (triple_entry peqb Peq (path k') (inj_at k') fuel limit rsize header ht lt (logical u) c0 (pending k' u) C0 _ _ _ Rd Ru) as [I0 Q0]. split.
    + intros k fin Fin. destruct (key_dec ltb O k k') as [->|N].
      * destruct fin.
        -- destruct (Q0 _ (Fin eq_refl)) as (done & Q1). right. right. exists e, limit, rsize, header, ht, lt, c0, done, [].
           repeat (split; [first [reflexivity|assumption]|]). reflexivity.
        -- destruct I0 as [I0|[I0|(done & rest & I0)]].
           ++ left. destruct I0 as (w & A1 & A2 & A3 & A4). split; [rewrite (pending_here _ _ _ A1); exact A2|]. split; [left; intros i; apply A4|discriminate].
           ++ right. left. exists limit, rsize, c0. repeat (split; [assumption|]). discriminate.
           ++ right. right. exists e, limit, rsize, header, ht, lt, c0, done, rest. repeat (split; [first [reflexivity|assumption]|]). discriminate.
      * apply (other_key k k' (EWrite k' e) u u' limit rsize header ht lt c0 (pending k' u) fin N); [|destruct Ne as (w & E); apply (pending_there k k' u w N E)|exact I0].
        cbn. rewrite (proj2 (equivb_false ltb O k k') N). reflexivity.
    + intros E. destruct (Q0 _ E) as (done & D1 & c1 & n1 & w & _ & _ & A2 & _ & A3 & _). split; [|exists w; exact A2].
      intros q v. rewrite A2. intros [= <- <-]. split; [exact A3|eauto].
  - destruct Oo as [X|E]; [discriminate|]. destruct (triple_open_p k' u _ _ _ Sh0 Ru) as [I0 Q0]. split.
    + intros k fin _. destruct I0 as [I0|[I0|I0]]; [apply idle_shrunk|apply idle_shut|apply (idle_made k k')]; auto.
    + intros _. specialize (Q0 _ E). split; [apply Pst, Q0|apply Q0].
  - destruct Oo as [X|E]; [discriminate|]. destruct (Ready k' (held_writing _ _ _ _ He Wr)) as (c0 & C0 & Rd).
    destruct (triple_entry peqb Peq (path k') (inj_at k') fuel limit rsize header ht lt (logical u) c0 (pending k' u) C0 _ _ _ Rd Ru) as [I0 Q0].
    specialize (Q0 _ E). cbn [finally] in Q0. split.
    + intros k fin _. destruct (key_dec ltb O k k') as [->|N].
      * right. left. exists limit, rsize, c0. repeat (split; [assumption|]). reflexivity.
      * destruct (held_writing _ _ _ _ He Wr) as (w & Ew).
        apply (other_key k k' (EFail k') u u' limit rsize header ht lt c0 (pending k' u) fin N); [reflexivity|apply (pending_there k k' u w N Ew)|exact I0].
    + intros _. split; [apply Pst, Q0|apply Q0].
  - destruct (triple_close_p u _ _ _ Sh0 Ru) as [I0 Q0]. split.
    + intros k fin _. destruct I0 as [I0|I0]; [apply idle_shrunk|apply idle_shut]; auto.
    + intros E. specialize (Q0 _ E). split; [apply Pst, Q0|apply Q0].
  - destruct (triple_close_p u _ _ _ Sh0 Ru) as [I0 Q0]. split.
    + intros k fin _. destruct I0 as [I0|I0]; [apply idle_shrunk|apply idle_shut]; auto.
    + intros E. specialize (Q0 _ E). split; [apply Pst, Q0|apply Q0].
  - destruct (triple_none u _ _ _ Sh0 Ru) as [I0 _]. split.
    + intros k fin _. apply idle_shrunk; [exact I0|]. intros _. destruct ev; contradiction || reflexivity.
    + intros _. split.
      * intros q w E. destruct (proj1 (proj2 I0) q w E) as (A & w0 & B & _). split; [exact A|apply (proj1 He q w0 B)].
      * destruct ev; contradiction || (intros k (w & E); destruct (proj2 (proj2 I0) _ _ E) as (w' & E'); exists w'; exact E').
Qed.
Lemma event_streams s ev u o p u' p' : held s u -> needs ev u -> event_prog s ev o p -> run u p u' p' ->
  forall q w, stream u' = Some (q, w) -> on_disk u' q <> None /\ exists k, q = path k 0.
Proof.
  intros He Ne Ep Ru.
  assert (Sh0 : shrunk u u). { apply shrunk_refl. intros q w E. apply (proj1 He q w E). }
  assert (X1 : shrunk u u' -> forall q w, stream u' = Some (q, w) -> on_disk u' q <> None /\ exists k, q = path k 0).
  { intros (_ & A & _) q w E. destruct (A q w E) as (A1 & w0 & A2 & _). split; [exact A1|apply (proj1 He q w0 A2)]. }
  assert (X2 : stream u' = None -> forall q w, stream u' = Some (q, w) -> on_disk u' q <> None /\ exists k, q = path k 0) by (intros ->; discriminate).
  assert (X3 : forall k, made k u u' -> forall q w, stream u' = Some (q, w) -> on_disk u' q <> None /\ exists k, q = path k 0).
  { intros k ([A|A] & B & _); [apply X2, A|]. intros q w. rewrite A. intros [= <- <-]. eauto. }
  assert (X4 : forall k e fuel limit rsize header ht lt, open_stream u k -> p = entry_p (path k) fuel limit rsize header ht lt -> LT e lt ->
    forall q w, stream u' = Some (q, w) -> on_disk u' q <> None /\ exists k, q = path k 0).
  { intros k e fuel limit rsize header ht lt (w & E) -> _. destruct (proj1 He _ _ E) as [X _]. destruct (on_disk u (path k 0)) as [c|] eqn:Ec; [|congruence].
    assert (C0 : logical u (path k 0) = Some (c ++ w)) by (rewrite (logical_at peqb Peq _ _ _ E), Ec; reflexivity).
    assert (Rd : ready peqb (path k) (logical u) (pending k u) u).
    { exists w. rewrite (pending_here _ _ _ E). split; [exact E|]. split; [lia|]. split; [congruence|reflexivity]. }
    destruct (triple_entry peqb Peq (path k) (inj_at k) fuel limit rsize header ht lt (logical u) (c ++ w) (pending k u) C0 _ _ _ Rd Ru) as [I0 _].
    destruct I0 as [(v & A1 & _ & A3 & _)|[(A1 & _)|(done & rest & D1 & c1 & n1 & v & _ & _ & A1 & _ & A3 & _)]]; [|apply X2, A1|];
      intros q y; rewrite A1; intros [= <- <-]; eauto. }
  destruct Ep as [k'|k' e fuel limit rsize header ht lt Hl Hr Hh Ht Hlt|k' Op|k' e fuel limit rsize header ht lt Wr Hl Hr Hh Ht Hlt|k' n| |ev Nv].
  - destruct (triple_open_p k' u _ _ _ Sh0 Ru) as [[I0|[I0|I0]] _]; [apply X1, I0|apply X2, I0|apply (X3 k'), I0].
  - eapply X4; eauto.
  - destruct (triple_open_p k' u _ _ _ Sh0 Ru) as [[I0|[I0|I0]] _]; [apply X1, I0|apply X2, I0|apply (X3 k'), I0].
  - eapply X4; eauto. eapply held_writing; eauto.
  - destruct (triple_close_p u _ _ _ Sh0 Ru) as [[I0|I0] _]; [apply X1, I0|apply X2, I0].
  - destruct (triple_close_p u _ _ _ Sh0 Ru) as [[I0|I0] _]; [apply X1, I0|apply X2, I0].
  - destruct (triple_none u _ _ _ Sh0 Ru) as [I0 _]. apply X1, I0.
Qed.
Lemma step_held s ev s' u u' : held s u -> step ltb s ev s' -> posted ev u u' -> held s' u'.
Proof.
  intros (E & A & B & C) S (E' & Po). unfold held. split; [exact E'|]. clear E E'. revert A B C Po.
  cases S; cbn [pc dtor set_files set_pc set_logging set_level set_max set_flush set_discarded set_calls set_pend set_dtor set_now set_next posted];
    try rewrite D; try rewrite P.
  all: try (intros A B C Po; destruct (pc s); destruct (dtor s); cbn in *; repeat split; auto; discriminate).
  - intros A B C Po. assert (X : forall k, open_stream u k -> open_stream u' k) by (destruct (should_log s x); exact Po).
    destruct (pc s), (dtor s); auto.
  - intros A B C Po. assert (X : forall k, open_stream u k -> open_stream u' k) by (destruct (accepts ltb x s); exact Po).
    destruct (add_frame ltb x s) as (-> & -> & _). destruct (pc s), (dtor s); auto.
  - intros A B C Po. destruct (logging s); [destruct sw|]; destruct (dtor s); cbn; auto; discriminate.
  - intros A B C Po. destruct (next_file ltb p (lfiles s)) as [[k b]|]; [destruct (negb _ && _)|]; destruct (dtor s); auto; discriminate.
  - intros A B C Po. destruct (next_file ltb p (lfiles s)) as [[k b]|]; [destruct (Nat.eqb _ _)|]; destruct (pc s); auto; discriminate.
Qed.
Lemma csystem_exec s0 d0 tr s u : csystem s0 d0 tr s u -> exec ltb s0 tr s.
Proof. intros S. induction S; [constructor|econstructor; eauto]. Qed.
Lemma csystem_held lvl max fl clock d0 tr s u : csystem (initial lvl max fl clock) d0 tr s u -> held s u.
Proof.
  intros S. remember (initial lvl max fl clock) as s0 eqn:E. induction S as [|tr s u e s' u' o p S IH St Ep Ru].
  - subst. repeat split; discriminate.
  - eapply step_held; [exact IH|exact St|]. eapply (event_reach s e u o p u' (End o)); eauto. eapply held_needs; eauto.
Qed.

(** ** What is in the files of log file [k] *)
Section Tracked.
Variables (m : mode) (k : K) (T0 : bytes).
Hypothesis Fits : forall limit rsize, L limit -> R rsize -> fits m limit rsize.
Definition tracked (n : nat) (W : bytes) u : Prop :=
  exists T, all_text (path k) (logical u) T /\ rel m T (T0 ++ W) /\ room (path k) m (logical u) /\ n + pending k u <= length W.
Lemma room_ext d d' : (forall i, d' (path k i) = d (path k i)) -> room (path k) m d -> room (path k) m d'.
Proof. intros E. destruct m; cbn; auto. intros X i Hi. rewrite E. auto. Qed.
Lemma room_zero d d' : (forall i, 0 < i -> d' (path k i) = d (path k i)) -> room (path k) m d -> room (path k) m d'.
Proof. intros E. destruct m; cbn; auto. intros X i Hi. rewrite E by lia. auto. Qed.
Lemma put_zero x d i : 0 < i -> put_at (path k 0) x d (path k i) = d (path k i).
Proof. intros Hi. apply (bput_other peqb Peq). intros X. apply inj_at in X. lia. Qed.
Lemma blocks_one (e : entry K M) b : block_of HT LT e b -> blocks HT LT [e] b.
Proof. intros B. rewrite <- (app_nil_r b). constructor; [exact B|constructor]. Qed.
Lemma block_ok e header ht lt n : HT ht -> LT e lt -> block_of HT LT e (block header ht lt n).
Proof.
  intros A B. exists lt. split; [exact B|]. unfold block. destruct (header && (n =? 0)); [right; exists ht; split; [exact A|rewrite <- app_assoc; reflexivity]|left; reflexivity].
Qed.
Lemma summary_tracked ev u u' fin n W : tracked n W u -> summary k ev u u' fin ->
  exists Wd es, prefix es (written_in ltb k ev) /\ torn HT LT es Wd /\ tracked n (W ++ Wd) u' /\ (fin = true -> blocks HT LT (written_in ltb k ev) Wd).
Proof.
  intros (T & A1 & A2 & A3 & A4) Su.
  assert (None0 : forall T', all_text (path k) (logical u') T' -> rel m T' (T0 ++ W) -> room (path k) m (logical u') -> n + pending k u' <= length W ->
    (fin = true -> written_in ltb k ev = []) ->
    exists Wd es, prefix es (written_in ltb k ev) /\ torn HT LT es Wd /\ tracked n (W ++ Wd) u' /\ (fin = true -> blocks HT LT (written_in ltb k ev) Wd)).
  { intros T' B1 B2 B3 B4 B5. exists [], []. split; [eexists; reflexivity|]. split; [exists [], [], []; split; [constructor|]; auto|]. rewrite app_nil_r.
    split; [exists T'; auto|]. intros X. rewrite (B5 X). constructor. }
  destruct Su as [(B1 & B2 & B3)|[(limit & rsize & c0 & Hl & Hr & C0 & Ro & B3)|(e & limit & rsize & header & ht & lt & c0 & done & rest & -> & Hl & Hr & Hh & Ht & Hlt & C0 & Em & Rt)]].
  - destruct B2 as [B2|(B2 & B4 & B5)].
    + apply (None0 T); auto; [eapply all_text_ext; [exact B2|exact A1]|eapply room_ext; [exact B2|exact A3]|lia].
    + apply (None0 T); auto; [|eapply room_zero; [|exact A3]; intros i Hi; rewrite B5; apply put_zero, Hi|lia].
      rewrite <- (app_nil_r T). eapply (all_text_last (path k) (logical u)); [exact A1|rewrite B4; reflexivity| |].
      * rewrite B5, (bput_same peqb Peq). reflexivity.
      * intros i Hi. rewrite B5. apply put_zero, Hi.
  - destruct Ro as (R1 & R2 & D1 & R3 & R4).
    destruct (moves_text peqb Peq (path k) (inj_at k) m limit rsize _ _ R3 (Fits _ _ Hl Hr) ltac:(lia) T A3 A1) as (T1 & M1 & M2 & M3).
    assert (Lg : forall q, logical u' q = on_disk u' q) by (intros q; unfold CrashProofs.logical; rewrite R1; reflexivity).
    apply (None0 T1); auto; [|eapply rel_trans; [exact M2|exact A2]| |rewrite (pending_none k u' R1); lia].
    + destruct R4 as [R4|(R4 & R5)].
      * eapply all_text_ext; [|exact M1]. intros i. rewrite Lg. apply R4.
      * rewrite <- (app_nil_r T1). eapply (all_text_last (path k) D1); [exact M1|rewrite R4; reflexivity| |].
        -- rewrite Lg, R5, (bput_same peqb Peq). reflexivity.
        -- intros i Hi. rewrite Lg, R5. apply put_zero, Hi.
    + destruct R4 as [R4|(R4 & R5)]; [eapply room_ext; [|exact M3]; intros i; rewrite Lg; apply R4|].
      eapply room_zero; [|exact M3]. intros i Hi. rewrite Lg, R5. apply put_zero, Hi.
  - destruct Em as (D1 & c1 & n1 & w & Or & Bl & E1 & E2 & _ & E3).
    assert (X : exists T1, all_text (path k) D1 T1 /\ rel m T1 T /\ room (path k) m D1 /\ content (D1 (path k 0)) = c1 /\ n1 <= pending k u).
    { destruct Or as [(-> & -> & _ & Eq)|(-> & -> & Rs & Mv & D10)].
      - exists T. split; [eapply all_text_ext; [|exact A1]; intros i; apply Eq|]. split; [apply rel_refl|]. split; [eapply room_ext; [|exact A3]; intros i; apply Eq|].
        split; [rewrite Eq, C0; reflexivity|lia].
      - destruct (moves_text peqb Peq (path k) (inj_at k) m limit rsize _ _ Mv (Fits _ _ Hl Hr) ltac:(lia) T A3 A1) as (T1 & M1 & M2 & M3).
        exists T1. split; [exact M1|]. split; [exact M2|]. split; [exact M3|]. rewrite D10. split; [reflexivity|lia]. }
    destruct X as (T1 & X1 & X2 & X3 & X4 & X5).
    assert (We : written_in ltb k (EWrite k e) = [e]) by (cbn; rewrite (equivb_refl ltb O); reflexivity).
    pose proof (block_ok e header ht lt (length c1) Ht Hlt) as Bo. rewrite Bl in Bo.
    exists done, [e]. rewrite We. split; [exists []; reflexivity|]. split; [exists [], [], done; split; [constructor|]; split; [reflexivity|]; right; exists e, (done ++ rest); split; [reflexivity|]; split; [exact Bo|exists rest; reflexivity]|].
    split; [|intros Fi; rewrite (Rt Fi), app_nil_r in Bo; apply blocks_one, Bo].
    exists (T1 ++ done). split; [|split; [|split]].
    + eapply (all_text_last (path k) D1); [exact X1|exact X4|rewrite E3, (bput_same peqb Peq); reflexivity|]. intros i Hi. rewrite E3. apply put_zero, Hi.
    + rewrite app_assoc. apply rel_app. eapply rel_trans; [exact X2|exact A2].
    + eapply room_zero; [|exact X3]. intros i Hi. rewrite E3. apply put_zero, Hi.
    + rewrite (pending_here _ _ _ E1), app_length. lia.
Qed.
Lemma tracked_disk n W u : (forall p w, stream u = Some (p, w) -> on_disk u p <> None /\ exists k, p = path k 0) -> tracked n W u ->
  exists T j, all_text (path k) (on_disk u) T /\ n <= j <= length W /\ rel m T (T0 ++ firstn j W) /\ room (path k) m (on_disk u).
Proof.
  intros E (T & A1 & A2 & A3 & A4).
  assert (Sm : (forall i, on_disk u (path k i) = logical u (path k i)) -> exists T j, all_text (path k) (on_disk u) T /\ n <= j <= length W /\ rel m T (T0 ++ firstn j W) /\ room (path k) m (on_disk u)).
  { intros Eq. exists T, (length W). rewrite firstn_all. split; [eapply all_text_ext; eauto|]. split; [lia|]. split; [exact A2|]. eapply room_ext; eauto. }
  destruct (stream u) as [[p w]|] eqn:Es; [|apply Sm; intros i; unfold CrashProofs.logical; rewrite Es; reflexivity].
  destruct (E p w eq_refl) as (Ex & k' & ->). destruct (key_dec ltb O k k') as [<-|N].
  2:{ apply Sm. intros i. symmetry. apply (logical_off peqb Peq _ _ _ _ Es). apply differ, N. }
  destruct (on_disk u (path k 0)) as [c|] eqn:Ec; [|congruence].
  assert (Lc : logical u (path k 0) = Some (c ++ w)) by (rewrite (logical_at peqb Peq _ _ _ Es), Ec; reflexivity).
  assert (Lo : forall i, 0 < i -> on_disk u (path k i) = logical u (path k i)).
  { intros i Hi. symmetry. apply (logical_off peqb Peq _ _ _ _ Es). intros X. apply inj_at in X. lia. }
  destruct (all_text_first (path k) _ _ _ A1 Lc) as (T' & -> & X). specialize (X (on_disk u) c Ec Lo).
  rewrite (pending_here _ _ _ Es) in A4. exists (T' ++ c), (length W - length w). split; [exact X|]. split; [lia|]. split.
  - apply (rel_drop m _ _ w (skipn (length W - length w) W)); [rewrite skipn_length; lia|]. rewrite <- !app_assoc, firstn_skipn. exact A2.
  - eapply room_zero; [|exact A3]. intros i Hi. apply Lo, Hi.
Qed.

(** blocks *)
Lemma blocks_app es1 w1 es2 w2 : blocks HT LT es1 w1 -> blocks HT LT es2 w2 -> blocks HT LT (es1 ++ es2) (w1 ++ w2).
Proof. intros A B. induction A; cbn; [exact B|]. rewrite <- app_assoc. constructor; auto. Qed.
Lemma torn_app es1 w1 es2 w2 : blocks HT LT es1 w1 -> torn HT LT es2 w2 -> torn HT LT (es1 ++ es2) (w1 ++ w2).
Proof.
  intros A (es & w & t & B1 & -> & B2). exists (es1 ++ es), (w1 ++ w), t. split; [apply blocks_app; auto|]. split; [rewrite app_assoc; reflexivity|].
  destruct B2 as [(-> & ->)|(e & b & -> & B2)]; [left; auto|right; exists e, b; rewrite app_assoc; auto].
Qed.
Lemma blocks_torn es w : blocks HT LT es w -> torn HT LT es w.
Proof. intros A. exists es, w, []. rewrite app_nil_r. auto. Qed.
Lemma torn_nil : torn HT LT [] [].
Proof. apply blocks_torn. constructor. Qed.
Lemma prefix_refl' {A} (l : list A) : prefix l l.
Proof. exists []. rewrite app_nil_r. reflexivity. Qed.
Lemma torn_firstn es w n : torn HT LT es w -> exists es', prefix es' es /\ torn HT LT es' (firstn n w).
Proof.
  intros (es1 & w1 & t & A & -> & B). revert n. induction A as [|e es1 b w1 Hb A IH] in es, B |- *; intros n.
  - cbn [app]. destruct B as [(-> & ->)|(e & b & -> & B1 & r & B2)]; [exists []; rewrite firstn_nil; split; [apply prefix_refl'|apply torn_nil]|].
    exists [e]. split; [apply prefix_refl'|]. exists [], [], (firstn n t). split; [constructor|]. split; [reflexivity|]. right. exists e, b. split; [reflexivity|]. split; [exact B1|].
    exists (skipn n t ++ r). rewrite app_assoc, firstn_skipn. exact B2.
  - destruct (Nat.le_gt_cases (length b) n) as [Le|Gt].
    + destruct (IH (match es with [] => [] | _ :: es => es end)) with (n := n - length b) as (es' & (r & P1) & P2).
      { destruct B as [(-> & ->)|(e' & b' & -> & B')]; [left; auto|right; exists e', b'; auto]. }
      assert (Ec : es = e :: match es with [] => [] | _ :: es => es end) by (destruct B as [(-> & _)|(e' & b' & -> & _)]; reflexivity).
      exists (e :: es'). split; [exists r; cbn; rewrite <- P1; exact Ec|].
      rewrite <- app_assoc. rewrite firstn_app. rewrite (firstn_all2 b) by exact Le. change (e :: es') with ([e] ++ es'). apply torn_app; [apply blocks_one, Hb|exact P2].
    + exists [e]. split; [destruct B as [(-> & _)|(e' & b' & -> & _)]; eexists; reflexivity|]. rewrite <- app_assoc, firstn_app.
      replace (n - length b) with 0 by lia. cbn [firstn]. rewrite app_nil_r. exists [], [], (firstn n b). split; [constructor|]. split; [reflexivity|]. right. exists e, b.
      split; [reflexivity|]. split; [exact Hb|]. exists (skipn n b). rewrite firstn_skipn. reflexivity.
Qed.
Lemma written_snoc tr ev : written_to ltb k (tr ++ [ev]) = written_to ltb k tr ++ written_in ltb k ev.
Proof. unfold written_to. apply flat_map_snoc. Qed.
Lemma closing_stream ev u u' : posted ev u u' -> closing ev -> stream u' = None.
Proof. intros (_ & A) B. destruct ev; contradiction || exact A. Qed.
Lemma csystem_tracked lvl max fl clock d0 tr s u : csystem (initial lvl max fl clock) d0 tr s u -> all_text (path k) d0 T0 -> room (path k) m d0 ->
  forall tr1 tr2, tr = tr1 ++ tr2 -> after_closing tr1 ->
  exists W1 W2, blocks HT LT (written_to ltb k tr1) W1 /\ blocks HT LT (written_to ltb k tr2) W2 /\ tracked (length W1) (W1 ++ W2) u.
Proof.
  intros S A0 Ro. induction S as [|tr s u e s' u' o p S IH St Ep Ru]; intros tr1 tr2 Etr Cl.
  - symmetry in Etr. apply app_eq_nil in Etr. destruct Etr as [-> ->]. exists [], []. split; [constructor|]. split; [constructor|].
    exists T0. cbn. rewrite app_nil_r. split; [exact A0|]. split; [apply rel_refl|]. split; [exact Ro|lia].
  - pose proof (csystem_held _ _ _ _ _ _ _ _ S) as He.
    destruct (event_reach s e u o p u' (End o) He (held_needs _ _ _ _ He St) Ep Ru (or_intror eq_refl)) as [Su Po]. specialize (Po eq_refl).
    destruct tr2 as [|x tr2 _] using rev_ind.
    + rewrite app_nil_r in Etr. subst tr1. destruct (IH [] tr eq_refl (or_introl eq_refl)) as (W1 & W2 & I1 & I2 & I3).
      destruct (summary_tracked _ _ _ _ _ _ I3 (Su k true (fun _ => eq_refl))) as (Wd & es & _ & _ & (T & Y1 & Y2 & Y3 & Y4) & X). specialize (X eq_refl).
      inversion I1; subst W1. cbn [app] in *. exists (W2 ++ Wd), []. split; [rewrite written_snoc; apply blocks_app; auto|]. split; [constructor|].
      exists T. rewrite app_nil_r. split; [exact Y1|]. split; [exact Y2|]. split; [exact Y3|].
      destruct Cl as [Cl|(tr' & ev & Cl & Cg)]; [destruct tr; discriminate|]. apply app_inj_tail in Cl. destruct Cl as [_ <-].
      rewrite (pending_none k u' (closing_stream _ _ _ Po Cg)). lia.
    + rewrite app_assoc in Etr. apply app_inj_tail in Etr. destruct Etr as [-> <-].
      destruct (IH tr1 tr2 eq_refl Cl) as (W1 & W2 & I1 & I2 & I3).
      destruct (summary_tracked _ _ _ _ _ _ I3 (Su k true (fun _ => eq_refl))) as (Wd & es & _ & _ & I4 & X). specialize (X eq_refl).
      exists W1, (W2 ++ Wd). split; [exact I1|]. split; [rewrite written_snoc; apply blocks_app; auto|]. rewrite app_assoc. exact I4.
Qed.
Lemma crash_tracked lvl max fl clock d0 tr s ev d : crashed peqb path ltb L R H HT LT (initial lvl max fl clock) d0 tr s ev d ->
  all_text (path k) d0 T0 -> room (path k) m d0 ->
  forall tr1 tr2, tr = tr1 ++ tr2 -> after_closing tr1 ->
  exists T W1 w2 es, all_text (path k) d T /\ blocks HT LT (written_to ltb k tr1) W1 /\ prefix es (written_to ltb k (tr2 ++ [ev])) /\ torn HT LT es w2 /\
  rel m T (T0 ++ W1 ++ w2) /\ room (path k) m d.
Proof.
  intros [u s' p u' p' S St Ep Ru ->] A0 Ro tr1 tr2 Etr Cl.
  destruct (csystem_tracked _ _ _ _ _ _ _ _ S A0 Ro tr1 tr2 Etr Cl) as (W1 & W2 & I1 & I2 & I3).
  pose proof (csystem_held _ _ _ _ _ _ _ _ S) as He.
  destruct (event_reach s ev u Done p u' p' He (held_needs _ _ _ _ He St) Ep Ru (or_introl eq_refl)) as [Su _].
  destruct (summary_tracked _ _ _ _ _ _ I3 (Su k false (fun X => ltac:(discriminate)))) as (Wd & es & (r & Pe) & To & Tr & _).
  destruct (tracked_disk _ _ _ (event_streams _ _ _ _ _ _ _ He (held_needs _ _ _ _ He St) Ep Ru) Tr) as (T & j & D1 & D2 & D3 & D4).
  pose proof (torn_app _ _ _ _ I2 To) as To2. destruct (torn_firstn _ _ (j - length W1) To2) as (es' & (r' & P1) & P2).
  exists T, W1, (firstn (j - length W1) (W2 ++ Wd)), es'. split; [exact D1|]. split; [exact I1|]. split; [|split; [exact P2|split; [|exact D4]]].
  - rewrite written_snoc, Pe, app_assoc, P1. eexists. rewrite <- app_assoc. reflexivity.
  - rewrite <- app_assoc, firstn_app, (firstn_all2 W1) in D3 by lia. exact D3.
Qed.
End Tracked.
End System.
