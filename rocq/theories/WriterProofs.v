(** Proofs about writers that throw and about where the file is. *)
From Coq Require Import List Bool Arith String Lia.
From Verif Require Import LoggerModel LoggerSpec LogFileModel LogFileSpec LogFileProofs WriterModel WriterSpec.
Import ListNotations.

Section Proofs.
Context {P E : Type} (peqb : P -> P -> bool) (eqb_ok : forall p q, peqb p q = true <-> p = q).
Notation disk := (@disk P E).
Notation content := (list (chunk E)).
Implicit Types (d : disk) (path : nat -> P) (j : job E) (l : list (job E)).
Notation emit_w := (emit_w peqb).
Notation write_entry_w := (write_entry_w peqb).
Notation write_all_w := (write_all_w peqb).

Lemma eqb_self p : peqb p p = true.
Proof. apply eqb_ok. reflexivity. Qed.
Lemma add_at path c d c0 : d (path 0) = Some c0 -> add peqb path c d (path 0) = Some (c0 ++ [c]).
Proof. intros H. unfold add, append, set_file. rewrite eqb_self, H. reflexivity. Qed.
Lemma lines_app (c c' : content) : lines_of (c ++ c') = lines_of c ++ lines_of c'.
Proof. apply flat_map_app. Qed.

(** one entry without rotation *)
Lemma emit_lines path header j d c o p d' : d (path 0) = Some c -> emit_w path header j d = (o, p, d') ->
  exists c1, d' (path 0) = Some (c ++ c1) /\ lines_of c1 = (match o with Ended => [j_entry j] | _ => [] end) /\
  (o = Ended -> p = true) /\ o <> Unfinished /\ (p = true -> o <> Ended -> forall t, j_line j <> Wrote t).
Proof.
  intros H X. unfold WriterModel.emit_w in X.
  assert (Line : forall d1 c1, d1 (path 0) = Some (c ++ c1) -> lines_of c1 = [] ->
    match j_line j with Wrote t => (Ended, true, add peqb path (Line (j_entry j) t) d1) | FsError t => (Caught, true, add peqb path (Old t) d1)
    | OtherError t => (Terminated, true, add peqb path (Old t) d1) end = (o, p, d') ->
    exists c1, d' (path 0) = Some (c ++ c1) /\ lines_of c1 = (match o with Ended => [j_entry j] | _ => [] end) /\
    (o = Ended -> p = true) /\ o <> Unfinished /\ (p = true -> o <> Ended -> forall t, j_line j <> Wrote t)).
  { intros d1 c1 H1 L1 Y. destruct (j_line j) as [t|t|t] eqn:J; injection Y as <- <- <-; rewrite (add_at _ _ _ _ H1); eexists; rewrite <- app_assoc; (split; [reflexivity|]); rewrite lines_app, L1; repeat split; congruence. }
  destruct (header && (size_at (path 0) d =? 0)).
  - destruct (j_head j) as [t|t|t].
    + apply (Line _ [Head t]) in X; [exact X|apply add_at, H|reflexivity].
    + injection X as <- <- <-. rewrite (add_at _ _ _ _ H). exists [Old t]. repeat split; congruence.
    + injection X as <- <- <-. rewrite (add_at _ _ _ _ H). exists [Old t]. repeat split; congruence.
  - apply (Line _ []) in X; [exact X|rewrite app_nil_r; exact H|reflexivity].
Qed.
Lemma all_lines_w path fuel header l : forall d c o n d', d (path 0) = Some c -> write_all_w path fuel 0 header l d = (o, n, d') ->
  exists c1 k, d' (path 0) = Some (c ++ c1) /\ lines_of c1 = map j_entry (firstn k l) /\ n <= List.length l /\ (o = Ended -> n = List.length l) /\
  (n = k \/ n = S k /\ o <> Ended /\ exists j, nth_error l k = Some j /\ forall t, j_line j <> Wrote t).
Proof.
  induction l as [|j l IH]; intros d c o n d' H X; cbn in X.
  - injection X as <- <- <-. exists [], 0. rewrite app_nil_r. repeat split; [exact H|apply le_n|left; reflexivity].
  - unfold WriterModel.write_entry_w in X. cbn in X. destruct (emit_w path header j d) as [[o1 p1] d1] eqn:Em. destruct (emit_lines path header j d c o1 p1 d1 H Em) as (c1 & H1 & L1 & A & B & C).
    destruct o1; [destruct (write_all_w path fuel 0 header l d1) as [[o2 n2] d2] eqn:W; injection X as <- <- <-|..|congruence].
    + destruct (IH d1 _ o2 n2 d2 H1 W) as (c2 & k & H2 & L2 & N & Fin & D). exists (c1 ++ c2), (S k). rewrite app_assoc, lines_app, L1, L2. cbn. repeat split; [exact H2|lia|intros; f_equal; auto|].
      destruct D as [->|(-> & D1 & D2)]; [left; reflexivity|right]. split; [reflexivity|]. auto.
    + injection X as <- <- <-. exists c1, 0. rewrite L1. cbn. repeat split; [exact H1|destruct p1; lia|discriminate|]. destruct p1; [right|left; reflexivity]. split; [reflexivity|]. split; [discriminate|]. exists j. split; [reflexivity|]. apply C; [reflexivity|discriminate].
    + injection X as <- <- <-. exists c1, 0. rewrite L1. cbn. repeat split; [exact H1|destruct p1; lia|discriminate|]. destruct p1; [right|left; reflexivity]. split; [reflexivity|]. split; [discriminate|]. exists j. split; [reflexivity|]. apply C; [reflexivity|discriminate].
Qed.
Lemma open_at0 path d : open_file peqb (path 0) d (path 0) = Some (match d (path 0) with Some c => c | None => [] end).
Proof. unfold open_file. destruct (d (path 0)) as [c|] eqn:H; [exact H|]. unfold set_file. rewrite eqb_self. reflexivity. Qed.
Lemma batch_lines path fuel header l d o n d' : write_batch_w peqb path fuel 0 header l d = (o, n, d') ->
  exists c1 k, d' (path 0) = Some (match d (path 0) with Some c => c | None => [] end ++ c1) /\ lines_of c1 = map j_entry (firstn k l) /\
  n <= List.length l /\ (o = Ended -> n = List.length l) /\
  (n = k \/ n = S k /\ o <> Ended /\ exists j, nth_error l k = Some j /\ forall t, j_line j <> Wrote t).
Proof. intros X. eapply all_lines_w; [apply open_at0|exact X]. Qed.
Lemma batch_good path fuel header l d o n d' : (forall j, In j l -> exists t, j_line j = Wrote t) -> write_batch_w peqb path fuel 0 header l d = (o, n, d') ->
  exists c1, d' (path 0) = Some (match d (path 0) with Some c => c | None => [] end ++ c1) /\ lines_of c1 = map j_entry (firstn n l).
Proof.
  intros G X. destruct (batch_lines path fuel header l d o n d' X) as (c1 & k & H1 & H2 & _ & _ & [->|(-> & _ & j & J & W)]); [eauto|].
  apply nth_error_In, G in J. destruct J as (t & J). destruct (W t J).
Qed.

(** what makes the program terminate *)
Lemma entry_terminates path fuel rsize header j d p d' : write_entry_w path fuel rsize header j d = (Terminated, p, d') -> only_fs (j_head j) -> only_fs (j_line j) -> False.
Proof.
  intros X G1 G2. assert (K : forall d1, emit_w path header j d1 <> (Terminated, p, d')).
  { intros d1 Y. unfold WriterModel.emit_w in Y. destruct (header && (size_at (path 0) d1 =? 0)); [destruct (j_head j) as [t|t|t] eqn:J|]; try discriminate; try (destruct (G1 t eq_refl)); destruct (j_line j) as [u|u|u] eqn:J'; try discriminate; destruct (G2 u eq_refl). }
  unfold WriterModel.write_entry_w in X. destruct (negb (rsize =? 0) && (rsize <=? size_at (path 0) d)); [|apply K in X; exact X].
  destruct (rotate peqb path (j_ok j) (j_limit j) fuel 0 d) as [[[] c] d1]; try discriminate. destruct (j_ok j c); [apply K in X; exact X|discriminate].
Qed.
Lemma all_terminates path fuel rsize header l : forall d n d', write_all_w path fuel rsize header l d = (Terminated, n, d') ->
  ~ (forall j, In j l -> only_fs (j_head j) /\ only_fs (j_line j)).
Proof.
  induction l as [|j l IH]; intros d n d' X G; cbn in X; [discriminate|]. destruct (write_entry_w path fuel rsize header j d) as [[o p] d1] eqn:W. destruct o.
  - destruct (write_all_w path fuel rsize header l d1) as [[o2 n2] d2] eqn:W2. injection X as -> <- <-. apply (IH _ _ _ W2). intros k I. apply G. right. exact I.
  - discriminate.
  - destruct (G j (or_introl eq_refl)) as [G1 G2]. eapply entry_terminates; eassumption.
  - discriminate.
Qed.
Lemma terminates_only path fuel rsize header l d n d' : (forall j, In j l -> only_fs (j_head j) /\ only_fs (j_line j)) ->
  write_batch_w peqb path fuel rsize header l d <> (Terminated, n, d').
Proof. intros G X. apply (all_terminates _ _ _ _ _ _ _ _ X G). Qed.
Lemma terminates_always path fuel header l1 j t l2 d : (forall i, In i l1 -> exists u v, j_head i = Wrote u /\ j_line i = Wrote v) ->
  (exists u, j_head j = Wrote u) -> j_line j = OtherError t ->
  exists d', write_batch_w peqb path fuel 0 header (l1 ++ j :: l2) d = (Terminated, S (List.length l1), d').
Proof.
  intros G (u & Hu) Hj. unfold write_batch_w. generalize (open_file peqb (path 0) d). clear d. induction l1 as [|i l1 IH]; intros d; cbn.
  - unfold WriterModel.write_entry_w, WriterModel.emit_w. cbn. rewrite Hu, Hj. destruct (header && (size_at (path 0) d =? 0)); eauto.
  - unfold WriterModel.write_entry_w. cbn. unfold WriterModel.emit_w. destruct (G i (or_introl eq_refl)) as (v & w & Hv & Hw). rewrite Hv, Hw.
    assert (G' : forall i0, In i0 l1 -> exists u v, j_head i0 = Wrote u /\ j_line i0 = Wrote v) by (intros; apply G; right; assumption).
    destruct (header && (size_at (path 0) d =? 0)); match goal with |- context [write_all_w path fuel 0 header (l1 ++ j :: l2) ?x] => destruct (IH G' x) as (d' & ->) end; eauto.
Qed.

Lemma header_terminates path fuel j t l d : d (path 0) = None \/ d (path 0) = Some [] -> j_head j = OtherError t ->
  exists d', write_batch_w peqb path fuel 0 true (j :: l) d = (Terminated, 0, d').
Proof.
  intros H J. unfold write_batch_w. cbn. unfold WriterModel.write_entry_w. cbn. unfold WriterModel.emit_w.
  assert (O : open_file peqb (path 0) d (path 0) = Some []) by (rewrite open_at0; destruct H as [->| ->]; reflexivity).
  unfold size_at at 1. rewrite O. cbn. rewrite J. eauto.
Qed.

(** the header *)
Lemma head_again path fuel j l d : d (path 0) = None \/ d (path 0) = Some [] -> j_head j = FsError "" ->
  exists d', write_batch_w peqb path fuel 0 true (j :: l) d = (Caught, 0, d') /\ size_at (path 0) d' = 0 /\ d' (path 0) <> None.
Proof.
  intros H J. unfold write_batch_w. cbn. unfold WriterModel.write_entry_w. cbn. unfold WriterModel.emit_w.
  assert (O : open_file peqb (path 0) d (path 0) = Some []) by (rewrite open_at0; destruct H as [->| ->]; reflexivity).
  unfold size_at at 1. rewrite O. cbn. rewrite J. eexists. split; [reflexivity|]. unfold size_at. rewrite (add_at _ _ _ [] O). cbn. split; [reflexivity|discriminate].
Qed.
Lemma head_first path fuel j l d t u : size_at (path 0) d = 0 -> d (path 0) <> None -> j_head j = Wrote t -> j_line j = Wrote u ->
  exists o n d' c c', write_batch_w peqb path fuel 0 true (j :: l) d = (o, n, d') /\ d (path 0) = Some c /\ size c = 0 /\
  d' (path 0) = Some (c ++ Head t :: Line (j_entry j) u :: c').
Proof.
  intros Z N J1 J2. destruct (d (path 0)) as [c|] eqn:H; [|congruence]. unfold write_batch_w. cbn. unfold WriterModel.write_entry_w. cbn. unfold WriterModel.emit_w.
  assert (O : open_file peqb (path 0) d (path 0) = Some c) by (rewrite open_at0, H; reflexivity).
  unfold size_at in Z |- *. rewrite H in Z. rewrite O, Z. cbn. rewrite J1, J2.
  destruct (write_all_w path fuel 0 true l (add peqb path (Line (j_entry j) u) (add peqb path (Head t) (open_file peqb (path 0) d)))) as [[o n] d'] eqn:W.
  assert (H2 : add peqb path (Line (j_entry j) u) (add peqb path (Head t) (open_file peqb (path 0) d)) (path 0) = Some ((c ++ [Head t]) ++ [Line (j_entry j) u])) by (apply add_at, add_at, O).
  destruct (all_lines_w path fuel true l _ _ _ _ _ H2 W) as (c1 & k & H3 & _). exists o, (S n), d', c, c1. rewrite H3, <- !app_assoc. repeat split. exact Z.
Qed.

(** writers that do not throw: the model of LogFileModel.v *)
Lemma emit_plain path header j d t u : j_head j = Wrote t -> j_line j = Wrote u -> emit_w path header j d = (Ended, true, emit peqb path header t u (j_entry j) d).
Proof. intros A B. unfold WriterModel.emit_w, emit, add. rewrite A, B. destruct (header && (size_at (path 0) d =? 0)); reflexivity. Qed.
Lemma all_plain path fuel rsize header l : forall d, (forall j, In j l -> exists t u, j_head j = Wrote t /\ j_line j = Wrote u) ->
  write_all_w path fuel rsize header l d = match write_all peqb path fuel rsize header (map item_of l) d with (o, n, d') => (ending_of o, n, d') end.
Proof.
  induction l as [|j l IH]; intros d G; [reflexivity|]. cbn. destruct (G j (or_introl eq_refl)) as (t & u & A & B). unfold WriterModel.write_entry_w, write_entry. rewrite A, B. cbn [text_of].
  assert (G' : forall j, In j l -> exists t u, j_head j = Wrote t /\ j_line j = Wrote u) by (intros; apply G; right; assumption).
  destruct (negb (rsize =? 0) && (rsize <=? size_at (path 0) d)).
  - destruct (rotate peqb path (j_ok j) (j_limit j) fuel 0 d) as [[[] c] d1]; try reflexivity. destruct (j_ok j c); [|reflexivity]. rewrite (emit_plain path header j _ t u A B), IH by exact G'.
    destruct (write_all peqb path fuel rsize header (map item_of l) (emit peqb path header t u (j_entry j) (open_file peqb (path 0) d1))) as [[o n] d2]. reflexivity.
  - rewrite (emit_plain path header j _ t u A B), IH by exact G'. destruct (write_all peqb path fuel rsize header (map item_of l) (emit peqb path header t u (j_entry j) d)) as [[o n] d2]. reflexivity.
Qed.
Lemma batch_plain path fuel rsize header l d : (forall j, In j l -> exists t u, j_head j = Wrote t /\ j_line j = Wrote u) ->
  write_batch_w peqb path fuel rsize header l d = match write_batch peqb path fuel rsize header (map item_of l) d with (o, n, d') => (ending_of o, n, d') end.
Proof. apply all_plain. Qed.
End Proofs.

(** ** with rotation *)
Section Rotating.
Context {P E : Type} (peqb : P -> P -> bool) (eqb_ok : forall p q, peqb p q = true <-> p = q) (path : nat -> P) (inj : forall i j, path i = path j -> i = j).
Notation disk := (@disk P E).
Implicit Types (d : disk) (j : job E) (l : list (job E)).
Notation kept := (@kept P E path).
Notation batch_kept := (@batch_kept P E path).

Lemma add_kept ch d c limit rsize : d (path 0) = Some c -> kept limit rsize d (add peqb path ch d) (lines_of [ch]).
Proof.
  intros D0. pose proof (add_at peqb eqb_ok path ch d c D0) as E1.
  assert (E2 : forall p, p <> path 0 -> add peqb path ch d p = d p) by (intros p Hp; apply (set_other peqb eqb_ok), Hp).
  assert (E3 : forall i, 0 < i -> add peqb path ch d (path i) = d (path i)) by (intros i Hi; apply E2; intros X; apply inj in X; lia).
  split; [|split].
  - intros fs Hf. destruct (all_slack path _ _ 0 Hf) as (b & _ & B1 & B2 & ->). destruct (below_zero path b _ _ _ _ B1 D0 E1 E3) as (r & F1 & F2).
    assert (X : all_lines (files_below path b (add peqb path ch d)) = all_lines (files_below path b d) ++ lines_of [ch]).
    { rewrite F1, F2. unfold all_lines. rewrite !flat_map_app. cbn [flat_map]. rewrite !app_nil_r, <- app_assoc. f_equal. unfold lines_of. rewrite flat_map_app. reflexivity. }
    exists (files_below path b (add peqb path ch d)). rewrite X. split; [|split; [apply sub_refl|split; [intros _; apply suffix_refl|reflexivity]]].
    exists b. split; [|reflexivity]. intros i Hi. rewrite E3 by lia. apply B2. lia.
  - intros i Hi Di. rewrite E3 by lia. exact Di.
  - intros p Hp. apply E2, Hp.
Qed.
Definition wrote (o : ending) (j : job E) : list E := match o with Ended => [j_entry j] | _ => [] end.
Definition fair (o : ending) (p : bool) (j : job E) : Prop := (o = Ended -> p = true) /\ (p = true -> o <> Ended -> forall t, j_line j <> Wrote t).
Lemma emit_kept_w header j d o p d' limit rsize : d (path 0) <> None -> emit_w peqb path header j d = (o, p, d') ->
  kept limit rsize d d' (wrote o j) /\ d' (path 0) <> None /\ fair o p j.
Proof.
  intros D0 X. destruct (d (path 0)) as [c|] eqn:H; [clear D0|congruence]. unfold emit_w in X.
  assert (Line : forall d1 c1, kept limit rsize d d1 [] -> d1 (path 0) = Some c1 ->
    match j_line j with Wrote t => (Ended, true, add peqb path (Line (j_entry j) t) d1) | FsError t => (Caught, true, add peqb path (Old t) d1)
    | OtherError t => (Terminated, true, add peqb path (Old t) d1) end = (o, p, d') ->
    kept limit rsize d d' (wrote o j) /\ d' (path 0) <> None /\ fair o p j).
  { intros d1 c1 K1 H1 Y. destruct (j_line j) as [t|t|t] eqn:J; injection Y as <- <- <-; (split; [|split; [rewrite (add_at peqb eqb_ok path _ _ _ H1); discriminate|split; congruence]]);
      exact (kept_trans path limit rsize _ _ _ _ _ K1 (add_kept _ _ _ limit rsize H1)). }
  destruct (header && (size_at (path 0) d =? 0)).
  - destruct (j_head j) as [t|t|t].
    + apply (Line _ (c ++ [Head t])) in X; [exact X|exact (add_kept (Head t) d c limit rsize H)|apply (add_at peqb eqb_ok), H].
    + injection X as <- <- <-. split; [exact (add_kept (Old t) d c limit rsize H)|]. split; [rewrite (add_at peqb eqb_ok path _ _ _ H); discriminate|split; congruence].
    + injection X as <- <- <-. split; [exact (add_kept (Old t) d c limit rsize H)|]. split; [rewrite (add_at peqb eqb_ok path _ _ _ H); discriminate|split; congruence].
  - apply (Line d c) in X; [exact X|apply kept_same|exact H].
Qed.
Lemma entry_kept_w fuel rsize header j d o p d' : d (path 0) <> None -> write_entry_w peqb path fuel rsize header j d = (o, p, d') ->
  kept (j_limit j) rsize d d' (wrote o j) /\ (o = Ended -> d' (path 0) <> None) /\ fair o p j.
Proof.
  intros D0 X. unfold write_entry_w in X. destruct (negb (rsize =? 0) && (rsize <=? size_at (path 0) d)) eqn:B.
  - apply andb_true_iff in B. destruct B as [B _]. apply negb_true_iff, Nat.eqb_neq in B.
    destruct (rotate peqb path (j_ok j) (j_limit j) fuel 0 d) as [[o1 c1] d1] eqn:Ro. pose proof (rotate_kept peqb eqb_ok path inj _ _ _ _ _ _ _ rsize B Ro) as K.
    assert (Stop : forall o, o <> Ended -> kept (j_limit j) rsize d d1 (wrote o j) /\ (o = Ended -> d1 (path 0) <> None) /\ fair o false j).
    { intros o2 No. split; [destruct o2; [congruence|exact K..]|]. split; [congruence|split; [congruence|discriminate]]. }
    destruct o1; [destruct (j_ok j c1)|..]; [|injection X as <- <- <-; apply Stop; discriminate..].
    destruct (emit_kept_w header j (open_file peqb (path 0) d1) o p d' (j_limit j) rsize) with (2 := X) as (A & C & F); [rewrite (open_at0 peqb eqb_ok path d1); discriminate|].
    split; [|split; [intros _; exact C|exact F]]. change (wrote o j) with ([] ++ ([] ++ wrote o j)). apply (kept_trans path _ _ _ _ _ _ _ K). apply (kept_trans path _ _ _ _ _ _ _ (open_kept peqb eqb_ok path inj _ _ _) A).
  - destruct (emit_kept_w header j d o p d' (j_limit j) rsize D0 X) as (A & C & F). auto.
Qed.
Lemma all_kept_w fixed fuel rsize header l : forall d o n d', (forall lim j, fixed = Some lim -> In j l -> j_limit j = lim) -> d (path 0) <> None ->
  write_all_w peqb path fuel rsize header l d = (o, n, d') ->
  exists k, batch_kept fixed rsize d d' (map j_entry (firstn k l)) /\ n <= List.length l /\ (o = Ended -> n = List.length l) /\
  (n = k \/ n = S k /\ o <> Ended /\ exists j, nth_error l k = Some j /\ forall t, j_line j <> Wrote t).
Proof.
  induction l as [|j l IH]; intros d o n d' Fx D0 X; cbn in X.
  - injection X as <- <- <-. exists 0. split; [|repeat split; [apply le_n|left; reflexivity]]. apply (kept_batch path (match fixed with Some l => l | None => 0 end)); [intros x ->; reflexivity|apply kept_same].
  - destruct (write_entry_w peqb path fuel rsize header j d) as [[o1 p1] d1] eqn:We. destruct (entry_kept_w fuel rsize header j d o1 p1 d1 D0 We) as (K & D1 & F1 & F2).
    apply (kept_batch path _ fixed) in K; [|intros lim Hl; symmetry; apply (Fx lim j Hl); left; reflexivity].
    assert (Stop : o1 <> Ended -> (o1, if p1 then 1 else 0, d1) = (o, n, d') -> exists k, batch_kept fixed rsize d d' (map j_entry (firstn k (j :: l))) /\ n <= List.length (j :: l) /\ (o = Ended -> n = List.length (j :: l)) /\
      (n = k \/ n = S k /\ o <> Ended /\ exists i, nth_error (j :: l) k = Some i /\ forall t, j_line i <> Wrote t)).
    { intros No Y. injection Y as <- <- <-. exists 0. split; [destruct o1; [congruence|exact K..]|]. split; [cbn; destruct p1; lia|]. split; [congruence|].
      destruct p1; [right|left; reflexivity]. split; [reflexivity|]. split; [exact No|]. exists j. split; [reflexivity|]. apply F2; [reflexivity|exact No]. }
    destruct o1; [clear Stop|apply Stop in X; [exact X|discriminate]..].
    destruct (write_all_w peqb path fuel rsize header l d1) as [[o2 n2] d2] eqn:Wa. injection X as <- <- <-.
    destruct (IH d1 o2 n2 d2 (fun lim i Hl Hi => Fx lim i Hl (or_intror Hi)) (D1 eq_refl) Wa) as (k & A & B & C & D). exists (S k).
    split; [exact (batch_trans path _ _ _ _ _ _ _ K A)|]. split; [cbn; lia|]. split; [intros Ho; cbn; rewrite C by exact Ho; reflexivity|].
    destruct D as [->|(-> & D1' & D2)]; [left; reflexivity|right]. auto.
Qed.
Lemma batch_kept_w fixed fuel rsize header l d o n d' : (forall lim j, fixed = Some lim -> In j l -> j_limit j = lim) ->
  write_batch_w peqb path fuel rsize header l d = (o, n, d') ->
  exists k, batch_kept fixed rsize d d' (map j_entry (firstn k l)) /\ n <= List.length l /\ (o = Ended -> n = List.length l) /\
  (n = k \/ n = S k /\ o <> Ended /\ exists j, nth_error l k = Some j /\ forall t, j_line j <> Wrote t).
Proof.
  intros Fx X. destruct (all_kept_w fixed fuel rsize header l (open_file peqb (path 0) d) o n d' Fx) with (2 := X) as (k & A & B); [rewrite (open_at0 peqb eqb_ok path d); discriminate|].
  exists k. split; [|exact B]. change (map j_entry (firstn k l)) with ([] ++ map j_entry (firstn k l)). apply (batch_trans path _ _ _ (open_file peqb (path 0) d)); [|exact A].
  apply (kept_batch path (match fixed with Some l => l | None => 0 end)); [intros x ->; reflexivity|apply (open_kept peqb eqb_ok path inj)].
Qed.
Lemma batch_kept_good fixed fuel rsize header l d o n d' : (forall lim j, fixed = Some lim -> In j l -> j_limit j = lim) ->
  (forall j, In j l -> exists t, j_line j = Wrote t) -> write_batch_w peqb path fuel rsize header l d = (o, n, d') ->
  batch_kept fixed rsize d d' (map j_entry (firstn n l)).
Proof.
  intros Fx G X. destruct (batch_kept_w fixed fuel rsize header l d o n d' Fx X) as (k & A & _ & _ & [->|(-> & _ & j & J & W)]); [exact A|].
  apply nth_error_In, G in J. destruct J as (t & J). destruct (W t J).
Qed.

(** the header *)
Lemma no_rotation_w fuel rsize header j d : size_at (path 0) d = 0 -> write_entry_w peqb path fuel rsize header j d = emit_w peqb path header j d.
Proof. intros H. unfold write_entry_w. rewrite H. destruct rsize; reflexivity. Qed.
Lemma rotated_w fuel rsize header j d c1 d1 : 0 < rsize <= size_at (path 0) d -> rotate peqb path (j_ok j) (j_limit j) fuel 0 d = (Done, c1, d1) -> j_ok j c1 = true ->
  write_entry_w peqb path fuel rsize header j d = emit_w peqb path header j (open_file peqb (path 0) d1).
Proof.
  intros H Ro Ok. unfold write_entry_w. rewrite Ro, Ok. replace (negb (rsize =? 0) && (rsize <=? size_at (path 0) d)) with true; [reflexivity|].
  symmetry. apply andb_true_iff. split; [apply negb_true_iff, Nat.eqb_neq; lia|apply Nat.leb_le; lia].
Qed.
Lemma open_same d : d (path 0) <> None -> open_file peqb (path 0) d = d.
Proof. unfold open_file. destruct (d (path 0)); [reflexivity|congruence]. Qed.
Lemma open_size d : size_at (path 0) (open_file peqb (path 0) d) = size_at (path 0) d.
Proof. unfold size_at at 1. rewrite (open_at0 peqb eqb_ok path d). unfold size_at. destruct (d (path 0)); reflexivity. Qed.
Lemma emit_head_again j d : d (path 0) <> None -> size_at (path 0) d = 0 -> j_head j = FsError "" ->
  exists d', emit_w peqb path true j d = (Caught, false, d') /\ size_at (path 0) d' = 0 /\ d' (path 0) <> None /\ forall p, p <> path 0 -> d' p = d p.
Proof.
  intros N Z J. unfold emit_w. rewrite Z, J. eexists. split; [reflexivity|]. destruct (d (path 0)) as [c|] eqn:H; [|congruence]. unfold size_at in Z |- *. rewrite H in Z. rewrite (add_at peqb eqb_ok path _ _ _ H).
  split; [|split; [discriminate|intros p Hp; apply (set_other peqb eqb_ok), Hp]]. rewrite size_text in Z |- *. unfold LogFileSpec.text_of in *. rewrite fold_right_app. exact Z.
Qed.
Lemma head_again_rotating fuel rsize j l d : size_at (path 0) d = 0 -> j_head j = FsError "" ->
  exists d', write_batch_w peqb path fuel rsize true (j :: l) d = (Caught, 0, d') /\ size_at (path 0) d' = 0 /\ d' (path 0) <> None.
Proof.
  intros Z J. unfold write_batch_w. cbn. rewrite no_rotation_w by (rewrite open_size; exact Z).
  destruct (emit_head_again j (open_file peqb (path 0) d)) as (d' & -> & A & B & _); [rewrite (open_at0 peqb eqb_ok path d); discriminate|rewrite open_size; exact Z|exact J|].
  exists d'. auto.
Qed.
Lemma head_again_rotated fuel rsize j l d c1 d1 : 0 < rsize <= size_at (path 0) d -> j_head j = FsError "" ->
  rotate peqb path (j_ok j) (j_limit j) fuel 0 d = (Done, c1, d1) -> j_ok j c1 = true ->
  exists d' m, write_batch_w peqb path fuel rsize true (j :: l) d = (Caught, 0, d') /\ size_at (path 0) d' = 0 /\ d' (path 0) <> None /\
  run_of path d m /\ rotated path (j_limit j) m d d1 /\ forall p, p <> path 0 -> d' p = d1 p.
Proof.
  intros H J Ro Ok. assert (O : open_file peqb (path 0) d = d).
  { apply open_same. unfold size_at in H. destruct (d (path 0)); [discriminate|lia]. }
  destruct (rotate_spec peqb eqb_ok path inj _ _ _ _ _ _ _ _ Ro eq_refl) as (m & Rm & Rt).
  unfold write_batch_w. rewrite O. cbn. rewrite (rotated_w fuel rsize true j d c1 d1 H Ro Ok).
  destruct (open_spec peqb eqb_ok path d1) as [O1 O2].
  destruct (emit_head_again j (open_file peqb (path 0) d1)) as (d' & -> & A & B & C); [rewrite O1; discriminate| |exact J|].
  { unfold size_at. rewrite O1, (proj1 Rt). reflexivity. }
  exists d', m. split; [reflexivity|]. split; [exact A|]. split; [exact B|]. split; [exact Rm|]. split; [exact Rt|]. intros p Hp. rewrite C, O2 by exact Hp. reflexivity.
Qed.
Lemma head_first_rotating fuel rsize j l d t u : size_at (path 0) d = 0 -> j_head j = Wrote t -> j_line j = Wrote u ->
  exists d1 c, d1 (path 0) = Some (c ++ [Head t; Line (j_entry j) u]) /\ size c = 0 /\ (forall p, p <> path 0 -> d1 p = d p) /\
  write_batch_w peqb path fuel rsize true (j :: l) d = match write_batch_w peqb path fuel rsize true l d1 with (o, n, d') => (o, S n, d') end.
Proof.
  intros Z J1 J2. destruct (open_spec peqb eqb_ok path d) as [O1 O2]. set (c := match d (path 0) with Some c => c | None => [] end) in *.
  assert (Zc : size c = 0) by (unfold c; unfold size_at in Z; destruct (d (path 0)); [exact Z|reflexivity]).
  set (d1 := add peqb path (Line (j_entry j) u) (add peqb path (Head t) (open_file peqb (path 0) d))).
  assert (H1 : d1 (path 0) = Some (c ++ [Head t; Line (j_entry j) u])).
  { replace (c ++ [Head t; Line (j_entry j) u]) with ((c ++ [Head t]) ++ [Line (j_entry j) u]) by (rewrite <- app_assoc; reflexivity). apply (add_at peqb eqb_ok), (add_at peqb eqb_ok), O1. }
  exists d1, c. split; [exact H1|]. split; [exact Zc|]. split.
  { intros p Hp. unfold d1, add, append. rewrite !(set_other peqb eqb_ok) by exact Hp. apply O2, Hp. }
  unfold write_batch_w. rewrite (open_same d1) by (rewrite H1; discriminate). cbn [write_all_w].
  rewrite no_rotation_w by (rewrite open_size; exact Z). unfold emit_w. rewrite open_size, Z, J1, J2. reflexivity.
Qed.
End Rotating.

Section Place.
Context {D N : Type} (deqb : D -> D -> bool) (deqb_ok : forall a b, deqb a b = true <-> a = b) (place : D -> N -> D).
Implicit Types (s : @place_state D).
Notation happens := (happens deqb place).
Notation happen := (happen deqb place).

Lemma fixed_step name h s d : path_dir (p_file s) = Some d -> path_dir (p_file (happen name h s)) = Some d /\
  exists r, p_opened (happen name h s) = p_opened s ++ r /\ List.length r = batches [h] /\ forall x, In x r -> x = None \/ x = Some d.
Proof.
  intros H. destruct h as [|b|e|e|e]; cbn; try (split; [exact H|]; exists []; rewrite app_nil_r; repeat split; intros x []).
  rewrite H. split; [reflexivity|]. eexists. split; [reflexivity|]. split; [reflexivity|]. intros x [<-|[]]. destruct (is_made deqb d _); tauto.
Qed.
Lemma batches_app (h : @happening D) hs : batches (h :: hs) = batches [h] + batches hs.
Proof. destruct h; reflexivity. Qed.
Lemma fixed_proof name hs : forall s d, path_dir (p_file s) = Some d ->
  exists r, p_opened (happens name hs s) = p_opened s ++ r /\ List.length r = batches hs /\ forall x, In x r -> x = None \/ x = Some d.
Proof.
  induction hs as [|h hs IH]; intros s d H; [exists []; rewrite app_nil_r; repeat split; intros x []|].
  destruct (fixed_step name h s d H) as (H1 & r1 & O1 & L1 & R1). destruct (IH _ d H1) as (r2 & O2 & L2 & R2). cbn [WriterModel.happens fold_left]. exists (r1 ++ r2). unfold WriterModel.happens in O2 |- *. cbn [fold_left].
  rewrite O2, O1, app_assoc, app_length, L1, L2, (batches_app h hs).
  split; [reflexivity|]. split; [reflexivity|]. intros x I. apply in_app_iff in I. destruct I; auto.
Qed.
Lemma place_proof name hs : forall s, p_file s = new_file ->
  exists r, p_opened (happens name hs s) = p_opened s ++ r /\ List.length r = batches hs /\
  forall x, In x r -> x = None \/ x = Some (place (first_cwd (p_cwd s) hs) name).
Proof.
  induction hs as [|h hs IH]; intros s F; [exists []; rewrite app_nil_r; repeat split; intros x []|].
  destruct h as [|b|d|d|d].
  - set (d := place (p_cwd s) name).
    assert (H : path_dir (p_file (happen name WriteBatch s)) = Some d) by (cbn; rewrite F; reflexivity).
    destruct (fixed_proof name hs _ d H) as (r & O & Lr & R). unfold WriterModel.happens in *. cbn [fold_left]. rewrite O. cbn. rewrite F. cbn. fold d. rewrite <- app_assoc.
    eexists. split; [reflexivity|]. split; [cbn; rewrite Lr; reflexivity|]. intros x [<-|I]; [destruct (is_made deqb d _); tauto|apply R, I].
  - destruct (IH (happen name (SetCreateDirs b) s) F) as (r & O & R). exists r. split; [exact O|exact R].
  - destruct (IH (happen name (ChangeDir d) s) F) as (r & O & R). exists r. split; [exact O|exact R].
  - destruct (IH (happen name (MakeDir d) s) F) as (r & O & R). exists r. split; [exact O|exact R].
  - destruct (IH (happen name (RemoveDir d) s) F) as (r & O & R). exists r. split; [exact O|exact R].
Qed.
Lemma made_self d made : is_made deqb d (d :: made) = true.
Proof. cbn. assert (X : deqb d d = true) by (apply deqb_ok; reflexivity). rewrite X. reflexivity. Qed.
(** as long as nobody removes it *)
Lemma kept_step name h s d : path_dir (p_file s) = Some d -> is_made deqb d (p_made s) = true -> keeps_dir d h ->
  path_dir (p_file (happen name h s)) = Some d /\ is_made deqb d (p_made (happen name h s)) = true /\
  p_opened (happen name h s) = p_opened s ++ (match h with WriteBatch => [Some d] | _ => [] end).
Proof.
  intros H M K. destruct h as [|b|e|e|e]; cbn.
  - rewrite H. assert (X : is_made deqb d (if p_create s && negb (dirs_created (p_file s)) then d :: p_made s else p_made s) = true).
    { destruct (p_create s && negb (dirs_created (p_file s))); [apply made_self|exact M]. }
    rewrite X. auto.
  - rewrite app_nil_r. auto.
  - rewrite app_nil_r. auto.
  - rewrite app_nil_r. repeat split; [exact H|]. unfold is_made in *. cbn. rewrite M. apply orb_true_r.
  - rewrite app_nil_r. repeat split; [exact H|]. unfold is_made in *. apply existsb_exists in M. destruct M as (x & I & Eq). apply existsb_exists. exists x. split; [|exact Eq].
    apply filter_In. split; [exact I|]. apply deqb_ok in Eq. subst x. destruct (deqb e d) eqn:Z; [|reflexivity]. apply deqb_ok in Z. subst e. destruct (K eq_refl).
Qed.
Lemma kept_proof name hs : forall s d, path_dir (p_file s) = Some d -> is_made deqb d (p_made s) = true -> Forall (keeps_dir d) hs ->
  p_opened (happens name hs s) = p_opened s ++ repeat (Some d) (batches hs).
Proof.
  induction hs as [|h hs IH]; intros s d H M F; [cbn; rewrite app_nil_r; reflexivity|]. inversion F as [|x y K F']; subst.
  destruct (kept_step name h s d H M K) as (H1 & M1 & O1). pose proof (IH _ d H1 M1 F') as O2. unfold WriterModel.happens in *. cbn [fold_left]. rewrite O2, O1, <- app_assoc.
  destruct h; reflexivity.
Qed.
(** as long as no batch is written with create_dirs set *)
Lemma create_flag name hs : forall s, p_create (happens name hs s) = creating (p_create s) hs.
Proof.
  induction hs as [|h hs IH]; intros s; [reflexivity|]. unfold WriterModel.happens in *. cbn [fold_left]. rewrite IH. destruct h; reflexivity.
Qed.
Lemma uncreated_run name hs : forall s, dirs_created (p_file s) = false -> no_creating_batch (p_create s) hs ->
  dirs_created (p_file (happens name hs s)) = false /\
  (forall d, path_dir (p_file s) = Some d -> path_dir (p_file (happens name hs s)) = Some d) /\
  (path_dir (p_file s) = None -> forall d, d = place (first_cwd (p_cwd s) (hs ++ [WriteBatch])) name ->
     path_dir (p_file (happens name hs s)) = Some d \/ path_dir (p_file (happens name hs s)) = None /\ d = place (p_cwd (happens name hs s)) name) /\
  (forall d, In d (p_made (happens name hs s)) -> In d (p_made s) \/ In (MakeDir d) hs).
Proof.
  induction hs as [|h hs IH]; intros s U NC; [cbn; repeat split; auto|].
  assert (Skip : forall t, p_file t = p_file s -> p_create t = creating (p_create s) [h] -> no_creating_batch (p_create t) hs ->
    first_cwd (p_cwd s) ((h :: hs) ++ [WriteBatch]) = first_cwd (p_cwd t) (hs ++ [WriteBatch]) -> (forall d, In d (p_made t) -> In d (p_made s) \/ MakeDir d = h) ->
    happen name h s = t ->
    dirs_created (p_file (happens name (h :: hs) s)) = false /\
    (forall d, path_dir (p_file s) = Some d -> path_dir (p_file (happens name (h :: hs) s)) = Some d) /\
    (path_dir (p_file s) = None -> forall d, d = place (first_cwd (p_cwd s) ((h :: hs) ++ [WriteBatch])) name ->
       path_dir (p_file (happens name (h :: hs) s)) = Some d \/ path_dir (p_file (happens name (h :: hs) s)) = None /\ d = place (p_cwd (happens name (h :: hs) s)) name) /\
    (forall d, In d (p_made (happens name (h :: hs) s)) -> In d (p_made s) \/ In (MakeDir d) (h :: hs))).
  { intros t F C NC' W Md Et. unfold WriterModel.happens. cbn [fold_left]. rewrite Et. fold (happens name hs t). rewrite <- F in U |- *. rewrite W.
    destruct (IH t U NC') as (A & B & C1 & C2). repeat split; [exact A|exact B|exact C1|]. intros d I. apply C2 in I. destruct I as [I|I]; [apply Md in I; destruct I as [I|<-]; [left; exact I|right; left; reflexivity]|right; right; exact I]. }
  destruct h as [|b|e|e|e].
  - destruct NC as [C NC]. unfold WriterModel.happens. cbn [fold_left]. set (t := happen name WriteBatch s). fold (happens name hs t).
    assert (Ut : dirs_created (p_file t) = false) by (unfold t; cbn; rewrite U, C; reflexivity).
    assert (Ct : p_create t = p_create s) by reflexivity. rewrite <- Ct in NC.
    destruct (IH t Ut NC) as (A & B & _ & C2). repeat split; [exact A|..].
    + intros d Hd. apply B. unfold t. cbn. rewrite Hd. reflexivity.
    + intros Hn d ->. left. apply B. unfold t. cbn. rewrite Hn. reflexivity.
    + intros d I. apply C2 in I. destruct I as [I|I]; [|right; right; exact I]. left. unfold t in I. cbn in I. rewrite C in I. exact I.
  - apply (Skip _) with (6 := eq_refl); try reflexivity; [exact NC|]. cbn. auto.
  - apply (Skip _) with (6 := eq_refl); try reflexivity; [exact NC|]. cbn. auto.
  - apply (Skip _) with (6 := eq_refl); try reflexivity; [exact NC|]. cbn. intros d [->|I]; auto.
  - apply (Skip _) with (6 := eq_refl); try reflexivity; [exact NC|]. cbn. intros d I. apply filter_In in I. tauto.
Qed.
Lemma directory_proof name hs1 hs2 s : p_file s = new_file -> no_creating_batch (p_create s) hs1 -> creating (p_create s) hs1 = true ->
  Forall (keeps_dir (place (first_cwd (p_cwd s) (hs1 ++ [WriteBatch])) name)) hs2 ->
  p_opened (happens name (hs1 ++ WriteBatch :: hs2) s) =
    p_opened (happens name hs1 s) ++ repeat (Some (place (first_cwd (p_cwd s) (hs1 ++ [WriteBatch])) name)) (S (batches hs2)).
Proof.
  intros F NC Cr K. set (d := place (first_cwd (p_cwd s) (hs1 ++ [WriteBatch])) name) in *. rewrite <- (create_flag name hs1 s) in Cr.
  destruct (uncreated_run name hs1 s) as (A & _ & B & _); [rewrite F; reflexivity|exact NC|].
  assert (B' : path_dir (p_file (happens name hs1 s)) = Some d \/ path_dir (p_file (happens name hs1 s)) = None /\ d = place (p_cwd (happens name hs1 s)) name) by (apply B; [rewrite F; reflexivity|reflexivity]).
  clear B. unfold WriterModel.happens at 1. rewrite fold_left_app. fold (happens name hs1 s). set (t := happens name hs1 s) in *. cbn [fold_left]. fold (happens name hs2 (happen name WriteBatch t)).
  assert (Dd : match path_dir (p_file t) with Some d => d | None => place (p_cwd t) name end = d) by (destruct B' as [-> |[-> ->]]; reflexivity).
  assert (H : path_dir (p_file (happen name WriteBatch t)) = Some d /\ is_made deqb d (p_made (happen name WriteBatch t)) = true /\ p_opened (happen name WriteBatch t) = p_opened t ++ [Some d]).
  { unfold WriterModel.happen, open_at. rewrite Dd, A, Cr. cbn [negb andb p_file p_made p_opened path_dir]. rewrite made_self. auto. }
  destruct H as (H & M & O). rewrite (kept_proof name hs2 _ d H M K), O, <- app_assoc. reflexivity.
Qed.
Lemma no_directory name hs s : p_file s = new_file -> no_creating_batch (p_create s) hs ->
  forall d, In d (p_made (happens name hs s)) -> In d (p_made s) \/ In (MakeDir d) hs.
Proof. intros F NC. apply (uncreated_run name hs s); [rewrite F; reflexivity|exact NC]. Qed.
End Place.
