(** Writes to the stream that fail, with and without rotation (C92). *)
From Coq Require Import List Bool Arith String Lia.
From Verif Require Import Base ListUpdate LogFileModel LogFileSpec LogFileProofs.
Import ListNotations.

Section Failing.
Context {P E : Type} (peqb : P -> P -> bool).
Hypothesis Peq : forall p q, peqb p q = true <-> p = q.
Variable path : nat -> P.
Hypothesis Inj : forall i j, path i = path j -> i = j.
Notation disk := (@disk P E).
Notation kept := (@kept P E path).
Implicit Types (d : disk).

Lemma files_same d fs fs' : all_files path d fs -> all_files path d fs' -> fs = fs'.
Proof.
  intros (b & Hb & ->) (b' & Hb' & ->). destruct (Nat.le_ge_cases b b'); [symmetry|]; apply below_more; auto.
Qed.
Lemma append_spec x d c : d (path 0) = Some c -> append peqb (path 0) x d (path 0) = Some (c ++ x) /\
  (forall p, p <> path 0 -> append peqb (path 0) x d p = d p).
Proof. intros D0. unfold append. rewrite D0. split; [apply set_same, Peq|intros p Hp; apply set_other; auto]. Qed.
Lemma append_kept x d c limit rsize : d (path 0) = Some c -> kept limit rsize d (append peqb (path 0) x d) (lines_of x).
Proof.
  intros D0. destruct (append_spec x d c D0) as [E1 E2].
  assert (E3 : forall i, 0 < i -> append peqb (path 0) x d (path i) = d (path i)) by (intros i Hi; apply E2; intros X; apply Inj in X; lia).
  split; [|split].
  - intros fs Hf. destruct (all_slack path _ _ 0 Hf) as (b & _ & B1 & B2 & ->).
    destruct (below_zero path b _ _ _ _ B1 D0 E1 E3) as (l & F1 & F2).
    assert (X : all_lines (files_below path b (append peqb (path 0) x d)) = all_lines (files_below path b d) ++ lines_of x).
    { rewrite F1, F2, !lines_app, !lines_one. unfold lines_of. rewrite !flat_map_app, <- app_assoc. reflexivity. }
    exists (files_below path b (append peqb (path 0) x d)). rewrite X. split; [|split; [apply sub_refl|split; [intros _; apply suffix_refl|reflexivity]]].
    exists b. split; [|reflexivity]. intros i Hi. rewrite E3 by lia. apply B2. lia.
  - intros i Hi Di. rewrite E3 by lia. exact Di.
  - intros p Hp. apply E2, Hp.
Qed.

(** one entry *)
Definition head_due (header sg : bool) (c : list (chunk E)) : bool := header && sg && (String.length (text_of c) =? 0).
Definition line_good (header sg : bool) (w : nat -> bool) (c : list (chunk E)) : bool := (if head_due header sg c then w 0 else sg) && w 1.
Lemma emit_io_spec w header good ht lt e d c g d' : d (path 0) = Some c -> emit_io peqb path w header good ht lt e d = (g, d') ->
  g = line_good header good w c /\
  d' (path 0) = Some (c ++ (if head_due header good c && w 0 then [Head ht] else []) ++ (if g then [Line e lt] else [])) /\
  (forall p, p <> path 0 -> d' p = d p).
Proof.
  intros D0. unfold emit_io, line_good, head_due, size_at. rewrite D0, size_text.
  set (h := header && good && (String.length (text_of c) =? 0)).
  assert (X : (h && (if h then w 0 else good)) = h && w 0) by (destruct h; reflexivity). rewrite X. clear X.
  destruct (append_spec [Head ht] d c D0) as [A1 A2].
  intros Em. injection Em as <- <-. split; [reflexivity|].
  set (g := (if h then w 0 else good) && w 1). destruct (h && w 0).
  - destruct (append_spec [Line e lt] _ _ A1) as [B1 B2]. destruct g.
    + split; [rewrite B1, <- app_assoc; reflexivity|]. intros p Hp. rewrite B2, A2 by exact Hp. reflexivity.
    + split; [exact A1|exact A2].
  - destruct (append_spec [Line e lt] _ _ D0) as [B1 B2]. destruct g.
    + split; [exact B1|exact B2].
    + split; [rewrite app_nil_r; exact D0|reflexivity].
Qed.
Lemma emit_io_kept w header good ht lt e d c g d' limit rsize : d (path 0) = Some c -> emit_io peqb path w header good ht lt e d = (g, d') ->
  kept limit rsize d d' (if g then [e] else []).
Proof.
  intros D0. unfold emit_io. set (h := header && good && _). intros Em. injection Em as <- <-.
  set (g := (if h then w 0 else good) && w 1). set (d1 := if h && _ then _ else d).
  assert (K1 : kept limit rsize d d1 [] /\ exists c1, d1 (path 0) = Some c1).
  { unfold d1. destruct (h && _); [|split; [apply kept_same|eauto]]. split; [apply (append_kept [Head ht] d c limit rsize D0)|].
    rewrite (proj1 (append_spec [Head ht] d c D0)). eauto. }
  destruct K1 as [K1 (c1 & D1)]. destruct g; [|exact K1]. change [e] with ([] ++ lines_of [Line e lt]).
  eapply kept_trans; [exact K1|]. eapply append_kept. exact D1.
Qed.
Lemma entry_io_spec ok w fuel limit rsize header good ht lt e d c g d' :
  write_entry_io peqb path ok w fuel limit rsize header good ht lt e d = (Done, g, d') -> d (path 0) = Some c ->
  exists (fresh : bool) c' d1,
  (if fresh then c' = [] /\ rsize <> 0 /\ (good = false \/ rsize <= String.length (text_of c)) /\ exists m, run_of path d m /\ rotated path limit m d d1
   else c' = c /\ d1 = d /\ (rsize = 0 \/ good = true /\ String.length (text_of c) < rsize)) /\
  g = line_good header (fresh || good) w c' /\
  d' (path 0) = Some (c' ++ (if head_due header (fresh || good) c' && w 0 then [Head ht] else []) ++ (if g then [Line e lt] else [])) /\
  (forall p, p <> path 0 -> d' p = d1 p).
Proof.
  intros H D0. unfold write_entry_io, size_at in H. rewrite D0, size_text in H.
  destruct (negb (rsize =? 0) && (negb good || (rsize <=? String.length (text_of c)))) eqn:B.
  - apply andb_true_iff in B. destruct B as [B1 B2]. apply negb_true_iff, Nat.eqb_neq in B1.
    destruct (rotate peqb path ok limit fuel 0 d) as [[o1 c1] d1] eqn:Ro. destruct o1; try discriminate. destruct (ok c1); [|discriminate].
    destruct (emit_io peqb path w header true ht lt e (open_file peqb (path 0) d1)) as [g0 d2] eqn:Em. injection H as <- <-.
    destruct (rotate_spec peqb Peq path Inj _ _ _ _ _ _ _ _ Ro eq_refl) as (m & Rm & Rd).
    destruct (open_spec peqb Peq path d1) as [O1 O2]. rewrite (proj1 Rd) in O1.
    destruct (emit_io_spec _ _ _ _ _ _ _ _ _ _ O1 Em) as (G1 & G2 & G3).
    exists true, [], d1. split; [split; [reflexivity|split; [exact B1|split; [|eauto]]]|].
    + apply orb_true_iff in B2. destruct B2 as [B2|B2]; [left; apply negb_true_iff, B2|right; apply Nat.leb_le, B2].
    + split; [exact G1|split; [exact G2|]]. intros p Hp. rewrite G3, O2 by exact Hp. reflexivity.
  - destruct (emit_io peqb path w header good ht lt e d) as [g0 d2] eqn:Em. injection H as <- <-.
    destruct (emit_io_spec _ _ _ _ _ _ _ _ _ _ D0 Em) as (G1 & G2 & G3).
    exists false, c, d. split; [split; [reflexivity|split; [reflexivity|]]|auto].
    apply andb_false_iff in B. destruct B as [B|B]; [left; apply negb_false_iff, Nat.eqb_eq in B; exact B|].
    apply orb_false_iff in B. destruct B as [B1 B2]. right. split; [apply negb_false_iff, B1|apply Nat.leb_gt, B2].
Qed.

(** nothing is dropped *)
Definition whole d d' (es : list E) : Prop := forall fs, all_files path d fs -> exists fs', all_files path d' fs' /\ all_lines fs' = all_lines fs ++ es.
Lemma kept_whole limit d d' es : kept limit 0 d d' es -> whole d d' es.
Proof. intros (A & _) fs Hf. destruct (A fs Hf) as (fs' & F1 & _ & _ & F2). exists fs'. auto. Qed.
Lemma whole_trans d d1 d' es es' : whole d d1 es -> whole d1 d' es' -> whole d d' (es ++ es').
Proof.
  intros A B fs Hf. destruct (A fs Hf) as (fs1 & F1 & F2). destruct (B fs1 F1) as (fs2 & G1 & G2). exists fs2. split; [exact G1|]. rewrite G2, F2, app_assoc. reflexivity.
Qed.
Lemma rotate_whole ok limit fuel d o c' d' : rotate peqb path ok limit fuel 0 d = (o, c', d') -> (forall i, limit <= i -> d (path i) = None) -> whole d d' [].
Proof.
  intros Ro Hl fs Hf. rewrite app_nil_r.
  destruct (rotate_keeps peqb Peq path Inj _ _ _ _ _ _ _ _ (S limit) Ro) as (R1 & (older & older' & R2 & R3 & R4) & _); [intros i Hi; apply Hl; lia|lia|].
  assert (X : files_below path (S limit) d = files_below path limit d) by (apply below_more; auto).
  assert (Y : fs = files_below path limit d) by (eapply files_same; [exact Hf|exists limit; auto]).
  exists (files_below path (S limit) d'). split; [exists (S limit); auto|].
  assert (older = []) as ->.
  { rewrite X in R2. apply (f_equal (@List.length _)) in R2. rewrite app_length in R2. destruct older; [reflexivity|cbn in R2; lia]. }
  assert (older' = []) as -> by (inversion R4; reflexivity). rewrite R3, Y. reflexivity.
Qed.
Lemma entry_io_kept ok w fuel limit rsize header good ht lt e d o g d' :
  write_entry_io peqb path ok w fuel limit rsize header good ht lt e d = (o, g, d') -> d (path 0) <> None ->
  let es := match o with Done => if g then [e] else [] | _ => [] end in
  kept limit rsize d d' es /\ ((forall i, limit <= i -> d (path i) = None) -> whole d d' es) /\
  (o = Done -> d' (path 0) <> None /\ (forall b, (forall i, b <= i -> d (path i) = None) -> forall i, S b <= i -> d' (path i) = None) /\
    (g = true -> w 1 = true /\ (rsize = 0 -> good = true)) /\ (g = false -> (negb header || w 0) && w 1 = false \/ rsize = 0 /\ good = false)).
Proof.
  intros H D0. destruct (d (path 0)) as [c|] eqn:Dc; [clear D0|congruence]. cbv zeta.
  assert (Last : o = Done -> d' (path 0) <> None /\ (forall b, (forall i, b <= i -> d (path i) = None) -> forall i, S b <= i -> d' (path i) = None) /\
    (g = true -> w 1 = true /\ (rsize = 0 -> good = true)) /\ (g = false -> (negb header || w 0) && w 1 = false \/ rsize = 0 /\ good = false)).
  { intros ->. destruct (entry_io_spec _ _ _ _ _ _ _ _ _ _ _ _ _ _ H Dc) as (fresh & c' & d1 & F1 & F2 & F3 & F4).
    split; [rewrite F3; discriminate|]. split; [|split].
    - intros b Hb i Hi. rewrite F4 by (intros X; apply Inj in X; lia). destruct fresh.
      + destruct F1 as (_ & _ & _ & m & Rm & (_ & _ & _ & R4 & _)).
        assert (m <= b). { destruct (Nat.lt_ge_cases b m) as [Lt|]; [|assumption]. exfalso. apply (proj1 Rm b Lt), Hb. lia. }
        rewrite R4 by lia. apply Hb. lia.
      + destruct F1 as (_ & -> & _). apply Hb. lia.
    - intros G. rewrite F2 in G. unfold line_good in G. apply andb_true_iff in G. destruct G as [G1 G2]. split; [exact G2|]. intros Z.
      destruct fresh; [destruct F1 as (_ & F1 & _); congruence|]. unfold head_due in G1. cbn [orb] in G1.
      destruct good; [reflexivity|]. rewrite andb_false_r in G1. cbn in G1. exact G1.
    - intros G. rewrite F2 in G. unfold line_good, head_due in G. destruct (fresh || good) eqn:Fg.
      + left. rewrite andb_true_r in G. destruct header; [|exact G]. cbn [andb negb orb] in G |- *.
        destruct (String.length (text_of c') =? 0); [exact G|]. cbn [andb] in G. rewrite G. apply andb_false_r.
      + right. apply orb_false_iff in Fg. destruct Fg as [-> ->]. destruct F1 as (_ & _ & [F1|(F1 & _)]); [auto|discriminate]. }
  split; [|split; [|exact Last]].
  - unfold write_entry_io in H. destruct (negb (rsize =? 0) && _) eqn:B.
    + apply andb_true_iff in B. destruct B as [B1 _]. apply negb_true_iff, Nat.eqb_neq in B1.
      destruct (rotate peqb path ok limit fuel 0 d) as [[o1 c1] d1] eqn:Ro. pose proof (rotate_kept peqb Peq path Inj _ _ _ _ _ _ _ _ B1 Ro) as K.
      destruct o1; [|injection H as <- <- <-; exact K|injection H as <- <- <-; exact K].
      destruct (ok c1); [|injection H as <- <- <-; exact K].
      destruct (emit_io peqb path w header true ht lt e (open_file peqb (path 0) d1)) as [g0 d2] eqn:Em. injection H as <- <- <-.
      change (kept limit rsize d d2 (([] ++ []) ++ (if g0 then [e] else []))).
      eapply kept_trans; [eapply kept_trans; [exact K|apply (open_kept peqb Peq path Inj)]|eapply emit_io_kept; [apply open_spec, Peq|exact Em]].
    + destruct (emit_io peqb path w header good ht lt e d) as [g0 d2] eqn:Em. injection H as <- <- <-. eapply emit_io_kept; eauto.
  - intros Hl. unfold write_entry_io in H. destruct (negb (rsize =? 0) && _) eqn:B.
    + destruct (rotate peqb path ok limit fuel 0 d) as [[o1 c1] d1] eqn:Ro. pose proof (rotate_whole _ _ _ _ _ _ _ Ro Hl) as K.
      destruct o1; [|injection H as <- <- <-; exact K|injection H as <- <- <-; exact K].
      destruct (ok c1); [|injection H as <- <- <-; exact K].
      destruct (emit_io peqb path w header true ht lt e (open_file peqb (path 0) d1)) as [g0 d2] eqn:Em. injection H as <- <- <-.
      change (whole d d2 (([] ++ []) ++ (if g0 then [e] else []))).
      eapply whole_trans; [eapply whole_trans; [exact K|apply (kept_whole 0), (open_kept peqb Peq path Inj)]|].
      eapply (kept_whole 0), emit_io_kept; [apply open_spec, Peq|exact Em].
    + destruct (emit_io peqb path w header good ht lt e d) as [g0 d2] eqn:Em. injection H as <- <- <-. eapply (kept_whole 0), emit_io_kept; eauto.
Qed.

(** a batch *)
Notation witem := (item E * (nat -> bool))%type.
Definition both (header : bool) (x : witem) : bool := (negb header || snd x 0) && snd x 1.
Definition line (x : witem) : bool := snd x 1.
Definition entries (l : list witem) : list E := map (fun x => i_entry (fst x)) l.
Definition within (rsize : nat) (good header : bool) (l : list witem) (es : list E) : Prop :=
  if rsize =? 0 then if good then sublist (entries (upto (both header) l)) es /\ sublist es (entries (upto line l)) else es = []
  else sublist (entries (filter (both header) l)) es /\ sublist es (entries (filter line l)).
Lemma write_all_io_kept fixed fuel rsize header (l : list witem) : forall good d o n d',
  (forall lim x, fixed = Some lim -> In x l -> i_limit (fst x) = lim) -> write_all_io peqb path fuel rsize header good l d = (o, n, d') -> d (path 0) <> None ->
  (o = Done -> n = List.length l) /\ exists es, within rsize good header (firstn n l) es /\ batch_kept path fixed rsize d d' es /\
  (forall b, (forall i, b <= i -> d (path i) = None) -> (forall x, In x l -> b + List.length l <= i_limit (fst x)) -> whole d d' es).
Proof.
  assert (Same : forall d, batch_kept path fixed rsize d d []).
  { intros d. apply (kept_batch path (match fixed with Some l => l | None => 0 end)); [intros x ->; reflexivity|apply kept_same]. }
  assert (None_ : forall good, within rsize good header [] []).
  { intros good. unfold within. destruct (rsize =? 0); [destruct good|]; cbn; try split; constructor. }
  induction l as [|[i w] l IH]; intros good d o n d' Fx H D0; cbn [write_all_io] in H.
  - injection H as <- <- <-. split; [reflexivity|]. exists []. split; [apply None_|]. split; [apply Same|]. intros _ _ _. apply (kept_whole 0), kept_same.
  - destruct (write_entry_io peqb path (i_ok i) w fuel (i_limit i) rsize header good (i_head i) (i_line i) (i_entry i) d) as [[o1 g] d1] eqn:We.
    destruct (entry_io_kept _ _ _ _ _ _ _ _ _ _ _ _ _ _ We D0) as (K1 & K2 & K3).
    apply (kept_batch _ _ fixed) in K1; [|intros lim Hl; symmetry; apply (Fx lim (i, w) Hl); left; reflexivity].
    assert (Stop : o1 <> Done -> (o1, 0, d1) = (o, n, d') -> (o = Done -> n = List.length ((i, w) :: l)) /\ exists es, within rsize good header (firstn n ((i, w) :: l)) es /\
      batch_kept path fixed rsize d d' es /\
      (forall b, (forall i, b <= i -> d (path i) = None) -> (forall x, In x ((i, w) :: l) -> b + List.length ((i, w) :: l) <= i_limit (fst x)) -> whole d d' es)).
    { intros No X. injection X as <- <- <-. split; [congruence|]. exists []. split; [apply None_|]. destruct o1; [congruence| |].
      - split; [exact K1|]. intros b Hb Hl. apply K2. intros j Hj. apply Hb. specialize (Hl _ (or_introl eq_refl)). cbn in Hl. lia.
      - split; [exact K1|]. intros b Hb Hl. apply K2. intros j Hj. apply Hb. specialize (Hl _ (or_introl eq_refl)). cbn in Hl. lia. }
    destruct o1; [clear Stop|apply Stop; [discriminate|exact H]|apply Stop; [discriminate|exact H]].
    destruct (write_all_io peqb path fuel rsize header g l d1) as [[o2 n2] d2] eqn:Wa. injection H as <- <- <-.
    destruct (K3 eq_refl) as (L1 & L2 & L3 & L4).
    destruct (IH g d1 _ _ _ (fun lim j Hl Hj => Fx lim j Hl (or_intror Hj)) Wa L1) as (A0 & es & A1 & A2 & A3).
    split; [intros Ho; cbn; rewrite A0 by exact Ho; reflexivity|].
    exists ((if g then [i_entry i] else []) ++ es). split; [|split; [eapply batch_trans; eassumption|]].
    + cbn [firstn]. clear - A1 L3 L4. unfold within in *. unfold both, line in *. destruct (rsize =? 0) eqn:Rz.
      * apply Nat.eqb_eq in Rz. destruct g.
        -- destruct (L3 eq_refl) as [W1 W2]. rewrite (W2 Rz). cbn [upto snd]. rewrite W1, andb_true_r. destruct A1 as [A1 A2].
           cbn [entries map fst app]. split; [|apply sub_keep, A2]. destruct (negb header || w 0); [apply sub_keep, A1|apply sub_nil_l].
        -- subst es. cbn [app]. destruct good; [|reflexivity]. split; [|apply sub_nil_l]. cbn [upto snd].
           destruct (L4 eq_refl) as [->|[_ X]]; [apply sub_nil|discriminate].
      * destruct A1 as [A1 A2]. apply Nat.eqb_neq in Rz. cbn [filter snd]. destruct g.
        -- destruct (L3 eq_refl) as [W1 _]. rewrite W1, andb_true_r. cbn [entries map fst app]. split; [|apply sub_keep, A2].
           destruct (negb header || w 0); [apply sub_keep, A1|apply sub_skip, A1].
        -- destruct (L4 eq_refl) as [->|[X _]]; [|congruence]. cbn [app]. split; [exact A1|].
           destruct (w 1); [apply sub_skip, A2|exact A2].
    + intros b Hb Hl. cbn [List.length] in Hl. eapply whole_trans.
      * apply K2. intros j Hj. apply Hb. specialize (Hl _ (or_introl eq_refl)). cbn in Hl. lia.
      * apply (A3 (S b)); [apply L2, Hb|]. intros x Hx. specialize (Hl x (or_intror Hx)). lia.
Qed.
Lemma write_batch_io_kept fixed fuel rsize header (l : list witem) d o n d' fs :
  (forall lim x, fixed = Some lim -> In x l -> i_limit (fst x) = lim) -> write_batch_io peqb path fuel rsize header l d = (o, n, d') -> all_files path d fs ->
  (o = Done -> n = List.length l) /\ exists es fs',
  (if rsize =? 0 then sublist (entries (upto (both header) (firstn n l))) es /\ sublist es (entries (upto line (firstn n l)))
   else sublist (entries (filter (both header) (firstn n l))) es /\ sublist es (entries (filter line (firstn n l)))) /\
  all_files path d' fs' /\ sublist (all_lines fs') (all_lines fs ++ es) /\
  (forall lim, fixed = Some lim -> (forall i, lim < i -> d (path i) = None) -> suffix_of (all_lines fs') (all_lines fs ++ es)) /\
  (rsize = 0 -> all_lines fs' = all_lines fs ++ es) /\
  (forall b, (forall i, b <= i -> d (path i) = None) -> (forall x, In x l -> b + List.length l < i_limit (fst x)) -> all_lines fs' = all_lines fs ++ es).
Proof.
  intros Fx H Hf. unfold write_batch_io in H. destruct (open_spec peqb Peq path d) as [O1 O2].
  destruct (write_all_io_kept fixed _ _ _ _ _ _ _ _ _ Fx H) as (A0 & es & A1 & A2 & A3); [rewrite O1; discriminate|]. split; [exact A0|].
  assert (K : batch_kept path fixed rsize d d' ([] ++ es)).
  { eapply batch_trans; [|exact A2]. apply (kept_batch path (match fixed with Some l => l | None => 0 end)); [intros x ->; reflexivity|apply (open_kept peqb Peq path Inj)]. }
  destruct K as (K1 & K2 & K3). destruct (K1 fs Hf) as (fs' & F1 & F2 & F3 & F4). cbn [app] in F2, F3, F4.
  exists es, fs'. split; [unfold within in A1; exact A1|]. split; [exact F1|]. split; [exact F2|]. split; [exact F3|]. split; [exact F4|].
  intros b Hb Hl. assert (W : whole d d' ([] ++ es)).
  { eapply whole_trans; [apply (kept_whole 0), (open_kept peqb Peq path Inj)|]. apply (A3 (S b)).
    - intros i Hi. rewrite O2 by (intros X; apply Inj in X; lia). apply Hb. lia.
    - intros x Hx. specialize (Hl x Hx). lia. }
  destruct (W fs Hf) as (fs2 & G1 & G2). rewrite (files_same _ _ _ F1 G1). exact G2.
Qed.
Lemma failing_batch_proof fixed fuel rsize header (l : list witem) d o n d' fs :
  (forall lim x, fixed = Some lim -> In x l -> i_limit (fst x) = lim) -> write_batch_io peqb path fuel rsize header l d = (o, n, d') -> all_files path d fs ->
  (o = Done -> n = List.length l) /\ exists es fs',
  (let entries := map (fun x => i_entry (fst x)) in
   let written := if rsize =? 0 then upto else @filter witem in
   sublist (entries (written (fun x => (negb header || snd x 0) && snd x 1) (firstn n l))) es /\
   sublist es (entries (written (fun x => snd x 1) (firstn n l)))) /\
  all_files path d' fs' /\ sublist (all_lines fs') (all_lines fs ++ es) /\
  (forall lim, fixed = Some lim -> (forall i, lim < i -> d (path i) = None) -> suffix_of (all_lines fs') (all_lines fs ++ es)) /\
  (rsize = 0 -> all_lines fs' = all_lines fs ++ es) /\
  (forall b, (forall i, b <= i -> d (path i) = None) -> (forall x, In x l -> b + List.length l < i_limit (fst x)) -> all_lines fs' = all_lines fs ++ es).
Proof.
  intros Fx H Hf. destruct (write_batch_io_kept _ _ _ _ _ _ _ _ _ _ Fx H Hf) as (A & es & fs' & B & C). split; [exact A|].
  exists es, fs'. split; [|exact C]. cbv zeta. destruct (rsize =? 0); exact B.
Qed.
End Failing.
