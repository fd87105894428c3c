(** Proofs about log files with several names. *)
From Coq Require Import List Bool Arith String Lia Permutation.
From Verif Require Import Base ListUpdate LoggerModel LoggerSpec LoggerProofs LogFileModel LogFileSpec LogFileProofs LogFileSystem LogAliasSpec.
Import ListNotations.

Section Alias.
Context {Q F K M : Type} (peqb : Q -> Q -> bool) (feqb : F -> F -> bool) (file : K -> F) (fpath : F -> nat -> Q) (ltb : K -> K -> bool).
Hypothesis Peq : forall p q, peqb p q = true <-> p = q.
Hypothesis Feq : forall p q, feqb p q = true <-> p = q.
Hypothesis O : strict_total_order ltb.
Hypothesis Sep : separate fpath.
Variables (Li Rs : nat -> Prop) (Hd : bool -> Prop).
Notation path := (fun k : K => fpath (file k)).
Notation logger := (@logger K M).
Notation event := (@event K M).
Notation disk := (@disk Q (entry K M)).
Notation dstep := (disk_step peqb path Li Rs Hd).
Notation system := (system peqb path Li Rs Hd ltb).
Notation needs_open := (needs_open path).
Implicit Types (s : logger) (d : disk) (tr : list event).

Lemma finj f i j : fpath f i = fpath f j -> i = j.
Proof. intros X. apply (Sep _ _ _ _ X). Qed.
Lemma fother f f' i : f <> f' -> forall j, fpath f i <> fpath f' j.
Proof. intros N j X. apply N, (Sep _ _ _ _ X). Qed.

(** what a step does to the files of the log file [f]; see [chain_kept] *)
Definition fkept (fixed : option nat) (off : Prop) (f : F) d d' (es : list (entry K M)) : Prop :=
  (forall fs, all_files (fpath f) d fs -> exists fs', all_files (fpath f) d' fs' /\
    sublist (all_lines fs') (all_lines fs ++ es) /\
    (forall limit, fixed = Some limit -> (forall i, limit < i -> d (fpath f i) = None) -> suffix_of (all_lines fs') (all_lines fs ++ es)) /\
    (off -> all_lines fs' = all_lines fs ++ es)) /\
  (forall limit, fixed = Some limit -> forall i, limit < i -> d (fpath f i) = None -> d' (fpath f i) = None).
Lemma fsame fixed off f d d' : (forall i, d' (fpath f i) = d (fpath f i)) -> fkept fixed off f d d' [].
Proof.
  intros Eq. split; [|intros; rewrite Eq; assumption]. intros fs (b & Hb & ->). exists (files_below (fpath f) b d'). rewrite app_nil_r.
  split; [exists b; split; [intros; rewrite Eq; auto|reflexivity]|]. rewrite (below_ext (fpath f) b d d') by (intros; apply Eq).
  split; [apply sub_refl|]. split; [intros; apply suffix_refl|reflexivity].
Qed.
Lemma ftrans fixed off f d d1 d' es es' : fkept fixed off f d d1 es -> fkept fixed off f d1 d' es' -> fkept fixed off f d d' (es ++ es').
Proof.
  intros (A1 & A2) (B1 & B2). split.
  - intros fs Hf. destruct (A1 fs Hf) as (fs1 & F1 & F2 & F3 & F4). destruct (B1 fs1 F1) as (fs2 & G1 & G2 & G3 & G4).
    exists fs2. split; [exact G1|]. rewrite app_assoc. split; [|split].
    + eapply sub_trans; [exact G2|]. apply sub_app; [exact F2|apply sub_refl].
    + intros l Hl Hb. eapply suffix_trans; [apply (G3 l Hl); intros i Hi; apply (A2 l Hl); auto|]. apply suffix_app, (F3 l Hl), Hb.
    + intros Z. rewrite G4, F4 by exact Z. reflexivity.
  - intros l Hl i Hi Di. apply (B2 l Hl); auto. apply (A2 l Hl); auto.
Qed.
Definition ffixes (fixed : option nat) : Prop := forall l, fixed = Some l -> forall n, Li n -> n = l.
Definition foff : Prop := forall n, Rs n -> n = 0.
Lemma fof_kept fixed f limit rsize d d' es : ffixes fixed -> Li limit -> Rs rsize -> kept (fpath f) limit rsize d d' es -> fkept fixed foff f d d' es.
Proof.
  intros Fx Hl Hr (A1 & A2 & A3). split.
  - intros fs Hf. destruct (A1 fs Hf) as (fs1 & F1 & F2 & F3 & F4). exists fs1. repeat split; auto. intros l E. rewrite <- (Fx l E _ Hl). exact F3.
  - intros l E. rewrite <- (Fx l E _ Hl). exact A2.
Qed.
Lemma fof_kept_all fixed f d d' : (forall limit rsize, kept (fpath f) limit rsize d d' []) -> fkept fixed foff f d d' [].
Proof.
  intros Kp. split.
  - intros fs Hf. destruct (Kp match fixed with Some l => l | None => 0 end 0) as (A1 & _). destruct (A1 fs Hf) as (fs1 & F1 & F2 & F3 & F4).
    exists fs1. repeat split; auto. intros l ->. exact F3.
  - intros l E. destruct (Kp l 0) as (_ & A2 & _). exact A2.
Qed.

Lemma dstep_file fixed ev d d' f : ffixes fixed -> dstep d ev d' -> needs_open ev d -> fkept fixed foff f d d' (written_as feqb file f ev).
Proof.
  intros Fx DS Ne.
  assert (T : forall k', (forall limit rsize, kept (fpath (file k')) limit rsize d d' []) -> fkept fixed foff f d d' []).
  { intros k' Kp. destruct (feqb (file k') f) eqn:Ef.
    - apply Feq in Ef. subst f. apply fof_kept_all, Kp.
    - apply fsame. intros i. apply (Kp 0 0). apply fother. intros ->. rewrite (proj2 (Feq _ _) eq_refl) in Ef. discriminate. }
  assert (W : forall k' limit rsize es, Li limit -> Rs rsize -> kept (fpath (file k')) limit rsize d d' es ->
    fkept fixed foff f d d' (if feqb (file k') f then es else [])).
  { intros k' limit rsize es Hl Hr Kp. destruct (feqb (file k') f) eqn:Ef.
    - apply Feq in Ef. subst f. eapply fof_kept; eauto.
    - apply fsame. intros i. apply Kp. apply fother. intros ->. rewrite (proj2 (Feq _ _) eq_refl) in Ef. discriminate. }
  destruct DS as [k'|k' e ok fuel limit rsize header ht lt d' Hl Hr Hh We|k' created|k' e ok fuel limit rsize header ht lt d' created Hl Hr Hh We|ev N].
  - apply (T k'). intros. apply (open_kept peqb Peq (fpath (file k')) (finj _)).
  - cbn in Ne. destruct (entry_kept peqb Peq (fpath (file k')) (finj _) _ _ _ _ _ _ _ _ _ _ _ We Ne) as [Kp _]. exact (W k' _ _ _ Hl Hr Kp).
  - apply (T k'). intros. destruct created; [apply (open_kept peqb Peq (fpath (file k')) (finj _))|apply kept_same].
  - destruct (entry_kept peqb Peq (fpath (file k')) (finj _) _ _ _ _ _ _ _ _ _ _ _ We (threw_open peqb path _ _ _ _ _ _ _ _ _ _ _ We)) as [Kp _].
    cbn [written_as]. replace (@nil (entry K M)) with (if feqb (file k') f then @nil (entry K M) else []) by (destruct (feqb (file k') f); reflexivity).
    apply (W k' _ _ _ Hl Hr). destruct created; [|exact Kp]. change (@nil (entry K M)) with (@nil (entry K M) ++ []).
    eapply kept_trans; [exact Kp|apply (open_kept peqb Peq (fpath (file k')) (finj _))].
  - replace (written_as feqb file f ev) with (@nil (entry K M)); [apply fsame; reflexivity|]. destruct ev; contradiction || reflexivity.
Qed.
Lemma system_file fixed lvl max flush clock d0 tr s d f : ffixes fixed -> system (initial lvl max flush clock) d0 tr s d ->
  fkept fixed foff f d0 d (written_to_file feqb file f tr).
Proof.
  intros Fx S. induction S as [|tr s d e s' d' S IH St DS]; [apply fsame; reflexivity|].
  pose proof (step_needs path ltb _ _ _ _ (system_opened_inj peqb path ltb Peq (fun k => finj (file k)) _ _ _ _ _ _ _ _ _ _ _ S) St) as Ne.
  unfold written_to_file. rewrite flat_map_snoc. eapply ftrans; [exact IH|]. exact (dstep_file fixed _ _ _ f Fx DS Ne).
Qed.

(** entries are written under the names they were logged with *)
Lemma written_file lvl max flush clock tr s k e : exec ltb (initial lvl max flush clock) tr s -> In (EWrite k e) tr -> e_file e = k.
Proof.
  intros E I. destruct (prefix_proof ltb O _ _ _ _ _ _ k E) as (r & X).
  assert (A : In e (accepted_for ltb k tr)).
  { rewrite X. apply in_or_app. left. apply in_flat_map. exists (EWrite k e). split; [exact I|]. cbn. rewrite (proj2 (equivb_true ltb O k k) eq_refl). left. reflexivity. }
  apply in_flat_map in A. destruct A as (ev & _ & A). destruct ev; cbn in A; try contradiction. unfold same_file in A.
  destruct (equivb ltb k (e_file e0)) eqn:Ek; [|contradiction]. destruct A as [->|[]]. apply equivb_true in Ek; [congruence|exact O].
Qed.
Lemma filter_written k tr : (forall k' e, In (EWrite k' e) tr -> e_file e = k') ->
  filter (same_file ltb k) (written_to_file feqb file (file k) tr) = written_to ltb k tr.
Proof.
  induction tr as [|ev tr IH]; intros A; [reflexivity|]. unfold written_to_file, written_to in *. cbn [flat_map].
  rewrite filter_app, IH by (intros k' e I; apply A; right; exact I). f_equal. destruct ev; try reflexivity. cbn.
  pose proof (A _ _ (or_introl eq_refl)) as Ek. destruct (equivb ltb k k0) eqn:Eq.
  - apply equivb_true in Eq; [|exact O]. subst k0. rewrite <- Eq, (proj2 (Feq _ _) eq_refl). cbn. unfold same_file. rewrite <- Eq, (proj2 (equivb_true ltb O k k) eq_refl). reflexivity.
  - destruct (feqb (file k0) (file k)); [|reflexivity]. cbn. unfold same_file. rewrite Ek, Eq. reflexivity.
Qed.
Lemma sub_filter {A : Type} (g : A -> bool) l l' : sublist l l' -> sublist (filter g l) (filter g l').
Proof. intros S. induction S as [|x l l' S IH|x l l' S IH]; cbn; [constructor|destruct (g x); [apply sub_skip, IH|exact IH]|destruct (g x); [apply sub_keep, IH|exact IH]]. Qed.

Lemma alias_proof lvl max flush clock d0 tr s d f fs0 : system (initial lvl max flush clock) d0 tr s d -> all_files (fpath f) d0 fs0 ->
  exists fs, all_files (fpath f) d fs /\ sublist (all_lines fs) (all_lines fs0 ++ written_to_file feqb file f tr) /\
    (forall limit, (forall n, Li n -> n = limit) -> (forall i, limit < i -> d0 (fpath f i) = None) ->
      suffix_of (all_lines fs) (all_lines fs0 ++ written_to_file feqb file f tr)) /\
    ((forall n, Rs n -> n = 0) -> all_lines fs = all_lines fs0 ++ written_to_file feqb file f tr) /\
    forall k, file k = f -> sublist (filter (same_file ltb k) (all_lines fs)) (filter (same_file ltb k) (all_lines fs0) ++ accepted_for ltb k tr).
Proof.
  intros S Fs. assert (Fx : ffixes None) by (intros l; discriminate).
  destruct (system_file None _ _ _ _ _ _ _ _ f Fx S) as [C _]. destruct (C fs0 Fs) as (fs & F1 & F2 & _ & F4).
  exists fs. split; [exact F1|]. split; [exact F2|]. split; [|split].
  - intros limit Fl Hb. assert (Fx' : ffixes (Some limit)) by (intros l [= <-]; exact Fl).
    destruct (system_file (Some limit) _ _ _ _ _ _ _ _ f Fx' S) as [C' _]. destruct (C' fs0 Fs) as (fs' & G1 & _ & G3 & _).
    replace fs with fs'; [exact (G3 limit eq_refl Hb)|]. destruct G1 as (b' & B' & ->). destruct F1 as (b & B & ->).
    rewrite <- (below_more (fpath f) b (b + b') d) by (lia || exact B). rewrite <- (below_more (fpath f) b' (b + b') d) by (lia || exact B'). reflexivity.
  - exact F4.
  - intros k <-. apply (sub_filter (same_file ltb k)) in F2. rewrite filter_app in F2. pose proof (system_exec peqb path ltb _ _ _ _ _ _ _ _ S) as E.
    rewrite (filter_written k tr) in F2 by (intros k' e I; eapply written_file; eauto).
    eapply sub_prefix; [exact F2|]. eapply prefix_proof; [exact O|exact E].
Qed.
End Alias.
