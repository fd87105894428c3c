From Coq Require Import List Bool Arith Ascii Lia.
From Verif Require Import Base LoggerModel LoggerSpec LogFileModel LogFileSpec CrashModel CrashSpec.
Import ListNotations.

Section Prog.
Context {P : Type} (peqb : P -> P -> bool).
Hypothesis Peq : forall p q, peqb p q = true <-> p = q.
Notation bdisk := (bdisk P).
Notation st := (st P).
Notation prog := (prog P).
Notation put_at := (put_at peqb).
Notation create := (create peqb).
Notation flush := (flush peqb).
Notation pstep := (pstep peqb).
Notation run := (run peqb).
Implicit Types (d : bdisk) (s : st) (w c : bytes).

Lemma bput_same p x d : put_at p x d p = x.
Proof. unfold CrashModel.put_at. rewrite (proj2 (Peq p p) eq_refl). reflexivity. Qed.
Lemma bput_other p q x d : q <> p -> put_at p x d q = d q.
Proof. intros N. unfold CrashModel.put_at. destruct (peqb q p) eqn:E; [apply Peq in E; contradiction|reflexivity]. Qed.
Lemma p_dec (p q : P) : {p = q} + {p <> q}.
Proof. destruct (peqb p q) eqn:E; [left; apply Peq, E|right; intros X; apply Peq in X; congruence]. Qed.
Lemma create_spec p d : create p d p = Some (match d p with Some c => c | None => [] end) /\ (forall q, q <> p -> create p d q = d q).
Proof.
  unfold CrashModel.create. destruct (d p) eqn:E; [split; auto|]. split; [apply bput_same|intros q; apply bput_other].
Qed.

(** what will be in the files when the stream is closed *)
Definition logical s : bdisk :=
  match stream s with
  | Some (p, w) => put_at p (match on_disk s p with Some c => Some (c ++ w) | None => None end) (on_disk s)
  | None => on_disk s
  end.
Lemma logical_at s p w : stream s = Some (p, w) -> logical s p = match on_disk s p with Some c => Some (c ++ w) | None => None end.
Proof. intros E. unfold logical. rewrite E. apply bput_same. Qed.
Lemma logical_off s p w q : stream s = Some (p, w) -> q <> p -> logical s q = on_disk s q.
Proof. intros E N. unfold logical. rewrite E. apply bput_other, N. Qed.
Lemma logical_closed s q : on_disk (closed peqb s) q = logical s q.
Proof. unfold closed, logical. destruct (stream s) as [[p w]|]; reflexivity. Qed.
Lemma closed_stream s : stream (closed peqb s) = None.
Proof. unfold closed. destruct (stream s) as [[p w]|] eqn:E; [reflexivity|exact E]. Qed.
Lemma flush_stream n s : stream (flush n s) = match stream s with Some (p, w) => Some (p, skipn n w) | None => None end.
Proof. unfold CrashModel.flush. destruct (stream s) as [[p w]|] eqn:E; [reflexivity|exact E]. Qed.
Lemma flush_exists n s q : on_disk (flush n s) q <> None <-> on_disk s q <> None.
Proof.
  unfold CrashModel.flush. destruct (stream s) as [[p w]|]; [|tauto]. cbn [on_disk].
  destruct (p_dec q p) as [->|N]; [rewrite bput_same; destruct (on_disk s p); split; congruence|rewrite bput_other by exact N; tauto].
Qed.
Lemma flush_none n s : stream s = None -> flush n s = s.
Proof. intros E. unfold CrashModel.flush. rewrite E. reflexivity. Qed.
Lemma flush_logical n s q : logical (flush n s) q = logical s q.
Proof.
  unfold logical, CrashModel.flush. destruct (stream s) as [[p w]|] eqn:E; [|rewrite E; reflexivity]. cbn [stream on_disk].
  destruct (p_dec q p) as [->|N]; [|rewrite !bput_other by exact N; reflexivity]. rewrite !bput_same.
  destruct (on_disk s p); [|reflexivity]. rewrite <- app_assoc, firstn_skipn. reflexivity.
Qed.

(** ** Hoare triples: [I] holds all the time, [Q] at the end *)
Definition stable (A : st -> Prop) : Prop := forall n s, A s -> A (flush n s).
Definition triple (I : st -> Prop) (A : st -> Prop) (p : prog) (Q : outcome -> st -> Prop) : Prop :=
  forall s s' p', A s -> run s p s' p' -> I s' /\ (forall o, p' = End o -> Q o s').
Lemma triple_step (I A : st -> Prop) p Q : stable A -> (forall s, A s -> I s) -> (forall o, p <> End o) ->
  (forall s s1 p1, A s -> pstep s p s1 p1 -> (exists n, s1 = flush n s /\ p1 = p) \/ exists A', A' s1 /\ triple I A' p1 Q) -> triple I A p Q.
Proof.
  intros St AI Ne Nx s s' p' As R. remember p as p0 eqn:Ep. induction R as [|s p0 s1 p1 s2 p2 S1 R IH]; subst.
  - split; [apply AI, As|intros o E; exfalso; eapply Ne, E].
  - destruct (Nx _ _ _ As S1) as [(n & -> & ->)|(A' & A1 & T)]; [|exact (T _ _ _ A1 R)].
    apply IH; auto.
Qed.
Lemma triple_end (I A : st -> Prop) o (Q : outcome -> st -> Prop) : stable A -> (forall s, A s -> I s) -> (forall s, A s -> Q o s) -> triple I A (End o) Q.
Proof.
  intros St AI AQ s s' p' As R. remember (End o) as p0 eqn:Ep. induction R as [|s p0 s1 p1 s2 p2 S1 R IH]; subst.
  - split; [apply AI, As|intros o' [= <-]; apply AQ, As].
  - inversion S1; subst. apply IH; [apply St, As|reflexivity].
Qed.
Lemma triple_weak (I A A' : st -> Prop) p Q : (forall s, A s -> A' s) -> triple I A' p Q -> triple I A p Q.
Proof. intros W T s s' p' As. apply T, W, As. Qed.
Ltac nodes := intros s s1 p1 As S1; inversion S1; subst; [left; eexists; split; reflexivity|..]; right.
Lemma triple_put (I A A' : st -> Prop) b k Q : stable A -> (forall s, A s -> I s) -> (forall s, A s -> A' (put b s)) -> triple I A' k Q -> triple I A (Put b k) Q.
Proof. intros St AI N T. apply triple_step; auto; [discriminate|]. nodes. exists A'. auto. Qed.
Lemma triple_close (I A A' : st -> Prop) k Q : stable A -> (forall s, A s -> I s) -> (forall s, A s -> A' (closed peqb s)) -> triple I A' k Q -> triple I A (Close k) Q.
Proof. intros St AI N T. apply triple_step; auto; [discriminate|]. nodes. exists A'. auto. Qed.
Lemma triple_tell (I A : st -> Prop) f Q : stable A -> (forall s, A s -> I s) -> (forall s, A s -> exists A', A' s /\ triple I A' (f (tell s)) Q) -> triple I A (Tell f) Q.
Proof. intros St AI N. apply triple_step; auto; [discriminate|]. nodes. auto. Qed.
Lemma triple_exists (I A F : st -> Prop) p f fail Q : stable A -> (forall s, A s -> I s) ->
  (forall s, A s -> exists A', A' s /\ triple I A' (f (match on_disk s p with Some _ => true | None => false end)) Q) ->
  (forall s, A s -> F s) -> triple I F fail Q -> triple I A (Exists p f fail) Q.
Proof. intros St AI N AF T. apply triple_step; auto; [discriminate|]. nodes; [auto|]. exists F. auto. Qed.
Lemma triple_remove (I A A' F : st -> Prop) p ok fail Q : stable A -> (forall s, A s -> I s) -> (forall s, A s -> A' (removed peqb p s)) -> triple I A' ok Q ->
  (forall s, A s -> F s) -> triple I F fail Q -> triple I A (Remove p ok fail) Q.
Proof. intros St AI N T AF TF. apply triple_step; auto; [discriminate|]. nodes; [exists A'|exists F]; auto. Qed.
Lemma triple_rename (I A A' F : st -> Prop) p q ok fail Q : stable A -> (forall s, A s -> I s) -> (forall s, A s -> A' (renamed peqb p q s)) -> triple I A' ok Q ->
  (forall s, A s -> F s) -> triple I F fail Q -> triple I A (Rename p q ok fail) Q.
Proof. intros St AI N T AF TF. apply triple_step; auto; [discriminate|]. nodes; [exists A'|exists F]; auto. Qed.
Lemma triple_open (I A A' F : st -> Prop) p ok fail Q : stable A -> (forall s, A s -> I s) -> (forall s, A s -> A' (opened_at peqb p s)) -> triple I A' ok Q ->
  (forall s, A s -> F s) -> (forall s, A s -> F (St (create p (on_disk s)) (stream s))) -> triple I F fail Q -> triple I A (Open p ok fail) Q.
Proof. intros St AI N T AF AB TF. apply triple_step; auto; [discriminate|]. nodes; [exists A'|exists F|exists F]; auto. Qed.

(** ** One entry *)
Section Entry.
Variable path : nat -> P.
Hypothesis Inj : forall i j, path i = path j -> i = j.
(** removing files from number [limit] on, if all the files before it exist, and renaming files to the next number if it is free *)
Inductive moves (limit : nat) d : bdisk -> Prop :=
| mv_same d' : (forall p, d' p = d p) -> moves limit d d'
| mv_remove d1 d' i : moves limit d d1 -> limit <= i -> (forall j, j < limit -> d1 (path j) <> None) ->
    (forall p, d' p = put_at (path i) None d1 p) -> moves limit d d'
| mv_rename d1 d' i : moves limit d d1 -> i < limit -> d1 (path (S i)) = None ->
    (forall p, d' p = put_at (path (S i)) (d1 (path i)) (put_at (path i) None d1) p) -> moves limit d d'.

Variables (fuel limit rsize : nat) (header : bool) (ht lt : bytes) (D0 : bdisk) (c0 : bytes) (n0 : nat).
Hypothesis C0 : D0 (path 0) = Some c0.
(** the stream is open and the bytes [done] of the block have been written *)
Definition emitting (done rest : bytes) s : Prop :=
  exists D1 c1 n1 w,
  ((c1 = c0 /\ n1 = n0 /\ (rsize = 0 \/ length c0 < rsize) /\ (forall p, D1 p = D0 p)) \/
   (c1 = [] /\ n1 = 0 /\ 0 < rsize <= length c0 /\ moves limit D0 D1 /\ D1 (path 0) = None)) /\
  block header ht lt (length c1) = done ++ rest /\
  stream s = Some (path 0, w) /\ length w <= n1 + length done /\ on_disk s (path 0) <> None /\
  (forall p, logical s p = put_at (path 0) (Some (c1 ++ done)) D1 p).
(** the files are being rotated *)
Definition rotating s : Prop :=
  stream s = None /\ 0 < rsize <= length c0 /\
  exists D1, moves limit D0 D1 /\
  ((forall p, on_disk s p = D1 p) \/ (D1 (path 0) = None /\ forall p, on_disk s p = put_at (path 0) (Some []) D1 p)).
(** nothing has happened *)
Definition ready s : Prop :=
  exists w, stream s = Some (path 0, w) /\ length w <= n0 /\ on_disk s (path 0) <> None /\ (forall p, logical s p = D0 p).
Definition all_time s : Prop := ready s \/ rotating s \/ exists done rest, emitting done rest s.
Definition finally (o : outcome) s : Prop :=
  match o with Done => exists done, emitting done [] s | _ => rotating s end.

Lemma stable_ready : stable ready.
Proof.
  intros n s (w & A & B & C & D). exists (skipn n w). rewrite flush_stream, A. split; [reflexivity|].
  split; [rewrite skipn_length; lia|]. split; [apply flush_exists, C|]. intros p. rewrite flush_logical. apply D.
Qed.
Lemma stable_emitting done rest : stable (emitting done rest).
Proof.
  intros n s (D1 & c1 & n1 & w & A & B & C & D & E & F). exists D1, c1, n1, (skipn n w). split; [exact A|]. split; [exact B|].
  rewrite flush_stream, C. split; [reflexivity|]. split; [rewrite skipn_length; lia|]. split; [apply flush_exists, E|].
  intros p. rewrite flush_logical. apply F.
Qed.
Lemma stable_closed (A : st -> Prop) : (forall s, A s -> stream s = None) -> stable A.
Proof. intros H n s As. rewrite flush_none by (apply H, As). exact As. Qed.

Lemma triple_puts rest : forall done, triple all_time (emitting done rest) (puts rest (End Done)) finally.
Proof.
  induction rest as [|b rest IH]; intros done; cbn [puts].
  - apply triple_end; [apply stable_emitting|intros s A; right; right; exists done, []; exact A|intros s A; exists done; exact A].
  - apply (triple_put _ _ (emitting (done ++ [b]) rest)); [apply stable_emitting|intros s A; right; right; exists done, (b :: rest); exact A| |apply IH].
    intros s (D1 & c1 & n1 & w & A & B & C & D & E & F). exists D1, c1, n1, (w ++ [b]). split; [exact A|].
    split; [rewrite <- app_assoc; exact B|]. unfold put. rewrite C. split; [reflexivity|]. split; [rewrite !app_length; cbn; lia|].
    split; [exact E|]. intros p. unfold logical. cbn [stream on_disk]. destruct (p_dec p (path 0)) as [->|N].
    + specialize (F (path 0)). rewrite (logical_at _ _ _ C), bput_same in F. rewrite !bput_same. destruct (on_disk s (path 0)); [|discriminate].
      injection F as F. rewrite app_assoc, F, app_assoc. reflexivity.
    + specialize (F p). rewrite (logical_off _ _ _ _ C N), bput_other in F by exact N. rewrite !bput_other by exact N. exact F.
Qed.
(** the second loop and what follows *)
Definition shifting (i : nat) s : Prop :=
  stream s = None /\ 0 < rsize <= length c0 /\ i <= limit /\ on_disk s (path i) = None /\ exists D1, moves limit D0 D1 /\ forall p, on_disk s p = D1 p.
Definition rest_p : prog := Open (path 0) (Tell (fun size => puts (block header ht lt size) (End Done))) (End Threw).
Lemma triple_threw : triple all_time rotating (End Threw) finally.
Proof. apply triple_end; [apply stable_closed; intros s A; apply A|intros s A; right; left; exact A|intros s A; exact A]. Qed.
Lemma triple_rest : triple all_time (shifting 0) rest_p finally.
Proof.
  assert (X : forall s, shifting 0 s -> rotating s).
  { intros s (A & B & _ & _ & D1 & C & D). split; [exact A|]. split; [exact B|]. exists D1. auto. }
  apply (triple_open _ _ (fun s => exists rest, emitting [] rest s /\ tell s = 0) rotating); auto.
  - apply stable_closed. intros s A. apply A.
  - intros s A. right. left. apply X, A.
  - intros s (A & B & _ & C & D1 & D & E). exists (block header ht lt 0). split; [|unfold tell, opened_at; cbn; rewrite (proj1 (create_spec _ _)), C; reflexivity].
    exists D1, [], 0, []. split; [right; repeat split; auto; try lia; rewrite <- E; exact C|]. split; [reflexivity|].
    unfold opened_at. cbn [stream on_disk]. split; [reflexivity|]. split; [reflexivity|]. split; [rewrite (proj1 (create_spec _ _)); discriminate|].
    intros p. unfold logical. cbn [stream on_disk]. destruct (p_dec p (path 0)) as [->|N].
    + rewrite !bput_same, (proj1 (create_spec _ _)), C. reflexivity.
    + rewrite !bput_other by exact N. rewrite (proj2 (create_spec _ _)) by exact N. apply E.
  - apply triple_tell.
    + intros n s (rest & A & B). exists rest. split; [apply stable_emitting, A|]. unfold tell in *. rewrite flush_stream.
      destruct A as (D1 & c1 & n1 & w & _ & _ & C & _ & E & _). rewrite C in B |- *. unfold CrashModel.flush. rewrite C. cbn [on_disk]. rewrite bput_same.
      destruct (on_disk s (path 0)) as [x|]; [|congruence]. rewrite app_length, firstn_length, skipn_length. destruct x; [|cbn in B; lia]. cbn in *. lia.
    + intros s (rest & A & _). right. right. exists [], rest. exact A.
    + intros s (rest & A & B). exists (emitting [] rest). split; [exact A|]. rewrite B.
      destruct A as (D1 & c1 & n1 & w & A & Bl & C & _ & E & F).
      assert (Z : length c1 = 0).
      { specialize (F (path 0)). rewrite (logical_at _ _ _ C), bput_same, app_nil_r in F. unfold tell in B. rewrite C in B.
        destruct (on_disk s (path 0)); [|congruence]. injection F as <-. rewrite app_length. lia. }
      rewrite Z in Bl. rewrite Bl. apply triple_puts.
  - intros s (A & B & _ & C & D1 & D & E). split; [exact A|]. split; [exact B|]. exists D1. split; [exact D|]. right. rewrite <- E. split; [exact C|].
    intros p. cbn [on_disk]. destruct (p_dec p (path 0)) as [->|N].
    + rewrite (proj1 (create_spec _ _)), C, bput_same. reflexivity.
    + rewrite (proj2 (create_spec _ _)), bput_other by exact N. apply E.
  - apply triple_threw.
Qed.
Lemma shifting_rotating i s : shifting i s -> rotating s.
Proof. intros (A & B & _ & _ & D1 & C & D). split; [exact A|]. split; [exact B|]. exists D1. auto. Qed.
Lemma triple_shift i : triple all_time (shifting i) (shift_p path i rest_p) finally.
Proof.
  induction i as [|i IH]; [apply triple_rest|]. cbn [shift_p].
  apply (triple_rename _ _ (shifting i) rotating); auto.
  - apply stable_closed. intros s A. apply A.
  - intros s A. right. left. apply (shifting_rotating (S i)), A.
  - intros s (A & B & Li & C & D1 & D & E). unfold renamed. split; [exact A|]. split; [exact B|]. split; [lia|]. cbn [on_disk].
    assert (N : path i <> path (S i)) by (intros X; apply Inj in X; lia).
    split; [rewrite bput_other by exact N; apply bput_same|].
    exists (put_at (path (S i)) (on_disk s (path i)) (put_at (path i) None (on_disk s))). split; [|reflexivity].
    apply (mv_rename _ _ D1 _ i); [exact D|lia|rewrite <- E; exact C|]. intros p.
    destruct (p_dec p (path (S i))) as [->|N1]; [rewrite !bput_same; apply E|]. rewrite !(bput_other (path (S i))) by exact N1.
    destruct (p_dec p (path i)) as [->|N2]; [rewrite !bput_same; reflexivity|]. rewrite !bput_other by exact N2. apply E.
  - intros s A. apply (shifting_rotating (S i)), A.
  - apply triple_threw.
Qed.
(** the first loop *)
Definition scanning (i num : nat) s : Prop :=
  stream s = None /\ 0 < rsize <= length c0 /\ num = Nat.min i limit /\ (limit < i -> on_disk s (path limit) = None) /\
  (forall j, j < num -> on_disk s (path j) <> None) /\ exists D1, moves limit D0 D1 /\ forall p, on_disk s p = D1 p.
Lemma scanning_rotating i num s : scanning i num s -> rotating s.
Proof. intros (A & B & _ & _ & _ & D1 & C & D). split; [exact A|]. split; [exact B|]. exists D1. auto. Qed.
Lemma triple_scan f : forall i num, triple all_time (scanning i num) (scan_p path limit f i num (fun num => shift_p path num rest_p)) finally.
Proof.
  assert (St : forall i num, stable (scanning i num)) by (intros i num; apply stable_closed; intros s A; apply A).
  assert (At : forall i num s, scanning i num s -> all_time s) by (intros i num s A; right; left; apply (scanning_rotating i num), A).
  induction f as [|f IH]; intros i num; cbn [scan_p].
  - apply triple_end; eauto. intros s A. apply (scanning_rotating i num), A.
  - apply (triple_exists _ _ rotating); eauto; [|intros s A; apply (scanning_rotating i num), A|apply triple_threw].
    intros s A. destruct (on_disk s (path i)) as [c|] eqn:Di.
    + destruct (Nat.ltb_spec i limit) as [Lt|Ge].
      * exists (scanning (S i) (S num)). split; [|apply IH]. destruct A as (A1 & A2 & A3 & A4 & A7 & A5). split; [exact A1|]. split; [exact A2|]. split; [lia|]. split; [lia|]. split; [|exact A5].
        intros j Hj. destruct (Nat.eq_dec j i) as [->|]; [congruence|apply A7; lia].
      * exists (scanning i num). split; [exact A|]. apply (triple_remove _ _ (scanning (S i) num) rotating); eauto; [|intros t X; apply (scanning_rotating i num), X|apply triple_threw].
        intros t (A1 & A2 & A3 & A4 & A7 & D1 & A5 & A6). unfold removed. split; [exact A1|]. split; [exact A2|]. split; [lia|]. cbn [on_disk]. split; [|split].
        -- intros _. destruct (p_dec (path limit) (path i)) as [->|N]; [apply bput_same|]. rewrite bput_other by exact N. apply A4.
           assert (limit <> i) by congruence. lia.
        -- intros j Hj. rewrite bput_other; [apply A7, Hj|]. intros X. apply Inj in X. lia.
        -- exists (put_at (path i) None (on_disk t)). split; [|reflexivity]. apply (mv_remove _ _ D1 _ i); [exact A5|exact Ge|intros j Hj; rewrite <- A6; apply A7; lia|].
           intros p. destruct (p_dec p (path i)) as [->|N]; [rewrite !bput_same; reflexivity|]. rewrite !bput_other by exact N. apply A6.
    + exists (shifting num). split; [|apply triple_shift]. destruct A as (A1 & A2 & A3 & A4 & _ & A5). split; [exact A1|]. split; [exact A2|]. split; [lia|]. split; [|exact A5].
      destruct (Nat.le_gt_cases i limit) as [Le|Gt]; [replace num with i by lia; exact Di|]. replace num with limit by lia. apply A4, Gt.
Qed.
Lemma triple_entry : triple all_time ready (entry_p path fuel limit rsize header ht lt) finally.
Proof.
  unfold entry_p. apply triple_tell; [apply stable_ready|intros s A; left; exact A|]. intros s A. exists ready. split; [exact A|].
  assert (T : tell s = length c0).
  { destruct A as (w & A & _ & B & C). specialize (C (path 0)). rewrite (logical_at _ _ _ A), C0 in C. unfold tell. rewrite A.
    destruct (on_disk s (path 0)); [|congruence]. injection C as <-. rewrite app_length. reflexivity. }
  rewrite T. destruct (negb (rsize =? 0) && (rsize <=? length c0)) eqn:Rt.
  - apply andb_true_iff in Rt. destruct Rt as [R1 R2]. apply negb_true_iff, Nat.eqb_neq in R1. apply Nat.leb_le in R2.
    apply (triple_close _ _ (scanning 0 0)); [apply stable_ready|intros t X; left; exact X| |apply triple_scan].
    intros t (w & A1 & A2 & A3 & A4). split; [apply closed_stream|]. split; [lia|]. split; [reflexivity|]. split; [lia|]. split; [lia|].
    exists D0. split; [apply mv_same; reflexivity|]. intros p. rewrite logical_closed. apply A4.
  - apply (triple_weak _ _ (emitting [] (block header ht lt (length c0)))); [|apply triple_puts].
    intros t (w & A1 & A2 & A3 & A4). exists D0, c0, n0, w. split; [left|].
    + split; [reflexivity|]. split; [reflexivity|]. split; [|reflexivity]. apply andb_false_iff in Rt. destruct Rt as [R1|R1].
      * apply negb_false_iff, Nat.eqb_eq in R1. auto.
      * apply Nat.leb_gt in R1. auto.
    + split; [reflexivity|]. split; [exact A1|]. split; [cbn; lia|]. split; [exact A3|]. intros p. rewrite A4, app_nil_r.
      destruct (p_dec p (path 0)) as [->|N]; [rewrite bput_same; exact C0|rewrite bput_other by exact N; reflexivity].
Qed.
End Entry.
End Prog.
