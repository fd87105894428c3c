(** Proofs about log files that other programs use. *)
From Coq Require Import List Bool Arith Ascii Lia Permutation.
From Verif Require Import Base ListUpdate LogFileModel CrashModel OutsideModel OutsideSpec.
Import ListNotations.

Lemma set_here {A : Type} i (x : A) f : set_nat i x f i = x.
Proof. unfold set_nat. rewrite Nat.eqb_refl. reflexivity. Qed.
Lemma set_else {A : Type} i (x : A) f j : j <> i -> set_nat i x f j = f j.
Proof. unfold set_nat. intros N. apply Nat.eqb_neq in N. rewrite N. reflexivity. Qed.

(** * Tagged bytes *)
Lemma tagged_length i l : forall n, length (tagged i n l) = length l.
Proof. induction l as [|b l IH]; intros n; cbn; [reflexivity|]. rewrite IH. reflexivity. Qed.
Lemma tagged_from i l : forall n, from n (tagged i n l).
Proof. induction l as [|b l IH]; intros n; cbn; auto. Qed.
Lemma tagged_of i l : forall n, Forall (fun x => is_of i x = true) (tagged i n l).
Proof. induction l as [|b l IH]; intros n; cbn; constructor; [apply Nat.eqb_refl|apply IH]. Qed.
Lemma tagged_plain i l : forall n, map plain_byte (tagged i n l) = l.
Proof. induction l as [|b l IH]; intros n; cbn; [reflexivity|]. rewrite IH. reflexivity. Qed.
Lemma from_app l : forall n l', from n l -> from (n + length l) l' -> from n (l ++ l').
Proof.
  induction l as [|x l IH]; intros n l' A B; cbn in *; [rewrite Nat.add_0_r in B; exact B|]. destruct A as (A1 & A2). split; [exact A1|].
  apply IH; [exact A2|]. replace (S n + length l) with (n + S (length l)) by lia. exact B.
Qed.
Lemma from_bounds l : forall n, from n l -> Forall (fun x => n <= number x < n + length l) l.
Proof.
  induction l as [|x l IH]; intros n A; cbn in *; constructor; [lia|]. destruct A as (_ & A). eapply Forall_impl; [|exact (IH _ A)].
  intros y B. cbn in B. lia.
Qed.
Lemma from_ascending l : forall n, from n l -> ascending l.
Proof.
  induction l as [|x l IH]; intros n A; cbn in *; auto. destruct A as (A1 & A2). split; [|exact (IH _ A2)].
  eapply Forall_impl; [|exact (from_bounds _ _ A2)]. intros y B. cbn in B. lia.
Qed.
Lemma ascending_app l l' : ascending l -> ascending l' -> (forall x y, In x l -> In y l' -> number x < number y) -> ascending (l ++ l').
Proof.
  induction l as [|x l IH]; cbn; [auto|]. intros (A1 & A2) B C. split.
  - apply Forall_app. split; [exact A1|]. apply Forall_forall. intros y I. apply C; auto.
  - apply IH; auto.
Qed.
Lemma ascending_left l l' : ascending (l ++ l') -> ascending l.
Proof. induction l as [|x l IH]; cbn; [auto|]. intros (A & B). apply Forall_app in A. split; [apply A|auto]. Qed.
Lemma ascending_right l l' : ascending (l ++ l') -> ascending l'.
Proof. induction l as [|x l IH]; cbn; [auto|]. intros (A & B). auto. Qed.
Lemma ascending_between l l' : ascending (l ++ l') -> forall x y, In x l -> In y l' -> number x < number y.
Proof.
  induction l as [|z l IH]; cbn; [intros _ x y []|]. intros (A & B) x y [->|I] J; [|exact (IH B _ _ I J)].
  rewrite Forall_forall in A. apply A, in_or_app. right. exact J.
Qed.
Lemma mine_app i l l' : mine i (l ++ l') = mine i l ++ mine i l'.
Proof. apply filter_app. Qed.
Lemma mine_all i l : Forall (fun x => is_of i x = true) l -> mine i l = l.
Proof. intros F. induction F as [|x l E F IH]; [reflexivity|]. cbn. rewrite E. f_equal. exact IH. Qed.
Lemma mine_other i j l : i <> j -> Forall (fun x => is_of j x = true) l -> mine i l = [].
Proof.
  intros N F. induction F as [|x l E F IH]; [reflexivity|]. cbn. fold (mine i l). rewrite IH. destruct x as [b|k n b]; cbn in *; [discriminate|].
  apply Nat.eqb_eq in E. subst k. destruct (j =? i) eqn:E; [apply Nat.eqb_eq in E; congruence|reflexivity].
Qed.
Lemma mine_past i l : Forall is_past l -> mine i l = [].
Proof. intros F. induction F as [|x l E F IH]; [reflexivity|]. cbn. fold (mine i l). rewrite IH. destruct x; [reflexivity|contradiction]. Qed.

(** a file that grows *)
Lemma grow (i k : nat) (d : nat -> list tbyte) l : forall L, NoDup L -> In k L ->
  Permutation (flat_map (fun o => mine i (set_nat k (d k ++ l) d o)) L) (flat_map (fun o => mine i (d o)) L ++ mine i l).
Proof.
  assert (E : forall L, ~ In k L -> flat_map (fun o => mine i (set_nat k (d k ++ l) d o)) L = flat_map (fun o => mine i (d o)) L).
  { induction L as [|x L IH]; intros N; [reflexivity|]. cbn. rewrite set_else by (intros ->; apply N; left; reflexivity).
    rewrite IH; [reflexivity|]. intros I. apply N. right. exact I. }
  induction L as [|x L IH]; intros N I; [destruct I|]. inversion N as [|? ? N1 N2]; subst. cbn.
  destruct (Nat.eq_dec x k) as [->|D].
  - rewrite set_here, (E L N1), mine_app, <- !app_assoc. apply Permutation_app_head, Permutation_app_comm.
  - rewrite set_else by exact D. destruct I as [->|I]; [congruence|]. rewrite <- app_assoc. apply Permutation_app_head, (IH N2 I).
Qed.

Local Arguments set_nat : simpl never.
Local Arguments set_path : simpl never.
Local Arguments mine : simpl never.
Section Outside.
Context {P : Type} (peqb : P -> P -> bool).
Hypothesis peqb_ok : forall p q, peqb p q = true <-> p = q.
Variables (H : bool -> Prop) (HT LT : list ascii -> Prop).
Notation xstep := (xstep peqb H HT LT).
Notation xrun := (xrun peqb H HT LT).
Notation fs := (fs P).

Lemma puts_app i tr tr' : puts_of i (tr ++ tr') = @puts_of P i tr ++ puts_of i tr'.
Proof. apply flat_map_app. Qed.
Lemma put_app i tr tr' : put_by i (tr ++ tr') = @put_by P i tr ++ put_by i tr'.
Proof. unfold put_by. rewrite puts_app. apply concat_app. Qed.

(** * Streams and inodes *)
Definition wf (s : fs) : Prop :=
  (forall p o, dir s p = Some o -> o < next_inode s) /\
  (forall i f, streams s i = Some f -> inode f < next_inode s /\ Forall (fun x => is_of i x = true) (buf f)) /\
  (forall o, next_inode s <= o -> data s o = []).
Lemma wf_init s : xinit s -> wf s.
Proof. intros (A & B & C & D & E). split; [exact C|]. split; [intros i f X; rewrite A in X; discriminate|exact E]. Qed.
Lemma wf_step s e s' : wf s -> xstep s e s' -> wf s'.
Proof.
  intros (A & B & C) S. destruct S as [i p o E1 E2|i p E1 E2|i f hd ht lt E1 H1 H2 H3 l|i f l rest E1 E2 E3|i f E1 E2|p q o E1 E2|p]; unfold wf; cbn.
  - split; [exact A|]. split; [|exact C]. intros j f. unfold set_nat. destruct (j =? i) eqn:Ej.
    + intros E. injection E as <-. cbn. split; [exact (A _ _ E2)|constructor].
    + apply B.
  - split; [|split].
    + intros q o. unfold set_path. destruct (peqb q p); [intros E; injection E as <-; lia|]. intros E. specialize (A _ _ E). lia.
    + intros j f. unfold set_nat. destruct (j =? i).
      * intros E. injection E as <-. cbn. split; [lia|constructor].
      * intros E. destruct (B _ _ E). split; [lia|assumption].
    + intros o L. rewrite set_else by lia. apply C. lia.
  - split; [exact A|]. split; [|exact C]. intros j g. unfold set_nat. destruct (j =? i) eqn:Ej; [|apply B].
    apply Nat.eqb_eq in Ej. subst j. intros E. injection E as <-. destruct (B _ _ E1) as (B1 & B2). cbn. split; [exact B1|].
    apply Forall_app. split; [exact B2|apply tagged_of].
  - destruct (B _ _ E1) as (B1 & B2). rewrite E2 in B2. apply Forall_app in B2. split; [exact A|]. split.
    + intros j g. unfold set_nat. destruct (j =? i) eqn:Ej; [|apply B]. apply Nat.eqb_eq in Ej. subst j. intros E. injection E as <-. cbn.
      split; [exact B1|apply B2].
    + intros o L. rewrite set_else by lia. apply C. exact L.
  - split; [exact A|]. split; [|exact C]. intros j g. unfold set_nat. destruct (j =? i); [discriminate|apply B].
  - split; [|split; [exact B|exact C]]. intros x y. unfold set_path. destruct (peqb x q); [intros E; injection E as <-; exact (A _ _ E1)|].
    destruct (peqb x p); [discriminate|apply A].
  - split; [|split; [exact B|exact C]]. intros x y. unfold set_path. destruct (peqb x p); [discriminate|apply A].
Qed.
Lemma wf_run s0 tr s : wf s0 -> xrun s0 tr s -> wf s.
Proof. intros W R. induction R as [|tr s e s' R IH S]; [exact W|]. exact (wf_step _ _ _ IH S). Qed.

(** * Nothing is lost or duplicated, and the order is kept in each file *)
Definition files_of (i : nat) (s : fs) : list tbyte := flat_map (fun o => mine i (data s o)) (seq 0 (next_inode s)).
Definition counted (i : nat) (tr : list (xevent P)) (s : fs) : Prop :=
  from 0 (put_by i tr) /\ length (put_by i tr) = written s i /\ Permutation (files_of i s ++ pending i s) (put_by i tr) /\
  ascending (pending i s) /\ forall o, ascending (mine i (data s o)) /\ forall x y, In x (mine i (data s o)) -> In y (pending i s) -> number x < number y.
Lemma counted_init i s : xinit s -> counted i [] s.
Proof.
  intros (A & B & C & D & _). unfold counted, files_of, pending, put_by. cbn. rewrite A, B. split; [exact I|]. split; [reflexivity|]. split.
  - rewrite app_nil_r. replace (flat_map (fun o : nat => mine i (data s o)) (seq 0 (next_inode s))) with (@nil tbyte); [constructor|].
    induction (seq 0 (next_inode s)) as [|x l IH]; [reflexivity|]. cbn. rewrite mine_past by apply D. exact IH.
  - split; [exact I|]. intros o. rewrite mine_past by apply D. split; [exact I|intros x y []].
Qed.
Lemma counted_step i tr s e s' : wf s -> counted i tr s -> xstep s e s' -> counted i (tr ++ [e]) s'.
Proof.
  intros W (A & B & C & D & F) S. pose proof W as (W1 & W2 & W3). unfold counted. rewrite put_app. unfold put_by at 2 4 6. unfold files_of, pending in *.
  destruct S as [j p o E1 E2|j p E1 E2|j f hd ht lt E1 H1 H2 H3 l|j f l rest E1 E2 E3|j f E1 E2|p q o E1 E2|p]; cbn -[seq]; rewrite ?app_nil_r.
  - destruct (Nat.eq_dec i j) as [->|N]; [rewrite set_here, E1 in *|rewrite set_else by exact N]; cbn; repeat (split; [assumption|]); assumption.
  - assert (X : flat_map (fun o => mine i (set_nat (next_inode s) [] (data s) o)) (seq 0 (S (next_inode s))) =
               flat_map (fun o => mine i (data s o)) (seq 0 (next_inode s))).
    { rewrite seq_S, flat_map_app. cbn. rewrite set_here. cbn. rewrite app_nil_r.
      assert (Y : forall L, Forall (fun o => o < next_inode s) L ->
        flat_map (fun o => mine i (set_nat (next_inode s) [] (data s) o)) L = flat_map (fun o => mine i (data s o)) L).
      { intros L FL. induction FL as [|x L Lx FL IH]; [reflexivity|]. cbn. rewrite set_else by lia. rewrite IH. reflexivity. }
      apply Y. apply Forall_forall. intros x I. apply in_seq in I. lia. }
    rewrite X. clear X.
    assert (G : forall o, mine i (set_nat (next_inode s) [] (data s) o) = if o =? next_inode s then [] else mine i (data s o)).
    { intros o. unfold set_nat. destruct (o =? next_inode s); reflexivity. }
    destruct (Nat.eq_dec i j) as [->|N]; [rewrite set_here, E1 in *|rewrite set_else by exact N]; cbn; repeat (split; [assumption|]);
      intros o; rewrite G; destruct (o =? next_inode s); try apply F; (split; [exact I|intros x y []]).
  - destruct (Nat.eq_dec i j) as [->|N].
    + rewrite !set_here, Nat.eqb_refl. cbn. rewrite app_nil_r. rewrite E1 in *.
      assert (Lf : from (written s j) l) by apply tagged_from.
      split; [apply from_app; [exact A|]; rewrite B; exact Lf|]. split; [rewrite app_length; lia|]. split.
      { rewrite app_assoc. apply Permutation_app_tail. exact C. }
      assert (Bd : forall x, In x (files_of j s ++ buf f) -> number x < written s j).
      { intros x Ix. unfold files_of in Ix. apply (Permutation_in _ C) in Ix. pose proof (from_bounds _ _ A) as Q. rewrite Forall_forall in Q.
        specialize (Q _ Ix). cbn in Q. lia. }
      pose proof (from_bounds _ _ Lf) as Q. rewrite Forall_forall in Q.
      split.
      { apply ascending_app; [exact D|exact (from_ascending _ _ Lf)|]. intros x y Ix Iy. specialize (Q _ Iy). specialize (Bd x (in_or_app _ _ _ (or_intror Ix))). lia. }
      intros o. destruct (F o) as (F1 & F2). split; [exact F1|]. intros x y Ix Iy. apply in_app_or in Iy. destruct Iy as [Iy|Iy]; [exact (F2 _ _ Ix Iy)|].
      specialize (Q _ Iy). destruct (Nat.lt_ge_cases o (next_inode s)) as [L|L].
      * assert (Ix' : In x (files_of j s)) by (unfold files_of; apply in_flat_map; exists o; split; [apply in_seq; lia|exact Ix]).
        specialize (Bd x (in_or_app _ _ _ (or_introl Ix'))). lia.
      * rewrite W3 in Ix by exact L. destruct Ix.
    + rewrite !set_else by exact N. assert (X : (j =? i) = false) by (apply Nat.eqb_neq; congruence). rewrite X. cbn. rewrite app_nil_r. auto.
  - destruct (W2 _ _ E1) as (Lj & Fj). rewrite E2 in Fj. apply Forall_app in Fj. destruct Fj as (Fl & Fr).
    assert (Gr : Permutation (flat_map (fun o => mine i (set_nat (inode f) (data s (inode f) ++ l) (data s) o)) (seq 0 (next_inode s)))
                  (flat_map (fun o => mine i (data s o)) (seq 0 (next_inode s)) ++ mine i l)).
    { apply grow; [apply seq_NoDup|apply in_seq; lia]. }
    destruct (Nat.eq_dec i j) as [->|N].
    + rewrite set_here. cbn. rewrite (mine_all _ _ Fl) in Gr. rewrite E1, E2 in *.
      split; [exact A|]. split; [exact B|]. split.
      { eapply Permutation_trans; [|exact C]. rewrite app_assoc. apply Permutation_app_tail. exact Gr. }
      split; [exact (ascending_right _ _ D)|]. intros o. destruct (Nat.eq_dec o (inode f)) as [->|No].
      * rewrite set_here, mine_app, (mine_all _ _ Fl). destruct (F (inode f)) as (F1 & F2). split.
        -- apply ascending_app; [exact F1|exact (ascending_left _ _ D)|]. intros x y Ix Iy. apply F2; [exact Ix|]. apply in_or_app. left. exact Iy.
        -- intros x y Ix Iy. apply in_app_or in Ix. destruct Ix as [Ix|Ix]; [apply F2; [exact Ix|apply in_or_app; right; exact Iy]|].
           exact (ascending_between _ _ D _ _ Ix Iy).
      * rewrite set_else by exact No. destruct (F o) as (F1 & F2). split; [exact F1|]. intros x y Ix Iy. apply F2; [exact Ix|]. apply in_or_app. right. exact Iy.
    + rewrite set_else by exact N. rewrite (mine_other _ _ _ N Fl), app_nil_r in Gr.
      split; [exact A|]. split; [exact B|]. split; [eapply Permutation_trans; [|exact C]; apply Permutation_app_tail; exact Gr|].
      split; [exact D|]. intros o. destruct (Nat.eq_dec o (inode f)) as [->|No].
      * rewrite set_here, mine_app, (mine_other _ _ _ N Fl), app_nil_r. apply F.
      * rewrite set_else by exact No. apply F.
  - destruct (Nat.eq_dec i j) as [->|N]; [rewrite set_here, E1, E2 in *|rewrite set_else by exact N]; cbn; repeat (split; [assumption|]); assumption.
  - repeat (split; [assumption|]). assumption.
  - repeat (split; [assumption|]). assumption.
Qed.
Lemma counted_run i s0 tr s : xinit s0 -> xrun s0 tr s -> counted i tr s.
Proof.
  intros W R. induction R as [|tr s e s' R IH S]; [exact (counted_init _ _ W)|].
  exact (counted_step _ _ _ _ _ (wf_run _ _ _ (wf_init _ W) R) IH S).
Qed.
Lemma shared_proof s0 tr s i : xinit s0 -> xrun s0 tr s ->
  Permutation (flat_map (fun o => mine i (data s o)) (seq 0 (next_inode s)) ++ pending i s) (put_by i tr) /\ from 0 (put_by i tr) /\
  (forall o, ascending (mine i (data s o))) /\ forall o, next_inode s <= o -> mine i (data s o) = [].
Proof.
  intros W R. destruct (counted_run i _ _ _ W R) as (A & B & C & D & F). split; [exact C|]. split; [exact A|]. split; [intros o; apply F|].
  intros o L. destruct (wf_run _ _ _ (wf_init _ W) R) as (_ & _ & X). rewrite (X o L). reflexivity.
Qed.

(** * Files that are renamed and removed *)
Lemma linked_rename s p q o d : dir s p = Some o -> dir s q = None -> linked s d ->
  linked (Fs (set_path peqb q (Some o) (set_path peqb p None (dir s))) (data s) (next_inode s) (streams s) (written s)) d.
Proof.
  intros E1 E2 (x & Ex). unfold linked, set_path. cbn. destruct (peqb x p) eqn:Ep.
  - apply peqb_ok in Ep. subst x. exists q. assert (Y : peqb q q = true) by (apply peqb_ok; reflexivity). rewrite Y. congruence.
  - exists x. assert (Y : peqb x q = false). { destruct (peqb x q) eqn:Y; [|reflexivity]. apply peqb_ok in Y. subst x. congruence. }
    rewrite Y, Ep. exact Ex.
Qed.
(** what [i] has written since it had written [n] bytes, and its stream, are in linked files *)
Definition kept (i n : nat) (s : fs) : Prop :=
  (forall o m b, In (Byte i m b) (data s o) -> n <= m -> linked s o) /\ (forall f, streams s i = Some f -> linked s (inode f)).
Lemma linked_same (s s' : fs) : dir s' = dir s -> forall o, linked s o -> linked s' o.
Proof. intros E o (p & Ep). exists p. rewrite E. exact Ep. Qed.
Lemma kept_step i n s e s' : wf s -> kept i n s -> xstep s e s' -> (forall p, e <> XRemove p) -> kept i n s'.
Proof.
  intros (W1 & W2 & W3) (A & B) S N. unfold kept.
  destruct S as [j p o E1 E2|j p E1 E2|j f hd ht lt E1 H1 H2 H3 l|j f l rest E1 E2 E3|j f E1 E2|p q o E1 E2|p]; cbn.
  - split; [intros; eapply linked_same; [|eapply A; eassumption]; reflexivity|]. intros f. unfold set_nat. destruct (i =? j).
    + intros E. injection E as <-. exists p. exact E2.
    + intros E. eapply linked_same; [|exact (B _ E)]. reflexivity.
  - assert (G : forall o, linked s o -> linked {| dir := set_path peqb p (Some (next_inode s)) (dir s); data := set_nat (next_inode s) [] (data s);
        next_inode := S (next_inode s); streams := set_nat j (Some {| inode := next_inode s; offset := 0; buf := [] |}) (streams s); written := written s |} o).
    { intros o (x & Ex). exists x. cbn. unfold set_path. destruct (peqb x p) eqn:Y; [apply peqb_ok in Y; congruence|exact Ex]. }
    split.
    + intros o m b. unfold set_nat. destruct (o =? next_inode s) eqn:Eo; [intros []|]. intros I Lm. apply G. exact (A _ _ _ I Lm).
    + intros f. unfold set_nat at 1. destruct (i =? j).
      * intros E. injection E as <-. exists p. cbn. unfold set_path. assert (Y : peqb p p = true) by (apply peqb_ok; reflexivity). rewrite Y. reflexivity.
      * intros E. apply G. exact (B _ E).
  - split; [intros; eapply linked_same; [|eapply A; eassumption]; reflexivity|]. intros g. unfold set_nat. destruct (i =? j) eqn:Ej.
    + apply Nat.eqb_eq in Ej. subst j. intros E. injection E as <-. cbn. eapply linked_same; [|exact (B _ E1)]. reflexivity.
    + intros E. eapply linked_same; [|exact (B _ E)]. reflexivity.
  - split.
    + intros o m b I Lm. eapply linked_same; [reflexivity|]. unfold set_nat in I. destruct (o =? inode f) eqn:Eo; [|exact (A _ _ _ I Lm)].
      apply Nat.eqb_eq in Eo. subst o. apply in_app_or in I. destruct I as [I|I]; [exact (A _ _ _ I Lm)|].
      destruct (W2 _ _ E1) as (_ & F). rewrite E2 in F. rewrite Forall_forall in F. specialize (F _ (in_or_app _ _ _ (or_introl I))). cbn in F.
      apply Nat.eqb_eq in F. subst j. exact (B _ E1).
    + intros g. unfold set_nat. destruct (i =? j) eqn:Ej.
      * apply Nat.eqb_eq in Ej. subst j. intros E. injection E as <-. cbn. eapply linked_same; [|exact (B _ E1)]. reflexivity.
      * intros E. eapply linked_same; [|exact (B _ E)]. reflexivity.
  - split; [intros; eapply linked_same; [|eapply A; eassumption]; reflexivity|]. intros g. unfold set_nat. destruct (i =? j); [discriminate|].
    intros E. eapply linked_same; [|exact (B _ E)]. reflexivity.
  - split; [intros o' m b I Lm; apply linked_rename; eauto|]. intros g E. apply linked_rename; eauto.
  - exfalso. exact (N p eq_refl).
Qed.
Lemma xrun_app s0 tr s : xrun s0 tr s -> forall tr' s', xrun s tr' s' -> xrun s0 (tr ++ tr') s'.
Proof.
  intros R tr' s' R'. induction R' as [|tr' s' e s'' R' IH S]; [rewrite app_nil_r; exact R|]. rewrite app_assoc. econstructor; eauto.
Qed.
Lemma written_bound i tr s : wf s -> counted i tr s -> forall o m b, In (Byte i m b) (data s o) -> m < written s i.
Proof.
  intros (_ & _ & W) (A & B & C & D & F) o m b I. assert (Im : In (Byte i m b) (mine i (data s o))) by (apply filter_In; split; [exact I|apply Nat.eqb_refl]).
  destruct (Nat.lt_ge_cases o (next_inode s)) as [L|L].
  - assert (X : In (Byte i m b) (put_by i tr)).
    { eapply Permutation_in; [exact C|]. apply in_or_app. left. unfold files_of. apply in_flat_map. exists o. split; [apply in_seq; lia|exact Im]. }
    pose proof (from_bounds _ _ A) as Q. rewrite Forall_forall in Q. specialize (Q _ X). cbn in Q. lia.
  - rewrite W in Im by exact L. destruct Im.
Qed.
(** what a process writes to the streams it opens after the last removal is in files that have a path *)
Lemma kept_proof s0 tr1 s1 tr2 s2 i o m b : xinit s0 -> xrun s0 tr1 s1 -> streams s1 i = None -> xrun s1 tr2 s2 -> no_removal tr2 ->
  In (Byte i m b) (data s2 o) -> written s1 i <= m -> linked s2 o.
Proof.
  intros W R1 E R2 N I L. pose proof (wf_run _ _ _ (wf_init _ W) R1) as W1. pose proof (counted_run i _ _ _ W R1) as C1.
  assert (K : kept i (written s1 i) s2); [|exact (proj1 K _ _ _ I L)]. clear I L.
  induction R2 as [|tr s e s' R2 IH S].
  - split; [|intros f Ef; congruence]. intros o' m' b' I' L'. pose proof (written_bound _ _ _ W1 C1 _ _ _ I'). lia.
  - apply (kept_step _ _ s e s'); [exact (wf_run _ _ _ W1 R2)| |exact S|].
    + apply IH. intros p Ip. apply (N p), in_or_app. left. exact Ip.
    + intros p ->. apply (N p), in_or_app. right. left. reflexivity.
Qed.
Lemma renamed_proof s0 tr s i o m b : xinit s0 -> xrun s0 tr s -> no_removal tr -> In (Byte i m b) (data s o) -> linked s o.
Proof.
  intros W R N I. apply (kept_proof s0 [] s0 tr s i o m b); auto; [constructor|apply W|]. destruct W as (_ & W & _). rewrite W. lia.
Qed.

(** * Whole flushes *)
Definition blocks_of (tr : list (xevent P)) (l : list tbyte) : Prop :=
  exists bs, l = concat bs /\ Forall (fun b => exists i, In (XPut i b) tr) bs.
Lemma blocks_more tr tr' l : blocks_of tr l -> blocks_of (tr ++ tr') l.
Proof.
  intros (bs & -> & F). exists bs. split; [reflexivity|]. eapply Forall_impl; [|exact F]. intros b (i & I). exists i. apply in_or_app. left. exact I.
Qed.
Lemma blocks_app tr l l' : blocks_of tr l -> blocks_of tr l' -> blocks_of tr (l ++ l').
Proof. intros (b1 & -> & F1) (b2 & -> & F2). exists (b1 ++ b2). split; [symmetry; apply concat_app|]. apply Forall_app. auto. Qed.
Lemma whole_left tr e : whole_flushes (tr ++ [e]) -> @whole_flushes P tr.
Proof. intros W i l rest I. apply (W i l rest), in_or_app. left. exact I. Qed.
Lemma whole_inv s0 tr s : xinit s0 -> xrun s0 tr s -> whole_flushes tr ->
  (forall o, exists l, data s o = data s0 o ++ l /\ blocks_of tr l) /\ (forall i f, streams s i = Some f -> blocks_of tr (buf f)).
Proof.
  intros I0 R. induction R as [|tr s e s' R IH S]; intros W.
  { split; [|intros i f E; destruct I0 as (I1 & _); rewrite I1 in E; discriminate]. intros o. exists [].
    split; [rewrite app_nil_r; reflexivity|]. exists []. split; [reflexivity|constructor]. }
  destruct (IH (whole_left _ _ W)) as (A & B). clear IH.
  assert (A' : forall o, exists l, data s o = data s0 o ++ l /\ blocks_of (tr ++ [e]) l).
  { intros o. destruct (A o) as (l & A1 & A2). exists l. split; [exact A1|]. apply blocks_more, A2. }
  assert (B' : forall i f, streams s i = Some f -> blocks_of (tr ++ [e]) (buf f)) by (intros i f E; apply blocks_more, (B _ _ E)).
  assert (Z : blocks_of (tr ++ [e]) []) by (exists []; split; [reflexivity|constructor]).
  pose proof (wf_run _ _ _ (wf_init _ I0) R) as (_ & _ & W3).
  destruct S as [j p o E1 E2|j p E1 E2|j f hd ht lt E1 H1 H2 H3 l|j f l rest E1 E2 E3|j f E1 E2|p q o E1 E2|p]; cbn; (split; [|]); auto.
  - intros i f. unfold set_nat. destruct (i =? j); [intros E; injection E as <-; exact Z|apply B'].
  - intros o. unfold set_nat. destruct (o =? next_inode s) eqn:Eo; [|apply A']. apply Nat.eqb_eq in Eo. subst o.
    destruct (A' (next_inode s)) as (l & A1 & A2). exists l. split; [|exact A2]. rewrite <- A1. symmetry. apply W3. lia.
  - intros i f. unfold set_nat. destruct (i =? j); [intros E; injection E as <-; exact Z|apply B'].
  - intros i g. unfold set_nat. destruct (i =? j) eqn:Ej; [|apply B']. intros E. injection E as <-. cbn. apply blocks_app; [exact (B' _ _ E1)|].
    exists [l]. split; [cbn; rewrite app_nil_r; reflexivity|]. constructor; [|constructor]. exists j. apply in_or_app. right. left. reflexivity.
  - assert (Er : rest = []) by (apply (W j l rest); apply in_or_app; right; left; reflexivity).
    intros o. unfold set_nat. destruct (o =? inode f) eqn:Eo; [|apply A']. apply Nat.eqb_eq in Eo. subst o.
    destruct (A' (inode f)) as (d & A1 & A2). exists (d ++ l). rewrite A1, <- app_assoc. split; [reflexivity|]. apply blocks_app; [exact A2|].
    pose proof (B' _ _ E1) as Bl. rewrite E2 in Bl. rewrite Er in Bl at 2. rewrite app_nil_r in Bl. exact Bl.
  - assert (Er : rest = []) by (apply (W j l rest); apply in_or_app; right; left; reflexivity).
    intros i g. unfold set_nat. destruct (i =? j) eqn:Ej; [|apply B']. intros E. injection E as <-. cbn. rewrite Er at 2. exact Z.
  - intros i g. unfold set_nat. destruct (i =? j); [discriminate|apply B'].
Qed.
Lemma put_block s0 tr s i b : xrun s0 tr s -> In (XPut i b) tr ->
  exists header ht lt n, H header /\ HT ht /\ LT lt /\ map plain_byte b = block header ht lt n.
Proof.
  intros R. induction R as [|tr s e s' R IH S]; intros I; [destruct I|]. apply in_app_or in I. destruct I as [I|[I|[]]]; [exact (IH I)|].
  destruct S as [j p o E1 E2|j p E1 E2|j f hd ht lt E1 H1 H2 H3 l|j f l rest E1 E2 E3|j f E1 E2|p q o E1 E2|p]; try discriminate I.
  injection I as I1 I2. subst i b. exists hd, ht, lt, (offset f + length (buf f)). split; [exact H1|]. split; [exact H2|]. split; [exact H3|].
  apply tagged_plain.
Qed.
Lemma block_lines header ht lt n : HT ht -> LT lt -> whole_lines (fun t => HT t \/ LT t) (block header ht lt n).
Proof.
  intros A B. unfold block. destruct (header && (n =? 0)).
  - exists [ht; lt]. split; [cbn; rewrite app_nil_r; reflexivity|]. constructor; [auto|]. constructor; [auto|constructor].
  - exists [lt]. split; [cbn; rewrite app_nil_r; reflexivity|]. constructor; [auto|constructor].
Qed.
Lemma lines_app T l l' : whole_lines T l -> whole_lines T l' -> whole_lines T (l ++ l').
Proof. intros (a & -> & A) (b & -> & B). exists (a ++ b). rewrite map_app, concat_app. split; [reflexivity|]. apply Forall_app. auto. Qed.
Lemma lines_proof s0 tr s o : xinit s0 -> xrun s0 tr s -> whole_flushes tr ->
  exists l, map plain_byte (data s o) = map plain_byte (data s0 o) ++ l /\ whole_lines (fun t => HT t \/ LT t) l.
Proof.
  intros I R W. destruct (whole_inv _ _ _ I R W) as (A & _). destruct (A o) as (l & E & bs & -> & F). exists (map plain_byte (concat bs)).
  rewrite E, map_app. split; [reflexivity|]. clear E. induction F as [|b bs (i & Ib) F IH]; cbn.
  - exists []. split; [reflexivity|constructor].
  - rewrite map_app. apply lines_app; [|exact IH]. destruct (put_block _ _ _ _ _ R Ib) as (hd & ht & lt & n & _ & B2 & B3 & ->).
    apply block_lines; assumption.
Qed.

(** * The header *)
Definition begins_with (t : list ascii) (l : list tbyte) : Prop := exists l', map plain_byte l = t ++ [nl] ++ l'.
Lemma begins_app t l l' : begins_with t l -> begins_with t (l ++ l').
Proof. intros (x & E). exists (x ++ map plain_byte l'). rewrite map_app, E. rewrite <- !app_assoc. reflexivity. Qed.
Lemma header_inv t s0 tr s : (forall h, H h -> h = true) -> (forall x, HT x -> x = t) -> xinit s0 -> xrun s0 tr s -> whole_flushes tr ->
  (forall o, next_inode s0 <= o -> data s o = [] \/ begins_with t (data s o)) /\
  (forall i f, streams s i = Some f -> offset f <= length (data s (inode f)) /\ (offset f = 0 -> buf f = [] \/ begins_with t (buf f))).
Proof.
  intros Ht Tt I0 R. induction R as [|tr s e s' R IH S]; intros W.
  { split; [|intros i f E; destruct I0 as (I1 & _); rewrite I1 in E; discriminate]. intros o L. left. apply I0. exact L. }
  destruct (IH (whole_left _ _ W)) as (A & B). clear IH. pose proof (wf_run _ _ _ (wf_init _ I0) R) as (_ & W2 & W3).
  destruct S as [j p o E1 E2|j p E1 E2|j f hd ht lt E1 H1 H2 H3 l|j f l rest E1 E2 E3|j f E1 E2|p q o E1 E2|p]; cbn; (split; [|]); auto.
  - intros i f. unfold set_nat. destruct (i =? j); [|apply B]. intros E. injection E as <-. cbn. split; [lia|]. auto.
  - intros o L. unfold set_nat. destruct (o =? next_inode s); [left; reflexivity|apply A; exact L].
  - intros i f. unfold set_nat at 1. destruct (i =? j).
    + intros E. injection E as <-. cbn. rewrite set_here. cbn. split; [lia|auto].
    + intros E. destruct (B _ _ E) as (B1 & B2). destruct (W2 _ _ E) as (Li & _). rewrite set_else by lia. auto.
  - intros i g. unfold set_nat. destruct (i =? j) eqn:Ej; [|apply B]. intros E. injection E as <-. cbn.
    destruct (B _ _ E1) as (B1 & B2). split; [exact B1|]. intros Z. right. destruct (B2 Z) as [Bn|Bb]; [|apply begins_app; exact Bb].
    rewrite Bn. cbn. subst l. rewrite Z, Bn. cbn. rewrite (Ht _ H1), (Tt _ H2). exists (lt ++ [nl]). rewrite tagged_plain. unfold block. cbn.
    rewrite <- !app_assoc. reflexivity.
  - assert (Er : rest = []) by (apply (W j l rest); apply in_or_app; right; left; reflexivity). rewrite Er, app_nil_r in E2.
    intros o L. unfold set_nat. destruct (o =? inode f) eqn:Eo; [|apply A; exact L]. apply Nat.eqb_eq in Eo. subst o. right.
    destruct (A _ L) as [An|Ab]; [|apply begins_app; exact Ab]. destruct (B _ _ E1) as (B1 & B2). rewrite An in B1. cbn in B1.
    destruct B2 as [Bn|Bb]; [lia|congruence|]. rewrite An. cbn. rewrite <- E2. exact Bb.
  - assert (Er : rest = []) by (apply (W j l rest); apply in_or_app; right; left; reflexivity).
    intros i g. unfold set_nat at 1. destruct (i =? j) eqn:Ej.
    + intros E. injection E as <-. cbn. rewrite set_here. split; [lia|]. intros _. left. exact Er.
    + intros E. destruct (B _ _ E) as (B1 & B2). split; [|exact B2]. unfold set_nat. destruct (inode g =? inode f) eqn:Eo; [|exact B1].
      apply Nat.eqb_eq in Eo. rewrite Eo in B1. rewrite app_length. lia.
  - intros i g. unfold set_nat. destruct (i =? j); [discriminate|apply B].
Qed.
Lemma header_proof t s0 tr s o : (forall h, H h -> h = true) -> (forall x, HT x -> x = t) -> xinit s0 -> xrun s0 tr s -> whole_flushes tr ->
  next_inode s0 <= o -> data s o <> [] -> exists l, map plain_byte (data s o) = t ++ [nl] ++ l.
Proof. intros A B C D E F G. destruct (proj1 (header_inv t s0 tr s A B C D E) o F) as [X|X]; [congruence|exact X]. Qed.
End Outside.
Lemma renamed_all_proof (P : Type) (peqb : P -> P -> bool) (peqb_ok : forall p q, peqb p q = true <-> p = q) H HT LT s0 tr s i :
  xinit s0 -> xrun peqb H HT LT s0 tr s ->
  Permutation (flat_map (fun o => mine i (data s o)) (seq 0 (next_inode s)) ++ pending i s) (put_by i tr) /\ from 0 (put_by i tr) /\
  (forall o, ascending (mine i (data s o))) /\ (forall o, next_inode s <= o -> mine i (data s o) = []) /\
  (no_removal tr -> forall o m b, In (Byte i m b) (data s o) -> linked s o).
Proof.
  intros I R. destruct (shared_proof peqb H HT LT s0 tr s i I R) as (A & B & C & D). repeat (split; [assumption|]).
  intros N o m b. exact (renamed_proof peqb peqb_ok H HT LT s0 tr s i o m b I R N).
Qed.
