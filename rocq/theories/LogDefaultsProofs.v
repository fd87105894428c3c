From Coq Require Import List Bool Arith ZArith Lia.
From Verif Require Import Base ListUpdate LoggerModel LoggerSpec LoggerProofs LoggerAccount LogFileModel LogFileSpec LogFileProofs LogFileSystem LogDefaultsModel LogDefaultsSpec.
Import ListNotations.

Section Defaults.
Context {K M : Type} (ltb : K -> K -> bool).
Hypothesis O : strict_total_order ltb.
Notation entry := (entry K M).
Notation event := (@event K M).
Notation logger := (@logger K M).
Notation step := (step ltb).
Notation exec := (exec ltb).
Implicit Types (s : logger) (tr : list event).

(** a call in progress that has not come to the buffer *)
Definition on_the_way (e : entry) s : Prop := exists c e', In c (calls s) /\ next_of c = Some e' /\ e' = stamp e (e_time e').
Definition taken (e : entry) tr : Prop := exists t, In (EAccept (stamp e t)) tr.
Record kept tr s : Prop := {
  k_level : level s = 0%Z;
  k_max : max_size s = 0;
  k_calls : forall e, In (ECall e) tr -> (0 <= e_level e)%Z -> taken e tr \/ on_the_way e s;
  k_rejects : forall e, In (EReject e) tr -> (e_level e < 0)%Z;
  k_discards : forall e, ~ In (EDiscard e) tr
}.
Lemma taken_later e tr ev : taken e tr -> taken e (tr ++ [ev]).
Proof. intros (t & H). exists t. apply in_or_app. auto. Qed.
Lemma way_same e s s' : calls s' = calls s -> on_the_way e s -> on_the_way e s'.
Proof. intros E (c & e' & H). exists c, e'. rewrite E. exact H. Qed.
Lemma stamp_self (e : entry) : e = stamp e (e_time e).
Proof. destruct e. reflexivity. Qed.
Lemma in_mid {A} (c : A) l1 x l2 m : In c (l1 ++ x :: l2) -> c = x \/ In c (l1 ++ m ++ l2).
Proof. rewrite !in_app_iff. cbn. intuition. Qed.
Lemma stamp_level (e : entry) t : e_level (stamp e t) = e_level e.
Proof. reflexivity. Qed.
Lemma way_mid e s s' l1 x l2 m : calls s = l1 ++ x :: l2 -> calls s' = l1 ++ m ++ l2 -> on_the_way e s ->
  on_the_way e s' \/ exists e', next_of x = Some e' /\ e' = stamp e (e_time e').
Proof.
  intros E E' (c & e' & H & N & Q). rewrite E in H. apply (in_mid _ _ _ _ m) in H. destruct H as [->|H]; [right; eauto|].
  left. exists c, e'. rewrite E'. auto.
Qed.
Lemma step_kept A W ok tr s ev s' : inv ltb A W ok s -> kept tr s -> step s ev s' -> unchanged [ev] -> kept (tr ++ [ev]) s'.
Proof.
  intros J [K1 K2 K3 K4 K5] H [U1 U2].
  assert (G : forall l1 x l2, calls s = l1 ++ x :: l2 -> logging s = true).
  { intros l1 x l2 Hc. apply (j_logging _ _ _ _ _ J). destruct (dtor s) eqn:D; [reflexivity|..]; destruct (j_calls _ _ _ _ _ J ltac:(congruence)) as [Jc _]; rewrite Hc in Jc; destruct l1; discriminate. }
  assert (R : forall s1, (forall e, ev <> ECall e) -> calls s1 = calls s -> forall e, In (ECall e) (tr ++ [ev]) -> (0 <= e_level e)%Z -> taken e (tr ++ [ev]) \/ on_the_way e s1).
  { intros s1 N E e Hi L. apply in_app_or in Hi. destruct Hi as [Hi|[Hi|[]]]; [|destruct (N _ Hi)].
    destruct (K3 e Hi L) as [T|T]; [left; apply taken_later; exact T|right; eapply way_same; eauto]. }
  assert (RJ : (forall e, ev <> EReject e) -> forall e, In (EReject e) (tr ++ [ev]) -> (e_level e < 0)%Z).
  { intros N e Hi. apply in_app_or in Hi. destruct Hi as [Hi|[Hi|[]]]; [auto|destruct (N _ Hi)]. }
  assert (DJ : (forall e, ev <> EDiscard e) -> forall e, ~ In (EDiscard e) (tr ++ [ev])).
  { intros N e Hi. apply in_app_or in Hi. destruct Hi as [Hi|[Hi|[]]]; [exact (K5 e Hi)|destruct (N _ Hi)]. }
  cases H; try (split; [exact K1|exact K2|apply R; [discriminate|reflexivity]|apply RJ; discriminate|apply DJ; discriminate]).
  - split; [exact K1|exact K2| |apply RJ; discriminate|apply DJ; discriminate].
    intros e Hi L. apply in_app_or in Hi. destruct Hi as [Hi|[Hi|[]]].
    + destruct (K3 e Hi L) as [T|(c & e' & T & Q)]; [left; apply taken_later; exact T|].
      right. exists c, e'. split; [cbn; apply in_or_app; auto|exact Q].
    + injection Hi as <-. right. eexists _, _. split; [cbn; apply in_or_app; right; left; reflexivity|]. split; reflexivity.
  - exfalso. eapply U1. left. reflexivity.
  - exfalso. eapply U2. left. reflexivity.
  - pose proof (G _ _ _ Hc) as Gl. unfold should_log in *. rewrite Gl, K1 in *. cbn [andb] in *.
    destruct (Z.leb_spec 0 (e_level x)) as [Le|Le].
    + split; [exact K1|exact K2| |apply RJ; discriminate|apply DJ; discriminate].
      intros e Hi L. apply in_app_or in Hi. destruct Hi as [Hi|[Hi|[]]]; [|discriminate Hi].
      destruct (K3 e Hi L) as [T|T]; [left; apply taken_later; exact T|right].
      destruct (way_mid e s (set_calls (l1 ++ [CPassed x] ++ l2) s) l1 _ l2 [CPassed x] Hc eq_refl T) as [T'|(e' & N & Q)]; [exact T'|].
      injection N as <-. exists (CPassed x), x. split; [cbn; apply in_or_app; right; left; reflexivity|]. split; [reflexivity|exact Q].
    + split; [exact K1|exact K2| | |apply DJ; discriminate].
      * intros e Hi L. apply in_app_or in Hi. destruct Hi as [Hi|[Hi|[]]]; [|discriminate Hi].
        destruct (K3 e Hi L) as [T|T]; [left; apply taken_later; exact T|right].
        destruct (way_mid e s (set_calls (l1 ++ [] ++ l2) s) l1 _ l2 [] Hc eq_refl T) as [T'|(e' & N & Q)]; [exact T'|].
        injection N as <-. exfalso. rewrite Q in Le. cbn in Le. lia.
      * intros e Hi. apply in_app_or in Hi. destruct Hi as [Hi|[Hi|[]]]; [auto|]. injection Hi as <-. exact Le.
  - split; [exact K1|exact K2| |apply RJ; discriminate|apply DJ; discriminate].
    intros e Hi L. apply in_app_or in Hi. destruct Hi as [Hi|[Hi|[]]]; [|discriminate Hi].
    destruct (K3 e Hi L) as [T|T]; [left; apply taken_later; exact T|right].
    destruct (way_mid e s (set_calls (l1 ++ [CTimed (stamp x (now s))] ++ l2) s) l1 _ l2 [CTimed (stamp x (now s))] Hc eq_refl T) as [T'|(e' & N & Q)]; [exact T'|].
    injection N as <-. exists (CTimed (stamp x (now s))), (stamp x (now s)). split; [cbn; apply in_or_app; right; left; reflexivity|]. split; [reflexivity|].
    rewrite Q. reflexivity.
  - assert (Ac : accepts ltb x s = true) by (unfold accepts; rewrite K2; reflexivity). rewrite Ac in *.
    destruct (add_frame ltb x s) as (_ & _ & _ & _ & _ & F2 & F1 & _).
    split; [cbn; rewrite F1; exact K1|cbn; rewrite F2; exact K2| |apply RJ; discriminate|apply DJ; discriminate].
    intros e Hi L. apply in_app_or in Hi. destruct Hi as [Hi|[Hi|[]]]; [|discriminate Hi].
    destruct (K3 e Hi L) as [T|T]; [left; apply taken_later; exact T|].
    match goal with |- _ \/ on_the_way _ ?s1 => destruct (way_mid e s s1 l1 _ l2 _ Hc eq_refl T) as [T'|(e' & N & Q)] end; [right; exact T'|].
    injection N as <-. left. exists (e_time x). apply in_or_app. right. left. rewrite <- Q. reflexivity.
  - split; [exact K1|exact K2| |apply RJ; discriminate|apply DJ; discriminate].
    intros e Hi L. apply in_app_or in Hi. destruct Hi as [Hi|[Hi|[]]]; [|discriminate Hi].
    destruct (K3 e Hi L) as [T|T]; [left; apply taken_later; exact T|right].
    match goal with |- on_the_way _ ?s1 => destruct (way_mid e s s1 l1 _ l2 [] Hc eq_refl T) as [T'|(e' & N & Q)] end; [exact T'|discriminate N].
  - destruct (next_file ltb p (lfiles s)); split; try exact K1; try exact K2; try (apply RJ; discriminate); try (apply DJ; discriminate); apply R; try discriminate; reflexivity.
Qed.
Lemma exec_kept clock tr s : exec (new_logger defaults clock) tr s -> unchanged tr -> kept tr s.
Proof.
  intros H. remember (new_logger defaults clock) as s0. induction H as [|tr s e s' H IH S]; intros U.
  - subst. split; [reflexivity|reflexivity|intros e []|intros e []|intros e []].
  - assert (Ua : unchanged tr) by (split; intros z Hz; [apply (proj1 U z)|apply (proj2 U z)]; apply in_or_app; auto).
    assert (Ub : unchanged [e]) by (split; intros z Hz; [apply (proj1 U z)|apply (proj2 U z)]; apply in_or_app; auto).
    subst. eapply step_kept; eauto. exact (exec_inv ltb O _ _ _ _ _ _ H).
Qed.
Lemma nothing_dropped_proof clock tr s : exec (new_logger defaults clock) tr s -> unchanged tr ->
  (forall e, ~ In (EDiscard e) tr) /\ (forall e, In (EReject e) tr -> (e_level e < 0)%Z) /\
  (calls s = [] -> forall e, In (ECall e) tr -> (0 <= e_level e)%Z -> exists t, In (EAccept (stamp e t)) tr).
Proof.
  intros H U. destruct (exec_kept _ _ _ H U) as [K1 K2 K3 K4 K5]. split; [exact K5|]. split; [exact K4|].
  intros Hc e Hi L. destruct (K3 e Hi L) as [T|(c & e' & T & _)]; [exact T|]. rewrite Hc in T. destruct T.
Qed.

(** the whole: every call made before the destructor is a line of its file *)
Lemma everything_logged_proof {P} (peqb : P -> P -> bool) (path : K -> nat -> P) : (forall p q, peqb p q = true <-> p = q) -> separate path ->
  forall clock d0 tr1 s1 d1 s2 tr2 s d fs0 e,
  system peqb path (eq (st_limit defaults)) (eq (st_size defaults)) (eq (st_header defaults)) ltb (new_logger defaults clock) d0 tr1 s1 d1 -> step s1 EDestroy s2 ->
  system peqb path (eq (st_limit defaults)) (eq (st_size defaults)) (eq (st_header defaults)) ltb s2 d1 tr2 s d -> dtor s = DDone ->
  unchanged tr1 -> In (ECall e) tr1 -> (0 <= e_level e)%Z -> ~ In (EFail (e_file e)) tr2 ->
  all_files (path (e_file e)) d0 fs0 -> (forall i, 0 < i -> d0 (path (e_file e) i) = None) ->
  exists fs t, all_files (path (e_file e)) d fs /\ In (stamp e t) (all_lines fs).
Proof.
  intros Pe Se clock d0 tr1 s1 d1 s2 tr2 s d fs0 e S1 D S2 Dn U Hi Le Nf Af Nu.
  pose proof (system_exec peqb path ltb _ _ _ _ _ _ _ _ S1) as E1.
  destruct (step_destroy ltb s1 s2 D) as (_ & _ & C & _).
  destruct (nothing_dropped_proof _ _ _ E1 U) as (_ & _ & T). destruct (T C e Hi Le) as (t & Ht).
  destruct (all_logged_proof peqb path ltb Pe O Se _ _ _ 0 _ _ _ _ _ _ _ _ _ _ _ _ (e_file e) fs0 (fun n q => eq_sym q) S1 D S2 Dn Nf Af Nu)
    as (fs & F1 & _ & F2). exists fs, t. split; [exact F1|]. rewrite F2 by (intros n q; exact (eq_sym q)).
  apply in_or_app. right. apply in_flat_map. exists (EAccept (stamp e t)). split; [apply in_or_app; auto|].
  cbn. unfold same_file. cbn. rewrite (equivb_refl ltb O). left. reflexivity.
Qed.
End Defaults.

(** * The rotation limit *)
Lemma default_rotation_proof {P E} (peqb : P -> P -> bool) : (forall p q, peqb p q = true <-> p = q) ->
  forall path : nat -> P, (forall i j, path i = path j -> i = j) ->
  forall ok fuel c (d : @disk P E) o c' d', rotate peqb path ok (st_limit defaults) fuel c d = (o, c', d') -> o = Done ->
  exists m, run_of path d m /\ (forall i, i < m -> d' (path i) = None) /\ (forall i, m <= i -> d' (path i) = d (path i)) /\
    (forall p, (forall i, p <> path i) -> d' p = d p).
Proof.
  intros Pe path Inj ok fuel c d o c' d' H Ho. destruct (rotate_spec peqb Pe path Inj ok _ fuel c d o c' d' H Ho) as (m & Rn & R1 & R2 & R3 & R4 & R5).
  exists m. split; [exact Rn|]. cbn [st_limit defaults] in *. rewrite Nat.min_0_r in *. split; [|split].
  - intros [|i] Hi; [exact R1|]. apply R3. lia.
  - intros [|i] Hi; [|apply R4; lia]. rewrite R1. assert (m = 0) by lia. subst m. symmetry. apply (proj2 Rn).
  - exact R5.
Qed.
Lemma documented_rotation_proof {P E} (peqb : P -> P -> bool) : (forall p q, peqb p q = true <-> p = q) ->
  forall path : nat -> P, (forall i j, path i = path j -> i = j) ->
  forall ok fuel c (d : @disk P E) o c' d', rotate peqb path ok (st_limit documented) fuel c d = (o, c', d') -> o = Done ->
  d (path 0) <> None -> d' (path 1) = d (path 0).
Proof.
  intros Pe path Inj ok fuel c d o c' d' H Ho Ex. destruct (rotate_spec peqb Pe path Inj ok _ fuel c d o c' d' H Ho) as (m & Rn & R1 & R2 & _).
  apply R2. destruct m; [destruct (Ex (proj2 Rn))|]. cbn. lia.
Qed.
