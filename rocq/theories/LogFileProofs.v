From Coq Require Import List Bool Arith String Lia.
From Verif Require Import Base ListUpdate LoggerModel LoggerSpec LogFileModel LogFileSpec.
Import ListNotations.

(** * Lists *)
Lemma sub_refl {A} (l : list A) : sublist l l.
Proof. induction l; [constructor|apply sub_keep; auto]. Qed.
Lemma sub_nil_l {A} (l : list A) : sublist [] l.
Proof. induction l; constructor; auto. Qed.
Lemma sub_app {A} (l1 l1' l2 l2' : list A) : sublist l1 l1' -> sublist l2 l2' -> sublist (l1 ++ l2) (l1' ++ l2').
Proof. intros H1 H2. induction H1; cbn; [exact H2|apply sub_skip; auto|apply sub_keep; auto]. Qed.
Lemma sub_trans {A} (l1 l2 l3 : list A) : sublist l1 l2 -> sublist l2 l3 -> sublist l1 l3.
Proof.
  intros H1 H2. revert l1 H1. induction H2; intros l1 H1; auto.
  - constructor. auto.
  - inversion H1; subst; [apply sub_skip|apply sub_keep]; auto.
Qed.
Lemma sub_flat {A B} (f : A -> list B) l l' : sublist l l' -> sublist (flat_map f l) (flat_map f l').
Proof.
  intros H. induction H; cbn; [constructor|..].
  - change (flat_map f l) with ([] ++ flat_map f l). apply sub_app; [apply sub_nil_l|assumption].
  - apply sub_app; [apply sub_refl|assumption].
Qed.
Lemma suffix_refl {A} (l : list A) : suffix_of l l.
Proof. exists []. reflexivity. Qed.
Lemma suffix_trans {A} (l1 l2 l3 : list A) : suffix_of l1 l2 -> suffix_of l2 l3 -> suffix_of l1 l3.
Proof. intros (r & ->) (r' & ->). exists (r' ++ r). apply app_assoc. Qed.
Lemma suffix_app {A} (l l' r : list A) : suffix_of l l' -> suffix_of (l ++ r) (l' ++ r).
Proof. intros (x & ->). exists x. rewrite app_assoc. reflexivity. Qed.
Lemma suffix_flat {A B} (f : A -> list B) l l' : suffix_of l l' -> suffix_of (flat_map f l) (flat_map f l').
Proof. intros (r & ->). exists (flat_map f r). apply flat_map_app. Qed.

Local Arguments Nat.ltb : simpl never.
Lemma append_length s s' : String.length (s ++ s') = String.length s + String.length s'.
Proof. induction s as [|a s IH]; cbn; [reflexivity|rewrite IH; reflexivity]. Qed.
(** the size of a file is the length of its text *)
Lemma size_text {E} (c : list (chunk E)) : size c = String.length (text_of c).
Proof.
  induction c as [|x c IH]; [reflexivity|]. cbn [size fold_right text_of]. fold (size c) (text_of c).
  destruct x; cbn [chunk_size]; rewrite ?append_length, IH; cbn [String.length newline]; lia.
Qed.

Section One.
Context {P E : Type} (peqb : P -> P -> bool).
Hypothesis Peq : forall p q, peqb p q = true <-> p = q.
Variable path : nat -> P.
Hypothesis Inj : forall i j, path i = path j -> i = j.
Notation content := (list (chunk E)).
Notation disk := (@disk P E).
Notation files_below := (@files_below P E path).
Implicit Types (d : disk).

Lemma peqb_refl p : peqb p p = true.
Proof. apply Peq. reflexivity. Qed.
Lemma set_same p c d : set_file peqb p c d p = c.
Proof. unfold set_file. rewrite peqb_refl. reflexivity. Qed.
Lemma set_other p q c d : p <> q -> set_file peqb q c d p = d p.
Proof. intros N. unfold set_file. destruct (peqb p q) eqn:X; [apply Peq in X; contradiction|reflexivity]. Qed.
Lemma set_path i j c d : set_file peqb (path i) c d (path j) = if Nat.eqb j i then c else d (path j).
Proof.
  destruct (Nat.eqb_spec j i) as [->|N]; [apply set_same|]. apply set_other. intros X. apply N, Inj, X.
Qed.

(** * The list of files *)
Lemma below_ext b d d' : (forall i, i < b -> d' (path i) = d (path i)) -> files_below b d' = files_below b d.
Proof. intros H. induction b as [|b IH]; cbn; [reflexivity|]. rewrite H by lia. rewrite IH by (intros; apply H; lia). reflexivity. Qed.
Lemma below_more b b' d : b <= b' -> (forall i, b <= i -> d (path i) = None) -> files_below b' d = files_below b d.
Proof.
  intros L H. induction b' as [|b' IH]; [replace b with 0 by lia; reflexivity|].
  destruct (Nat.eq_dec b (S b')) as [->|]; [reflexivity|]. cbn. rewrite (H b') by lia. apply IH. lia.
Qed.
Lemma below_split a b d : a <= b -> exists l, files_below b d = l ++ files_below a d /\
  (forall d', (forall i, a <= i < b -> d' (path i) = d (path i) \/ d' (path i) = None) -> exists l', files_below b d' = l' ++ files_below a d' /\ sublist l' l).
Proof.
  intros L. induction b as [|b IH].
  - replace a with 0 by lia. exists []. split; [reflexivity|]. intros d' _. exists []. split; [reflexivity|constructor].
  - destruct (Nat.eq_dec a (S b)) as [->|N].
    + exists []. split; [reflexivity|]. intros d' _. exists []. split; [reflexivity|constructor].
    + destruct IH as (l & E1 & E2); [lia|]. cbn. eexists. split; [rewrite E1, app_assoc; reflexivity|].
      intros d' H. destruct (E2 d') as (l' & F1 & F2); [intros; apply H; lia|]. eexists. split; [rewrite F1, app_assoc; reflexivity|].
      apply sub_app; [|exact F2]. destruct (H b) as [->| ->]; [lia|apply sub_refl|apply sub_nil_l].
Qed.
Lemma all_below b d l : (forall i, b <= i -> d (path i) = None) -> all_files path d l -> l = files_below b d.
Proof.
  intros H (b' & H' & ->). destruct (Nat.le_ge_cases b b') as [L|L]; [apply below_more; auto|symmetry; apply below_more; auto].
Qed.

(** * The first loop *)
Definition between (a b j : nat) : bool := (a <=? j) && (j <? b).
Lemma between_true a b j : between a b j = true <-> a <= j < b.
Proof. unfold between. rewrite andb_true_iff, Nat.leb_le, Nat.ltb_lt. tauto. Qed.
Lemma between_false a b j : between a b j = false <-> ~ (a <= j < b).
Proof. rewrite <- between_true. destruct (between a b j); split; congruence. Qed.
Lemma scan_spec ok limit fuel i num c d o num' c' d' : scan peqb path ok limit fuel i num c d = (o, num', c', d') ->
  exists m, i <= m /\ (forall j, i <= j < m -> d (path j) <> None) /\
  (forall j, d' (path j) = if between (Nat.max i limit) m j then None else d (path j)) /\
  (forall p, (forall j, p <> path j) -> d' p = d p) /\
  (o = Done -> d (path m) = None /\ num' = num + (Nat.min m limit - Nat.min i limit)).
Proof.
  revert i num c d. induction fuel as [|fuel IH]; intros i num c d H; cbn in H.
  - injection H as <- <- <- <-. exists i. repeat split; auto; try lia; try discriminate.
    intros j. rewrite (proj2 (between_false _ _ _)) by lia. reflexivity.
  - assert (Stop : forall o0, (o0 = Done -> d (path i) = None) -> o = o0 -> num' = num -> d' = d -> exists m, i <= m /\ (forall j, i <= j < m -> d (path j) <> None) /\
      (forall j, d' (path j) = if between (Nat.max i limit) m j then None else d (path j)) /\
      (forall p, (forall j, p <> path j) -> d' p = d p) /\ (o = Done -> d (path m) = None /\ num' = num + (Nat.min m limit - Nat.min i limit))).
    { intros o0 Ho -> -> ->. exists i. repeat split; auto; try lia. intros j. rewrite (proj2 (between_false _ _ _)) by lia. reflexivity. }
    destruct (ok c); [|injection H as <- <- <- <-; apply (Stop Threw); auto; discriminate].
    destruct (d (path i)) as [c0|] eqn:Di; [|injection H as <- <- <- <-; apply (Stop Done); auto].
    destruct (Nat.ltb_spec i limit) as [Lt|Ge].
    + apply IH in H. destruct H as (m & M1 & M2 & M3 & M4 & M5). exists m. split; [lia|]. split; [|split; [|split; [exact M4|]]].
      * intros j Hj. destruct (Nat.eq_dec j i) as [->|]; [congruence|]. apply M2. lia.
      * intros j. rewrite M3. replace (Nat.max (S i) limit) with (Nat.max i limit) by lia. reflexivity.
      * intros Ho. destruct (M5 Ho) as [A B]. split; [exact A|]. lia.
    + destruct (ok (S c)); [|injection H as <- <- <- <-; apply (Stop Threw); auto; discriminate].
      apply IH in H. destruct H as (m & M1 & M2 & M3 & M4 & M5). unfold remove_file in *. exists m. split; [lia|]. split; [|split; [|split]].
      * intros j Hj. destruct (Nat.eq_dec j i) as [->|]; [congruence|]. specialize (M2 j). rewrite set_path in M2.
        destruct (Nat.eqb_spec j i); [lia|]. apply M2. lia.
      * intros j. rewrite M3, set_path. destruct (Nat.eqb_spec j i) as [->|N].
        -- rewrite (proj2 (between_true (Nat.max i limit) m i)) by lia. destruct (between _ _ _); reflexivity.
        -- destruct (between (Nat.max (S i) limit) m j) eqn:B1, (between (Nat.max i limit) m j) eqn:B2; auto;
             try apply between_true in B1; try apply between_true in B2; try apply between_false in B1; try apply between_false in B2; lia.
      * intros p Hp. rewrite M4 by exact Hp. apply set_other, Hp.
      * intros Ho. destruct (M5 Ho) as [A B]. rewrite set_path in A. destruct (Nat.eqb_spec m i); [lia|]. split; [exact A|]. lia.
Qed.

(** * The second loop *)
Lemma rename_path i d j : rename_file peqb (path i) (path (S i)) d (path j) =
  if Nat.eqb j (S i) then d (path i) else if Nat.eqb j i then None else d (path j).
Proof. unfold rename_file, remove_file. rewrite set_path, set_path. reflexivity. Qed.
Lemma rename_other i d p : (forall j, p <> path j) -> rename_file peqb (path i) (path (S i)) d p = d p.
Proof. intros H. unfold rename_file, remove_file. rewrite !set_other by auto. reflexivity. Qed.
Lemma shift_spec ok n c d o c' d' : shift peqb path ok n c d = (o, c', d') -> (forall j, j < n -> d (path j) <> None) -> d (path n) = None ->
  exists m, m <= n /\ (o = Done -> m = 0) /\ o <> NoFuel /\ (o = Threw -> exists b, n - m <= b /\ ok (c + b) = false) /\
  (forall j, d' (path j) = if Nat.eqb j m then None else if between (S m) (S n) j then d (path (j - 1)) else d (path j)) /\
  (forall p, (forall j, p <> path j) -> d' p = d p).
Proof.
  revert c d. induction n as [|n IH]; intros c d H Ex Nn; cbn in H.
  - injection H as <- <- <-. exists 0. repeat split; auto; try discriminate. intros j. destruct (Nat.eqb_spec j 0) as [->|]; [exact Nn|].
    rewrite (proj2 (between_false _ _ _)) by lia. reflexivity.
  - destruct (d (path n)) as [c0|] eqn:Dn; [|exfalso; apply (Ex n); [lia|exact Dn]].
    destruct (ok c) eqn:Ok.
    + apply IH in H.
      * destruct H as (m & M1 & M2 & M3 & M3' & M4 & M5). exists m. split; [lia|]. split; [exact M2|]. split; [exact M3|]. split; [|split].
        -- intros Ho. destruct (M3' Ho) as (b & B1 & B2). exists (S b). split; [lia|]. rewrite Nat.add_succ_r. exact B2.
        -- intros j. rewrite M4, !rename_path. destruct (Nat.eqb_spec j m) as [->|N1]; [reflexivity|].
           destruct (between (S m) (S n) j) eqn:B1.
           ++ apply between_true in B1. rewrite (proj2 (between_true (S m) (S (S n)) j)) by lia.
              destruct (Nat.eqb_spec (j - 1) (S n)); [lia|]. destruct (Nat.eqb_spec (j - 1) n); [lia|]. reflexivity.
           ++ apply between_false in B1. destruct (Nat.eqb_spec j (S n)) as [->|N2].
              ** rewrite (proj2 (between_true (S m) (S (S n)) (S n))) by lia. replace (S n - 1) with n by lia. reflexivity.
              ** rewrite (proj2 (between_false (S m) (S (S n)) j)) by lia. destruct (Nat.eqb_spec j n) as [->|]; [|reflexivity].
                 exfalso. lia.
        -- intros p Hp. rewrite M5 by exact Hp. apply rename_other, Hp.
      * intros j Hj. rewrite rename_path. destruct (Nat.eqb_spec j (S n)); [lia|]. destruct (Nat.eqb_spec j n); [lia|]. apply Ex. lia.
      * rewrite rename_path. destruct (Nat.eqb_spec n (S n)); [lia|]. rewrite Nat.eqb_refl. reflexivity.
    + injection H as <- <- <-. exists (S n). split; [lia|]. split; [discriminate|]. split; [discriminate|]. split; [|split; [|reflexivity]].
      * intros _. exists 0. rewrite Nat.add_0_r. split; [lia|exact Ok].
      * intros j. destruct (Nat.eqb_spec j (S n)) as [->|]; [exact Nn|]. rewrite (proj2 (between_false _ _ _)) by lia. reflexivity.
Qed.
Lemma rename_below i b d : S i < b -> d (path (S i)) = None -> files_below b (rename_file peqb (path i) (path (S i)) d) = files_below b d.
Proof.
  intros L N. induction b as [|b IH]; [lia|]. cbn. rewrite rename_path. destruct (Nat.eqb_spec b (S i)) as [->|Nb].
  - rewrite N. cbn. rewrite rename_path. destruct (Nat.eqb_spec i (S i)); [lia|]. rewrite Nat.eqb_refl. cbn. f_equal.
    apply below_ext. intros j Hj. rewrite rename_path. destruct (Nat.eqb_spec j (S i)); [lia|]. destruct (Nat.eqb_spec j i); [lia|reflexivity].
  - destruct (Nat.eqb_spec b i); [lia|]. f_equal. apply IH. lia.
Qed.
Lemma shift_below ok n c d o c' d' b : shift peqb path ok n c d = (o, c', d') -> d (path n) = None -> n < b -> files_below b d' = files_below b d.
Proof.
  revert c d. induction n as [|n IH]; intros c d H Nn L; cbn in H; [injection H as <- <- <-; reflexivity|].
  destruct (d (path n)) as [c0|]; [|injection H as <- <- <-; reflexivity]. destruct (ok c); [|injection H as <- <- <-; reflexivity].
  apply IH in H; [|rewrite rename_path; destruct (Nat.eqb_spec n (S n)); [lia|]; rewrite Nat.eqb_refl; reflexivity|lia].
  rewrite H. apply rename_below; auto.
Qed.

(** * C64 *)
Lemma rotate_spec ok limit fuel c d o c' d' : rotate peqb path ok limit fuel c d = (o, c', d') -> o = Done ->
  exists m, run_of path d m /\ rotated path limit m d d'.
Proof.
  unfold rotate. destruct (scan peqb path ok limit fuel 0 0 c d) as [[[o1 num] c1] d1] eqn:Sc. intros H ->.
  destruct (scan_spec _ _ _ _ _ _ _ _ _ _ _ Sc) as (m & _ & M2 & M3 & M4 & M5). destruct o1; try discriminate.
  destruct (M5 eq_refl) as [Mn En]. cbn in En. rewrite Nat.sub_0_r in En. exists m. split; [split; [intros i Hi; apply M2; lia|exact Mn]|].
  assert (Mn1 : d1 (path num) = None).
  { rewrite M3. destruct (between _ _ _) eqn:B; [reflexivity|]. apply between_false in B. replace num with m by lia. exact Mn. }
  destruct (shift_spec _ _ _ _ _ _ _ H) as (q & Q1 & Q2 & _ & _ & Q3 & Q4); [|exact Mn1|].
  { intros j Hj. rewrite M3, (proj2 (between_false _ _ _)) by lia. apply M2. lia. }
  rewrite (Q2 eq_refl) in *. split; [|split; [|split; [|split]]].
  - rewrite Q3. reflexivity.
  - intros i Hi. rewrite Q3. cbn [Nat.eqb]. rewrite (proj2 (between_true 1 (S num) (S i))) by lia. replace (S i - 1) with i by lia.
    rewrite M3, (proj2 (between_false _ _ _)) by lia. reflexivity.
  - intros i Hi. rewrite Q3. destruct (Nat.eqb_spec i 0); [lia|]. rewrite (proj2 (between_false 1 (S num) i)) by lia.
    rewrite M3, (proj2 (between_true _ _ _)) by lia. reflexivity.
  - intros i Hi Hj. rewrite Q3. destruct (Nat.eqb_spec i 0); [lia|]. rewrite (proj2 (between_false 1 (S num) i)) by lia.
    rewrite M3, (proj2 (between_false _ _ _)) by lia. reflexivity.
  - intros p Hp. rewrite Q4 by exact Hp. apply M4, Hp.
Qed.
(** it ends if finitely many files exist, and throws only if an operation fails *)
Lemma scan_ends ok limit fuel i num c d m : (forall j, i <= j < m -> d (path j) <> None) -> d (path m) = None -> i <= m -> m - i < fuel ->
  fst (fst (fst (scan peqb path ok limit fuel i num c d))) <> NoFuel /\
  ((forall c, ok c = true) -> fst (fst (fst (scan peqb path ok limit fuel i num c d))) = Done).
Proof.
  revert i num c d. induction fuel as [|fuel IH]; intros i num c d Hm Hn Le Lt; [lia|]. cbn.
  destruct (ok c) eqn:Ok; [|split; [discriminate|intros A; rewrite A in Ok; discriminate]].
  destruct (d (path i)) as [c0|] eqn:Di; [|split; [discriminate|reflexivity]].
  assert (i < m) by (destruct (Nat.eq_dec i m) as [->|]; [congruence|lia]).
  destruct (i <? limit); [apply IH; auto; try lia; intros; apply Hm; lia|].
  destruct (ok (S c)) eqn:Ok2; [|split; [discriminate|intros A; rewrite A in Ok2; discriminate]].
  unfold remove_file. apply IH; try lia.
  - intros j Hj. rewrite set_path. destruct (Nat.eqb_spec j i); [lia|]. apply Hm. lia.
  - rewrite set_path. destruct (Nat.eqb_spec m i); [lia|]. exact Hn.
Qed.
Lemma rotate_ends ok limit fuel c d m : run_of path d m -> m < fuel ->
  fst (fst (rotate peqb path ok limit fuel c d)) <> NoFuel /\
  ((forall c, ok c = true) -> fst (fst (rotate peqb path ok limit fuel c d)) = Done).
Proof.
  intros [R1 R2] L. destruct (scan_ends ok limit fuel 0 0 c d m) as [A B]; try lia; auto; [intros; apply R1; lia|].
  unfold rotate. destruct (scan peqb path ok limit fuel 0 0 c d) as [[[o1 num] c1] d1] eqn:Sc. cbn in A, B.
  destruct (scan_spec _ _ _ _ _ _ _ _ _ _ _ Sc) as (m' & _ & M2 & M3 & M4 & M5).
  destruct o1; [|split; [discriminate|exact B]|split; [congruence|exact B]].
  destruct (M5 eq_refl) as [Mn En]. cbn in En. rewrite Nat.sub_0_r in En.
  destruct (shift peqb path ok num c1 d1) as [[o2 c2] d2] eqn:Sh.
  destruct (shift_spec _ _ _ _ _ _ _ Sh) as (q & Q1 & Q2 & Q3 & Q3' & _).
  - intros j Hj. rewrite M3, (proj2 (between_false _ _ _)) by lia. apply M2. lia.
  - rewrite M3. destruct (between _ _ _) eqn:Bt; [reflexivity|]. apply between_false in Bt. replace num with m' by lia. exact Mn.
  - cbn. split; [exact Q3|]. intros Al. destruct o2; [reflexivity| |congruence]. destruct (Q3' eq_refl) as (b & _ & Hb). rewrite Al in Hb. discriminate.
Qed.
Lemma first_missing d b : d (path b) = None -> exists m, m <= b /\ run_of path d m.
Proof.
  intros H. assert (G : forall n, n <= b -> (forall i, i < n -> d (path i) <> None) \/ exists m, m < n /\ run_of path d m).
  { induction n as [|n IH]; intros L; [left; lia|]. destruct IH as [IH|(m & M1 & M2)]; [lia| |right; exists m; split; [lia|exact M2]].
    destruct (d (path n)) as [c0|] eqn:Dn; [left|right; exists n; split; [lia|split; auto]].
    intros i Hi. destruct (Nat.eq_dec i n) as [->|]; [congruence|]. apply IH. lia. }
  destruct (G b (le_n _)) as [A|(m & M1 & M2)]; [exists b; split; [lia|split; auto]|exists m; split; [lia|exact M2]].
Qed.
(** finitely many paths exist *)
Lemma finite_missing d (l : list P) : (forall p, d p <> None -> In p l) -> exists b, b <= List.length l /\ d (path b) = None.
Proof.
  intros H. destruct (Nat.le_gt_cases 0 0) as [_|]; [|lia].
  assert (G : (exists b, b <= List.length l /\ d (path b) = None) \/ forall b, b <= List.length l -> d (path b) <> None).
  { generalize (List.length l) as n. induction n as [|n IH].
    - destruct (d (path 0)) eqn:D0; [right; intros b Hb; replace b with 0 by lia; congruence|left; exists 0; auto].
    - destruct IH as [(b & B1 & B2)|IH]; [left; exists b; split; [lia|exact B2]|].
      destruct (d (path (S n))) eqn:Dn; [right|left; exists (S n); auto]. intros b Hb. destruct (Nat.eq_dec b (S n)) as [->|]; [congruence|]. apply IH. lia. }
  destruct G as [G|G]; [exact G|]. exfalso.
  assert (N : NoDup (map path (seq 0 (S (List.length l))))).
  { apply FinFun.Injective_map_NoDup; [exact Inj|apply seq_NoDup]. }
  assert (In' : incl (map path (seq 0 (S (List.length l)))) l).
  { intros p Hp. apply in_map_iff in Hp. destruct Hp as (i & <- & Hi). apply in_seq in Hi. apply H, G. lia. }
  apply NoDup_incl_length in In'; [|exact N]. rewrite map_length, seq_length in In'. lia.
Qed.
Lemma rotate_finite ok limit c d (l : list P) : (forall p, d p <> None -> In p l) ->
  fst (fst (rotate peqb path ok limit (S (List.length l)) c d)) <> NoFuel /\
  ((forall c, ok c = true) -> fst (fst (rotate peqb path ok limit (S (List.length l)) c d)) = Done).
Proof.
  intros H. destruct (finite_missing d l H) as (b & B1 & B2). destruct (first_missing d b B2) as (m & M1 & M2).
  apply (rotate_ends ok limit _ c d m M2). lia.
Qed.

(** ** whatever happens, the files below the limit survive, in order *)
Lemma rotate_keeps ok limit fuel c d o c' d' b : rotate peqb path ok limit fuel c d = (o, c', d') ->
  (forall i, b <= S i -> d (path i) = None) -> limit <= b ->
  (forall i, b <= i -> d' (path i) = None) /\
  (exists older older', files_below b d = older ++ files_below limit d /\ files_below b d' = older' ++ files_below limit d /\ sublist older' older) /\
  ((forall i, limit < i -> d (path i) = None) -> suffix_of (files_below b d') (files_below b d)) /\
  (forall i, limit < i -> d (path i) = None -> d' (path i) = None) /\
  (forall p, (forall j, p <> path j) -> d' p = d p).
Proof.
  unfold rotate. destruct (scan peqb path ok limit fuel 0 0 c d) as [[[o1 num] c1] d1] eqn:Sc. intros H Hb Lb.
  destruct (scan_spec _ _ _ _ _ _ _ _ _ _ _ Sc) as (m & _ & M2 & M3 & M4 & M5).
  assert (Mb : forall j, j < m -> S j < b). { intros j Hj. destruct (Nat.lt_ge_cases (S j) b); [assumption|]. exfalso. apply (M2 j); [lia|apply Hb; lia]. }
  assert (D1 : forall i, b <= S i -> d1 (path i) = None). { intros i Hi. rewrite M3. destruct (between _ _ _); [reflexivity|]. apply Hb, Hi. }
  (* the second loop changes nothing *)
  assert (Sh : (forall i, b <= i -> d' (path i) = None) /\ files_below b d' = files_below b d1 /\ (forall i, limit < i -> d1 (path i) = None -> d' (path i) = None) /\ (forall p, (forall j, p <> path j) -> d' p = d1 p)).
  { destruct o1; [|injection H as <- <- <-; repeat split; auto|injection H as <- <- <-; repeat split; auto].
    destruct (M5 eq_refl) as [Mn En]. cbn in En. rewrite Nat.sub_0_r in En.
    assert (Mn1 : d1 (path num) = None).
    { rewrite M3. destruct (between _ _ _) eqn:B; [reflexivity|]. apply between_false in B. replace num with m by lia. exact Mn. }
    destruct (Nat.eq_dec num 0) as [Z|Z]; [subst num; rewrite Z in *; cbn in H; injection H as <- <- <-; repeat split; auto|].
    assert (Nb : num < b) by (specialize (Mb (num - 1)); lia).
    destruct (shift_spec _ _ _ _ _ _ _ H) as (q & Q1 & Q2 & _ & _ & Q3 & Q4); [|exact Mn1|].
    { intros j Hj. rewrite M3, (proj2 (between_false _ _ _)) by lia. apply M2. lia. }
    split; [|split; [eapply shift_below; eauto|split; [|exact Q4]]].
    2:{ intros i Hi X. rewrite Q3. destruct (Nat.eqb i q); [reflexivity|]. rewrite (proj2 (between_false _ _ _)) by lia. exact X. }
    intros i Hi. rewrite Q3. destruct (Nat.eqb i q); [reflexivity|]. rewrite (proj2 (between_false _ _ _)) by lia. apply D1. lia. }
  destruct Sh as (S1 & S2 & S2' & S3). split; [exact S1|]. split; [|split; [|split]].
  - destruct (below_split limit b d Lb) as (older & E1 & E2). exists older.
    destruct (E2 d1) as (older' & F1 & F2).
    { intros i Hi. rewrite M3. destruct (between _ _ _); auto. }
    exists older'. split; [exact E1|]. split; [|exact F2]. rewrite S2, F1. f_equal. apply below_ext. intros i Hi. rewrite M3, (proj2 (between_false _ _ _)) by lia. reflexivity.
  - intros Hl. rewrite S2. destruct (Nat.lt_ge_cases limit m) as [Lm|Lm].
    + (* file [limit] is removed; it is the last *)
      assert (Lb' : S limit <= b) by (specialize (Mb limit Lm); lia).
      assert (X : files_below b d1 = files_below limit d).
      { rewrite (below_more (S limit) b d1); auto.
        - cbn. rewrite M3, (proj2 (between_true _ _ _)) by lia. cbn. apply below_ext. intros i Hi. rewrite M3, (proj2 (between_false _ _ _)) by lia. reflexivity.
        - intros i Hi. rewrite M3. destruct (between _ _ _); [reflexivity|]. apply Hl. lia. }
      rewrite X. destruct (below_split limit b d Lb) as (older & E1 & _). exists older. exact E1.
    + replace (files_below b d1) with (files_below b d); [apply suffix_refl|]. symmetry. apply below_ext. intros i Hi.
      rewrite M3, (proj2 (between_false _ _ _)) by lia. reflexivity.
  - intros i Hi Di. apply S2'; [exact Hi|]. rewrite M3. destruct (between _ _ _); auto.
  - intros p Hp. rewrite S3 by exact Hp. apply M4, Hp.
Qed.
(** * Writing entries *)
Lemma below_zero b d d' c c' : 0 < b -> d (path 0) = Some c -> d' (path 0) = Some c' -> (forall i, 0 < i -> d' (path i) = d (path i)) ->
  exists l, files_below b d = l ++ [c] /\ files_below b d' = l ++ [c'].
Proof.
  intros B H H' Eq. induction b as [|b IH]; [lia|]. cbn. destruct b as [|b].
  - rewrite H, H'. exists []. split; reflexivity.
  - destruct IH as (l & -> & ->); [lia|]. rewrite Eq by lia. eexists. split; rewrite app_assoc; reflexivity.
Qed.
Lemma emit_spec header ht lt e d c : d (path 0) = Some c ->
  emit peqb path header ht lt e d (path 0) = Some (c ++ (if header && (size c =? 0) then [Head ht] else []) ++ [Line e lt]) /\
  (forall p, p <> path 0 -> emit peqb path header ht lt e d p = d p).
Proof.
  intros H. unfold emit, append, size_at. rewrite H. split.
  - rewrite set_same. destruct (header && (size c =? 0)); [rewrite set_same, <- app_assoc|rewrite H]; reflexivity.
  - intros p Hp. rewrite set_other by exact Hp. destruct (header && (size c =? 0)); [apply set_other, Hp|reflexivity].
Qed.
Lemma open_spec d : open_file peqb (path 0) d (path 0) = Some (match d (path 0) with Some c => c | None => [] end) /\
  (forall p, p <> path 0 -> open_file peqb (path 0) d p = d p).
Proof.
  unfold open_file. destruct (d (path 0)) as [c|] eqn:D0; [split; auto|]. split; [apply set_same|intros; apply set_other; assumption].
Qed.
Lemma entry_cases ok fuel limit rsize header ht lt e d o d' c : write_entry peqb path ok fuel limit rsize header ht lt e d = (o, d') ->
  d (path 0) = Some c ->
  (o = Done /\ (rsize = 0 \/ size c < rsize) /\ d' = emit peqb path header ht lt e d) \/
  (0 < rsize <= size c /\ exists o1 c1 d1, rotate peqb path ok limit fuel 0 d = (o1, c1, d1) /\
    ((o = Done /\ o1 = Done /\ d' = emit peqb path header ht lt e (open_file peqb (path 0) d1)) \/ (o <> Done /\ d' = d1))).
Proof.
  unfold write_entry, size_at. intros H D0. rewrite D0 in H. destruct (negb (rsize =? 0) && (rsize <=? size c)) eqn:B.
  - right. apply andb_true_iff in B. destruct B as [B1 B2]. apply negb_true_iff, Nat.eqb_neq in B1. apply Nat.leb_le in B2. split; [lia|].
    destruct (rotate peqb path ok limit fuel 0 d) as [[o1 c1] d1] eqn:Ro. exists o1, c1, d1. split; [reflexivity|].
    destruct o1; [|injection H as <- <-; right; split; [discriminate|reflexivity]|injection H as <- <-; right; split; [discriminate|reflexivity]].
    destruct (ok c1); injection H as <- <-; [left; auto|right; split; [discriminate|reflexivity]].
  - left. injection H as <- <-. split; [reflexivity|]. split; [|reflexivity]. apply andb_false_iff in B.
    destruct B as [B|B]; [apply negb_false_iff, Nat.eqb_eq in B; auto|apply Nat.leb_gt in B; auto].
Qed.
(** C65, one entry *)
Lemma entry_spec ok fuel limit rsize header ht lt e d d' c : write_entry peqb path ok fuel limit rsize header ht lt e d = (Done, d') ->
  d (path 0) = Some c ->
  exists c' d1, (rsize = 0 \/ size c' < rsize) /\
  d' (path 0) = Some (c' ++ (if header && (size c' =? 0) then [Head ht] else []) ++ [Line e lt]) /\
  (forall p, p <> path 0 -> d' p = d1 p) /\
  ((c' = c /\ d1 = d) \/ (c' = [] /\ 0 < rsize <= size c /\ exists m, run_of path d m /\ rotated path limit m d d1)).
Proof.
  intros H D0. destruct (entry_cases _ _ _ _ _ _ _ _ _ _ _ _ H D0) as [(_ & Hs & ->)|(Hr & o1 & c1 & d1 & Ro & [(_ & -> & ->)|(X & _)])].
  - exists c, d. destruct (emit_spec header ht lt e d c D0) as [E1 E2]. repeat split; auto.
  - destruct (rotate_spec _ _ _ _ _ _ _ _ Ro eq_refl) as (m & Rm & Rd). exists [], d1. destruct (open_spec d1) as [O1 O2].
    rewrite (proj1 Rd) in O1. destruct (emit_spec header ht lt e _ _ O1) as [E1 E2].
    split; [right; cbn; lia|]. split; [exact E1|]. split; [intros p Hp; rewrite E2, O2 by exact Hp; reflexivity|]. right. repeat split; eauto; lia.
  - congruence.
Qed.

Lemma entry_text_spec ok fuel limit rsize header ht lt e d d' c : write_entry peqb path ok fuel limit rsize header ht lt e d = (Done, d') ->
  d (path 0) = Some c ->
  exists c' d1, (rsize = 0 \/ String.length (text_of c') < rsize) /\
  d' (path 0) = Some (c' ++ (if header && (String.length (text_of c') =? 0) then [Head ht] else []) ++ [Line e lt]) /\
  (forall p, p <> path 0 -> d' p = d1 p) /\
  ((c' = c /\ d1 = d) \/ (c' = [] /\ 0 < rsize <= String.length (text_of c) /\ exists m, run_of path d m /\ rotated path limit m d d1)).
Proof.
  intros H D. destruct (entry_spec _ _ _ _ _ _ _ _ _ _ _ H D) as (c' & d1 & X). exists c', d1. rewrite <- !size_text. exact X.
Qed.

(** what a write can do to the lines of the files *)
Definition kept (limit : nat) (rsize : nat) (d d' : disk) (es : list E) : Prop :=
  (forall fs, all_files path d fs -> exists fs', all_files path d' fs' /\
    sublist (all_lines fs') (all_lines fs ++ es) /\
    ((forall i, limit < i -> d (path i) = None) -> suffix_of (all_lines fs') (all_lines fs ++ es)) /\
    (rsize = 0 -> all_lines fs' = all_lines fs ++ es)) /\
  (forall i, limit < i -> d (path i) = None -> d' (path i) = None) /\
  (forall p, (forall j, p <> path j) -> d' p = d p).
Lemma all_slack d fs n : all_files path d fs -> exists b, n <= b /\ 0 < b /\ (forall i, b <= S i -> d (path i) = None) /\ fs = files_below b d.
Proof.
  intros (b & Hb & ->). exists (S (b + n)). split; [lia|]. split; [lia|]. split; [intros i Hi; apply Hb; lia|]. symmetry. apply below_more; [lia|exact Hb].
Qed.
Lemma lines_app (l l' : list content) : all_lines (l ++ l') = all_lines l ++ all_lines l'.
Proof. apply flat_map_app. Qed.
Lemma lines_one (c : content) : all_lines [c] = lines_of c.
Proof. cbn. apply app_nil_r. Qed.
Lemma emit_kept header ht lt e d c limit rsize : d (path 0) = Some c -> kept limit rsize d (emit peqb path header ht lt e d) [e].
Proof.
  intros D0. destruct (emit_spec header ht lt e d c D0) as [E1 E2].
  assert (E3 : forall i, 0 < i -> emit peqb path header ht lt e d (path i) = d (path i)).
  { intros i Hi. apply E2. intros X. apply Inj in X. lia. }
  split; [|split].
  - intros fs Hf. destruct (all_slack _ _ 0 Hf) as (b & _ & B1 & B2 & ->).
    destruct (below_zero b _ _ _ _ B1 D0 E1 E3) as (l & F1 & F2).
    assert (X : all_lines (files_below b (emit peqb path header ht lt e d)) = all_lines (files_below b d) ++ [e]).
    { rewrite F1, F2, !lines_app, !lines_one. unfold lines_of. rewrite !flat_map_app. cbn. rewrite <- !app_assoc.
      destruct (header && (size c =? 0)); reflexivity. }
    exists (files_below b (emit peqb path header ht lt e d)). rewrite X. split; [|split; [apply sub_refl|split; [intros _; apply suffix_refl|reflexivity]]].
    exists b. split; [|reflexivity]. intros i Hi. rewrite E3 by lia. apply B2. lia.
  - intros i Hi Di. rewrite E3 by lia. exact Di.
  - intros p Hp. apply E2, Hp.
Qed.
Lemma kept_trans limit rsize d d1 d' es es' : kept limit rsize d d1 es -> kept limit rsize d1 d' es' -> kept limit rsize d d' (es ++ es').
Proof.
  intros (A1 & A2 & A3) (B1 & B2 & B3). split; [|split].
  - intros fs Hf. destruct (A1 fs Hf) as (fs1 & F1 & F2 & F3 & F4). destruct (B1 fs1 F1) as (fs2 & G1 & G2 & G3 & G4).
    exists fs2. split; [exact G1|]. rewrite app_assoc. split; [|split].
    + eapply sub_trans; [exact G2|]. apply sub_app; [exact F2|apply sub_refl].
    + intros Hl. eapply suffix_trans; [apply G3; auto|]. apply suffix_app, F3, Hl.
    + intros Z. rewrite G4, F4 by exact Z. reflexivity.
  - intros i Hi Di. auto.
  - intros p Hp. rewrite B3, A3 by exact Hp. reflexivity.
Qed.
Lemma kept_same limit rsize d : kept limit rsize d d [].
Proof.
  split; [|split; auto]. intros fs Hf. exists fs. rewrite app_nil_r. split; [exact Hf|]. split; [apply sub_refl|]. split; [intros _; apply suffix_refl|reflexivity].
Qed.
Lemma open_kept limit rsize d : kept limit rsize d (open_file peqb (path 0) d) [].
Proof.
  destruct (open_spec d) as [O1 O2]. destruct (d (path 0)) as [c|] eqn:D0; [unfold open_file; rewrite D0; apply kept_same|].
  assert (O3 : forall i, 0 < i -> open_file peqb (path 0) d (path i) = d (path i)) by (intros i Hi; apply O2; intros X; apply Inj in X; lia).
  split; [|split].
  - intros fs Hf. destruct (all_slack _ _ 0 Hf) as (b & _ & B1 & B2 & ->).
    assert (X : forall b, 0 < b -> files_below b (open_file peqb (path 0) d) = files_below b d ++ [[]]).
    { clear - O1 O3 D0. intros b Hb. induction b as [|b IH]; [lia|]. cbn. destruct b as [|b]; [rewrite O1, D0; reflexivity|].
      rewrite O3 by lia. rewrite IH by lia. apply app_assoc. }
    exists (files_below b (open_file peqb (path 0) d)).
    assert (Y : all_lines (files_below b (open_file peqb (path 0) d)) = all_lines (files_below b d) ++ []) by (rewrite X by exact B1; rewrite lines_app; reflexivity).
    rewrite Y. split; [|split; [apply sub_refl|split; [intros _; apply suffix_refl|reflexivity]]].
    exists b. split; [|reflexivity]. intros i Hi. rewrite O3 by lia. apply B2. lia.
  - intros i Hi Di. rewrite O3 by lia. exact Di.
  - intros p Hp. apply O2, Hp.
Qed.
Lemma rotate_kept ok limit fuel d o c' d' rsize : rsize <> 0 -> rotate peqb path ok limit fuel 0 d = (o, c', d') -> kept limit rsize d d' [].
Proof.
  intros Hr Ro. split; [|split].
  - intros fs Hf. destruct (all_slack _ _ limit Hf) as (b & B0 & B1 & B2 & ->). rewrite app_nil_r.
    destruct (rotate_keeps _ _ _ _ _ _ _ _ b Ro B2 B0) as (R1 & (older & older' & R2 & R3 & R4) & R5 & R6 & R7).
    exists (files_below b d'). split; [exists b; auto|]. split; [|split].
    + rewrite R2, R3. apply sub_flat, sub_app; [exact R4|apply sub_refl].
    + intros Hl. apply suffix_flat, R5, Hl.
    + intros Z. contradiction.
  - intros i Hi Di. revert Ro. unfold rotate. destruct (scan peqb path ok limit fuel 0 0 0 d) as [[[o1 num] c1] d1] eqn:Sc. intros H.
    destruct (scan_spec _ _ _ _ _ _ _ _ _ _ _ Sc) as (m & _ & M2 & M3 & M4 & M5).
    assert (D1 : d1 (path i) = None) by (rewrite M3; destruct (between _ _ _); auto).
    destruct o1; [|injection H as <- <- <-; exact D1|injection H as <- <- <-; exact D1].
    destruct (M5 eq_refl) as [Mn En]. cbn in En. rewrite Nat.sub_0_r in En.
    destruct (shift_spec _ _ _ _ _ _ _ H) as (q & Q1 & Q2 & _ & _ & Q3 & Q4).
    + intros j Hj. rewrite M3, (proj2 (between_false _ _ _)) by lia. apply M2. lia.
    + rewrite M3. destruct (between _ _ _) eqn:B; [reflexivity|]. apply between_false in B. replace num with m by lia. exact Mn.
    + rewrite Q3. destruct (Nat.eqb i q); [reflexivity|]. rewrite (proj2 (between_false _ _ _)) by lia. exact D1.
  - intros p Hp. revert Ro. unfold rotate. destruct (scan peqb path ok limit fuel 0 0 0 d) as [[[o1 num] c1] d1] eqn:Sc. intros H.
    destruct (scan_spec _ _ _ _ _ _ _ _ _ _ _ Sc) as (m & _ & M2 & M3 & M4 & M5).
    destruct o1; [|injection H as <- <- <-; apply M4, Hp|injection H as <- <- <-; apply M4, Hp].
    destruct (M5 eq_refl) as [Mn En]. cbn in En. rewrite Nat.sub_0_r in En.
    destruct (shift_spec _ _ _ _ _ _ _ H) as (q & Q1 & Q2 & _ & _ & Q3 & Q4).
    + intros j Hj. rewrite M3, (proj2 (between_false _ _ _)) by lia. apply M2. lia.
    + rewrite M3. destruct (between _ _ _) eqn:B; [reflexivity|]. apply between_false in B. replace num with m by lia. exact Mn.
    + rewrite Q4 by exact Hp. apply M4, Hp.
Qed.
Lemma entry_kept ok fuel limit rsize header ht lt e d o d' : write_entry peqb path ok fuel limit rsize header ht lt e d = (o, d') ->
  d (path 0) <> None -> kept limit rsize d d' (match o with Done => [e] | _ => [] end) /\ (o = Done -> d' (path 0) <> None).
Proof.
  intros H D0. destruct (d (path 0)) as [c|] eqn:Dc; [clear D0|congruence].
  destruct (entry_cases _ _ _ _ _ _ _ _ _ _ _ _ H Dc) as [(-> & Hs & ->)|(Hr & o1 & c1 & d1 & Ro & X)].
  - split; [apply (emit_kept _ _ _ _ _ _ _ _ Dc)|]. intros _. rewrite (proj1 (emit_spec header ht lt e d c Dc)). discriminate.
  - assert (Kr : kept limit rsize d d1 []) by (eapply rotate_kept; [|exact Ro]; lia).
    destruct X as [(-> & -> & ->)|(Hn & ->)].
    + destruct (open_spec d1) as [O1 O2]. split.
      * change [e] with (([] ++ []) ++ [e]). eapply kept_trans; [eapply kept_trans; [exact Kr|apply open_kept]|eapply emit_kept; exact O1].
      * intros _. rewrite (proj1 (emit_spec header ht lt e _ _ O1)). discriminate.
    + split; [destruct o; [congruence|exact Kr|exact Kr]|congruence].
Qed.

(** ** headers *)
Definition all_headed (d : disk) : Prop := forall i c, d (path i) = Some c -> headed c.
Lemma emit_headed ht lt e d : all_headed d -> d (path 0) <> None -> all_headed (emit peqb path true ht lt e d).
Proof.
  intros Hh D0 i c. destruct (d (path 0)) as [c0|] eqn:Dc; [|congruence]. destruct (emit_spec true ht lt e d c0 Dc) as [E1 E2].
  destruct (Nat.eq_dec i 0) as [->|N]; [|rewrite E2 by (intros X; apply Inj in X; contradiction); apply Hh].
  rewrite E1. intros [= <-]. specialize (Hh 0 c0 Dc). destruct c0 as [|[t|t|e0 t] c0]; cbn in Hh |- *; auto.
Qed.
Lemma open_headed d : all_headed d -> all_headed (open_file peqb (path 0) d).
Proof.
  intros Hh i c. destruct (open_spec d) as [O1 O2]. destruct (Nat.eq_dec i 0) as [->|N]; [|rewrite O2 by (intros X; apply Inj in X; contradiction); apply Hh].
  rewrite O1. intros [= <-]. destruct (d (path 0)) eqn:D0; [apply (Hh _ _ D0)|exact I].
Qed.
Lemma scan_headed ok limit fuel : forall i num c d o num' c' d', scan peqb path ok limit fuel i num c d = (o, num', c', d') -> all_headed d -> all_headed d'.
Proof.
  intros i num c d o num' c' d' Sc Hh j x. destruct (scan_spec _ _ _ _ _ _ _ _ _ _ _ Sc) as (m & _ & _ & M3 & _). rewrite M3.
  destruct (between _ _ _); [discriminate|apply Hh].
Qed.
Lemma shift_headed ok : forall n c d o c' d', shift peqb path ok n c d = (o, c', d') -> all_headed d -> all_headed d'.
Proof.
  induction n as [|n IH]; intros c d o c' d' H Hh; cbn in H; [injection H as <- <- <-; exact Hh|].
  destruct (d (path n)) as [c0|] eqn:Dn; [|injection H as <- <- <-; exact Hh]. destruct (ok c); [|injection H as <- <- <-; exact Hh].
  apply IH in H; [exact H|]. intros j x. rewrite rename_path. destruct (Nat.eqb j (S n)); [apply Hh|]. destruct (Nat.eqb j n); [discriminate|apply Hh].
Qed.
Lemma entry_headed ok fuel limit rsize ht lt e d o d' : write_entry peqb path ok fuel limit rsize true ht lt e d = (o, d') ->
  d (path 0) <> None -> all_headed d -> all_headed d'.
Proof.
  intros H D0 Hh. destruct (d (path 0)) as [c|] eqn:Dc; [clear D0|congruence].
  destruct (entry_cases _ _ _ _ _ _ _ _ _ _ _ _ H Dc) as [(-> & Hs & ->)|(Hr & o1 & c1 & d1 & Ro & X)].
  - apply emit_headed; [exact Hh|congruence].
  - assert (H1 : all_headed d1).
    { revert Ro. unfold rotate. destruct (scan peqb path ok limit fuel 0 0 0 d) as [[[o2 num] c2] d2] eqn:Sc. apply scan_headed in Sc; [|exact Hh].
      destruct o2; intros Ro; [apply shift_headed in Ro; auto|injection Ro as <- <- <-; exact Sc|injection Ro as <- <- <-; exact Sc]. }
    destruct X as [(-> & -> & ->)|(Hn & ->)]; [|exact H1]. apply emit_headed; [apply open_headed, H1|]. rewrite (proj1 (open_spec d1)). discriminate.
Qed.

(** ** a whole batch *)
Definition batch_kept (fixed : option nat) (rsize : nat) (d d' : disk) (es : list E) : Prop :=
  (forall fs, all_files path d fs -> exists fs', all_files path d' fs' /\
    sublist (all_lines fs') (all_lines fs ++ es) /\
    (forall limit, fixed = Some limit -> (forall i, limit < i -> d (path i) = None) -> suffix_of (all_lines fs') (all_lines fs ++ es)) /\
    (rsize = 0 -> all_lines fs' = all_lines fs ++ es)) /\
  (forall limit, fixed = Some limit -> forall i, limit < i -> d (path i) = None -> d' (path i) = None) /\
  (forall p, (forall j, p <> path j) -> d' p = d p).
Lemma kept_batch limit fixed rsize d d' es : (forall l, fixed = Some l -> l = limit) -> kept limit rsize d d' es -> batch_kept fixed rsize d d' es.
Proof.
  intros F (A1 & A2 & A3). split; [|split; [|exact A3]].
  - intros fs Hf. destruct (A1 fs Hf) as (fs1 & F1 & F2 & F3 & F4). exists fs1. repeat split; auto. intros l Hl. rewrite (F l Hl). exact F3.
  - intros l Hl. rewrite (F l Hl). exact A2.
Qed.
Lemma batch_trans fixed rsize d d1 d' es es' : batch_kept fixed rsize d d1 es -> batch_kept fixed rsize d1 d' es' -> batch_kept fixed rsize d d' (es ++ es').
Proof.
  intros (A1 & A2 & A3) (B1 & B2 & B3). split; [|split].
  - intros fs Hf. destruct (A1 fs Hf) as (fs1 & F1 & F2 & F3 & F4). destruct (B1 fs1 F1) as (fs2 & G1 & G2 & G3 & G4).
    exists fs2. split; [exact G1|]. rewrite app_assoc. split; [|split].
    + eapply sub_trans; [exact G2|]. apply sub_app; [exact F2|apply sub_refl].
    + intros l Hl Hb. eapply suffix_trans; [apply (G3 l Hl); intros i Hi; apply (A2 l Hl); auto|]. apply suffix_app, (F3 l Hl), Hb.
    + intros Z. rewrite G4, F4 by exact Z. reflexivity.
  - intros l Hl i Hi Di. apply (B2 l Hl); auto. apply (A2 l Hl); auto.
  - intros p Hp. rewrite B3, A3 by exact Hp. reflexivity.
Qed.
Lemma write_all_kept fixed fuel rsize header (l : list (item E)) d o n d' :
  (forall lim i, fixed = Some lim -> In i l -> i_limit i = lim) -> write_all peqb path fuel rsize header l d = (o, n, d') -> d (path 0) <> None ->
  batch_kept fixed rsize d d' (map i_entry (firstn n l)) /\ (o = Done -> n = List.length l) /\
  (header = true -> all_headed d -> all_headed d').
Proof.
  revert d o n d'. induction l as [|i l IH]; intros d o n d' Fx H D0; cbn in H.
  - injection H as <- <- <-. split; [|split; auto]. cbn. apply (kept_batch (match fixed with Some l => l | None => 0 end)); [intros l ->; reflexivity|apply kept_same].
  - destruct (write_entry peqb path (i_ok i) fuel (i_limit i) rsize header (i_head i) (i_line i) (i_entry i) d) as [o1 d1] eqn:We.
    destruct (entry_kept _ _ _ _ _ _ _ _ _ _ _ We D0) as [K1 K2]. apply (kept_batch _ fixed) in K1; [|intros lim Hl; symmetry; apply (Fx lim i Hl); left; reflexivity].
    assert (Hd : header = true -> all_headed d -> all_headed d1) by (intros ->; apply (entry_headed _ _ _ _ _ _ _ _ _ _ We D0)).
    destruct o1; [|injection H as <- <- <-; split; [exact K1|split; [discriminate|exact Hd]]|injection H as <- <- <-; split; [exact K1|split; [discriminate|exact Hd]]].
    destruct (write_all peqb path fuel rsize header l d1) as [[o2 n2] d2] eqn:Wa. injection H as <- <- <-.
    destruct (IH d1 _ _ _ (fun lim j Hl Hj => Fx lim j Hl (or_intror Hj)) Wa (K2 eq_refl)) as (A1 & A2 & A3).
    split; [|split; [intros Ho; cbn; rewrite A2 by exact Ho; reflexivity|auto]].
    cbn [firstn map]. change (i_entry i :: map i_entry (firstn n2 l)) with ([i_entry i] ++ map i_entry (firstn n2 l)).
    eapply batch_trans; [exact K1|exact A1].
Qed.
Lemma write_batch_kept fixed fuel rsize header (l : list (item E)) d o n d' :
  (forall lim i, fixed = Some lim -> In i l -> i_limit i = lim) -> write_batch peqb path fuel rsize header l d = (o, n, d') ->
  batch_kept fixed rsize d d' (map i_entry (firstn n l)) /\ (o = Done -> n = List.length l) /\
  (header = true -> all_headed d -> all_headed d').
Proof.
  intros Fx H. unfold write_batch in H. destruct (write_all_kept fixed _ _ _ _ _ _ _ _ Fx H) as (A1 & A2 & A3).
  - rewrite (proj1 (open_spec d)). discriminate.
  - split; [|split; [exact A2|intros X Hh; apply A3, open_headed; auto]].
    change (map i_entry (firstn n l)) with ([] ++ map i_entry (firstn n l)). eapply batch_trans; [|exact A1].
    apply (kept_batch (match fixed with Some l => l | None => 0 end)); [intros x ->; reflexivity|apply open_kept].
Qed.
End One.
