(** The numbered paths. *)
From Coq Require Import List Bool Arith Ascii String DecimalString Lia.
From Coq Require Decimal DecimalNat.
From Verif Require Import Base LogFileModel LogFileSpec LogFileProofs.
Import ListNotations.

Lemma existsb_eqb c l : existsb (Ascii.eqb c) l = true <-> In c l.
Proof.
  rewrite existsb_exists. split; [intros (x & Hx & E); apply Ascii.eqb_eq in E; subst; exact Hx|intros Hx; exists c; split; [exact Hx|apply Ascii.eqb_refl]].
Qed.
Lemma existsb_not c l : existsb (Ascii.eqb c) l = false <-> ~ In c l.
Proof. rewrite <- existsb_eqb. destruct (existsb _ l); split; congruence. Qed.
Lemma after_no c l : ~ In c (after_last c l).
Proof.
  induction l as [|x l IH]; cbn; [tauto|]. destruct (existsb (Ascii.eqb c) l) eqn:E; [exact IH|]. apply existsb_not in E.
  destruct (Ascii.eqb_spec c x) as [->|N]; [exact E|]. intros [->|X]; auto.
Qed.
Lemma after_app c l r : ~ In c r -> after_last c (l ++ c :: r) = r.
Proof.
  intros N. induction l as [|x l IH]; cbn.
  - rewrite (proj2 (existsb_not c r) N), Ascii.eqb_refl. reflexivity.
  - rewrite (proj2 (existsb_eqb c (l ++ c :: r))) by (apply in_or_app; right; left; reflexivity). exact IH.
Qed.
Lemma after_none c l : ~ In c l -> after_last c l = l.
Proof.
  destruct l as [|x l]; [reflexivity|]. intros N. cbn. rewrite (proj2 (existsb_not c l)) by (intros X; apply N; right; exact X).
  destruct (Ascii.eqb_spec c x) as [->|_]; [|reflexivity]. exfalso. apply N. left. reflexivity.
Qed.
Lemma split_last c l : (~ In c l) \/ exists a, l = a ++ c :: after_last c l.
Proof.
  induction l as [|x l IH]; [left; cbn; tauto|]. cbn. destruct (existsb (Ascii.eqb c) l) eqn:E.
  - apply existsb_eqb in E. destruct IH as [IH|(a & IH)]; [contradiction|]. right. exists (x :: a). cbn. rewrite <- IH. reflexivity.
  - apply existsb_not in E. destruct (Ascii.eqb_spec c x) as [->|N]; [right; exists []; reflexivity|left]. intros [->|X]; auto.
Qed.
Lemma firstn_front {A} (a b : list A) : firstn (List.length (a ++ b) - List.length b) (a ++ b) = a.
Proof. rewrite app_length. replace (List.length a + List.length b - List.length b) with (List.length a) by lia. rewrite firstn_app, firstn_all, Nat.sub_diag. apply app_nil_r. Qed.
Lemma front_of {A} (l a b : list A) : l = a ++ b -> firstn (List.length l - List.length b) l = a.
Proof. intros ->. apply firstn_front. Qed.

(** a path is its directory, which is empty or ends with a slash, and its file name *)
Lemma path_parts p : directory p ++ filename p = p.
Proof.
  unfold directory, upto_last, filename. destruct (split_last "/" p) as [N|(a & E)].
  - rewrite (after_none _ _ N), Nat.sub_diag. reflexivity.
  - rewrite (front_of p (a ++ ["/"%char]) (after_last "/" p)) by (rewrite <- app_assoc; exact E). rewrite <- app_assoc. symmetry. exact E.
Qed.
Lemma slash_split p f : ~ In "/"%char f -> directory (directory p ++ f) = directory p /\ filename (directory p ++ f) = f.
Proof.
  intros N. assert (F : filename (directory p ++ f) = f).
  { unfold filename. destruct (split_last "/" p) as [Np|(a & E)].
    - replace (directory p) with (@nil ascii); [apply after_none, N|].
      unfold directory, upto_last. rewrite (after_none _ _ Np), Nat.sub_diag. reflexivity.
    - replace (directory p) with (a ++ ["/"%char]); [rewrite <- app_assoc; apply after_app, N|].
      symmetry. apply front_of. rewrite <- app_assoc. exact E. }
  split; [|exact F]. pose proof (path_parts (directory p ++ f)) as X. rewrite F in X. apply app_inv_tail in X. exact X.
Qed.

(** a file name is its stem and its extension; the extension is empty or a dot and no other dots *)
Lemma name_parts f : stem f ++ extension f = f.
Proof.
  assert (S : exists a, f = a ++ extension f).
  { destruct f as [|x f]; [exists []; reflexivity|]. cbn. destruct (existsb (Ascii.eqb dot) f) eqn:E; [|exists (x :: f); symmetry; apply app_nil_r].
    destruct (Ascii.eqb x dot && (List.length f =? 1)); [exists (x :: f); symmetry; apply app_nil_r|].
    apply existsb_eqb in E. destruct (split_last dot f) as [N|(a & Ea)]; [contradiction|]. exists (x :: a). cbn. rewrite <- Ea. reflexivity. }
  destruct S as (a & Ea). unfold stem. rewrite (front_of f a (extension f) Ea). symmetry. exact Ea.
Qed.
Definition dots : list ascii := [dot; dot].
Lemma extension_app x a t : ~ In dot t -> x :: a ++ dot :: t <> dots -> extension (x :: a ++ dot :: t) = dot :: t.
Proof.
  intros N Nd. cbn [extension]. rewrite (proj2 (existsb_eqb dot (a ++ dot :: t))) by (apply in_or_app; right; left; reflexivity).
  rewrite after_app by exact N. destruct (Ascii.eqb_spec x dot) as [->|_]; [|reflexivity]. destruct (Nat.eqb_spec (List.length (a ++ dot :: t)) 1) as [L|_]; [|reflexivity].
  exfalso. apply Nd. rewrite app_length in L. cbn in L. destruct a; cbn in L; [|lia]. destruct t; cbn in L; [reflexivity|lia].
Qed.
Lemma extension_none x a : ~ In dot a -> extension (x :: a) = [].
Proof. intros N. cbn. rewrite (proj2 (existsb_not dot a) N). reflexivity. Qed.
(** inserting [m] between stem and extension *)
Lemma insert_parts f m : f <> dots -> ~ In dot m -> extension (stem f ++ m ++ extension f) = extension f /\ stem (stem f ++ m ++ extension f) = stem f ++ m.
Proof.
  intros Nf Nm. assert (E : extension (stem f ++ m ++ extension f) = extension f).
  { destruct f as [|x f].
    - cbn. rewrite app_nil_r. destruct m as [|y m]; [reflexivity|]. apply extension_none. intros X. apply Nm. right. exact X.
    - destruct (split_last dot f) as [N|(a & Ea)].
      + rewrite extension_none by exact N. unfold stem. rewrite extension_none by exact N. rewrite Nat.sub_0_r, firstn_all, app_nil_r. cbn [app].
        apply extension_none. intros X. apply in_app_or in X. destruct X; auto.
      + assert (Ed : extension (x :: f) = dot :: after_last dot f).
        { rewrite Ea at 1. rewrite extension_app; [reflexivity|apply after_no|rewrite <- Ea; exact Nf]. }
        rewrite Ed. assert (Es : stem (x :: f) = x :: a).
        { unfold stem. rewrite Ed. apply front_of. cbn. rewrite <- Ea. reflexivity. }
        rewrite Es. change ((x :: a) ++ m ++ dot :: after_last dot f) with (x :: (a ++ m ++ dot :: after_last dot f)). rewrite app_assoc.
        apply extension_app; [apply after_no|]. intros X. apply Nf. unfold dots in X. injection X as -> X.
        pose proof (f_equal (@List.length ascii) X) as L. rewrite !app_length in L. cbn in L.
        destruct a as [|y a]; cbn in L; [|lia]. destruct m as [|y m]; cbn in L; [|lia].
        cbn in X, Ea. rewrite Ea. unfold dots. f_equal. exact X. }
  split; [exact E|]. unfold stem at 1. rewrite E, app_assoc, firstn_front. reflexivity.
Qed.

(** * Numbers *)
Lemma digits_inj u v : digits u = digits v -> u = v.
Proof. revert v. induction u; intros v; destruct v; cbn; intros X; try discriminate; try reflexivity; injection X as X; f_equal; auto. Qed.
Lemma to_string_inj i j : to_string i = to_string j -> i = j.
Proof. intros X. apply digits_inj in X. rewrite <- (DecimalNat.Unsigned.of_to i), <- (DecimalNat.Unsigned.of_to j), X. reflexivity. Qed.
Lemma digits_not c u : ~ In c ["0";"1";"2";"3";"4";"5";"6";"7";"8";"9"]%char -> ~ In c (digits u).
Proof. intros N. induction u; cbn; [tauto|..]; (intros [X|X]; [apply N; rewrite <- X; cbn; tauto|auto]). Qed.
Lemma suffix_not c i : c <> "_"%char -> ~ In c ["0";"1";"2";"3";"4";"5";"6";"7";"8";"9"]%char -> ~ In c (suffix i).
Proof. intros Nu N. destruct i; [cbn; tauto|]. intros [X|X]; [congruence|]. apply (digits_not c (Nat.to_uint (S i)) N X). Qed.
Lemma suffix_inj i j : suffix i = suffix j -> i = j.
Proof. destruct i, j; intros X; auto; try discriminate. injection X as X. apply to_string_inj in X. exact X. Qed.
Lemma last_unique {A} (c : A) a b x y : ~ In c x -> ~ In c y -> a ++ c :: x = b ++ c :: y -> a = b /\ x = y.
Proof.
  intros Nx Ny. revert b. induction a as [|z a IH]; intros [|w b] E; cbn in E.
  - injection E as ->. auto.
  - injection E as -> E. exfalso. apply Nx. rewrite E. apply in_or_app. right. left. reflexivity.
  - injection E as -> E. exfalso. apply Ny. rewrite <- E. apply in_or_app. right. left. reflexivity.
  - injection E as -> E. destruct (IH _ E) as [-> ->]. auto.
Qed.

(** * The paths *)
Ltac not_digit := cbn; intros X; repeat (destruct X as [X|X]; [discriminate|]); exact X.
Lemma path_zero_proof p : file_path p 0 = p.
Proof. unfold file_path. cbn [suffix app]. rewrite name_parts. apply path_parts. Qed.
Lemma path_inj_proof p i j : file_path p i = file_path p j -> i = j.
Proof. unfold file_path. intros E. apply app_inv_head, app_inv_head, app_inv_tail in E. apply suffix_inj, E. Qed.
Lemma name_no_slash p i : ~ In "/"%char (stem (filename p) ++ suffix i ++ extension (filename p)).
Proof.
  assert (N : ~ In "/"%char (filename p)) by apply after_no. rewrite <- (name_parts (filename p)) in N.
  intros X. apply in_app_or in X. destruct X as [X|X]; [apply N, in_or_app; left; exact X|].
  apply in_app_or in X. destruct X as [X|X]; [|apply N, in_or_app; right; exact X]. revert X. apply suffix_not; [discriminate|not_digit].
Qed.
(** it stays in the directory *)
Lemma path_dir_proof p i : directory (file_path p i) = directory p.
Proof. apply slash_split, name_no_slash. Qed.
Lemma path_parts_proof p i : filename p <> dots ->
  extension (filename (file_path p i)) = extension (filename p) /\ stem (filename (file_path p i)) = stem (filename p) ++ suffix i.
Proof.
  intros N. unfold file_path. rewrite (proj2 (slash_split p _ (name_no_slash p i))). apply insert_parts; [exact N|]. apply suffix_not; [discriminate|not_digit].
Qed.
Lemma digits_string u : list_ascii_of_string (NilEmpty.string_of_uint u) = digits u.
Proof. induction u; cbn; congruence. Qed.
Lemma mark_suffix i : 0 < i -> number_mark i = suffix i.
Proof. intros Hi. destruct i; [lia|]. unfold number_mark. cbn [list_ascii_of_string suffix]. rewrite digits_string. reflexivity. Qed.
Lemma numbered_iff s : numbered s <-> exists s' i, 0 < i /\ s = s' ++ suffix i.
Proof. unfold numbered. split; intros (s' & i & Hi & ->); exists s', i; (split; [exact Hi|]); rewrite mark_suffix by exact Hi; reflexivity. Qed.
Lemma path_name_proof p i : filename p <> dots -> 0 < i ->
  extension (filename (file_path p i)) = extension (filename p) /\
  stem (filename (file_path p i)) = stem (filename p) ++ number_mark i.
Proof. intros N Hi. rewrite mark_suffix by exact Hi. apply path_parts_proof, N. Qed.
Lemma path_separate_proof p q i j : filename p <> dots -> filename q <> dots -> ~ numbered (stem (filename p)) -> ~ numbered (stem (filename q)) ->
  file_path p i = file_path q j -> p = q /\ i = j.
Proof.
  intros Np Nq Pp Pq E.
  assert (D : directory p = directory q) by (rewrite <- (path_dir_proof p i), <- (path_dir_proof q j), E; reflexivity).
  destruct (path_parts_proof p i Np) as [E1 S1]. destruct (path_parts_proof q j Nq) as [E2 S2]. rewrite E in E1, S1. rewrite E1 in E2. rewrite S1 in S2.
  assert (X : stem (filename p) = stem (filename q) /\ i = j).
  { destruct i as [|i], j as [|j].
    - cbn in S2. rewrite !app_nil_r in S2. auto.
    - exfalso. apply Pp, numbered_iff. change (suffix 0) with (@nil ascii) in S2. rewrite app_nil_r in S2. exists (stem (filename q)), (S j). split; [lia|exact S2].
    - exfalso. apply Pq, numbered_iff. change (suffix 0) with (@nil ascii) in S2. rewrite app_nil_r in S2. exists (stem (filename p)), (S i). split; [lia|symmetry; exact S2].
    - unfold suffix in S2. apply last_unique in S2; try (apply digits_not; not_digit). destruct S2 as [-> S2]. split; [reflexivity|apply to_string_inj, S2]. }
  destruct X as [X ->]. split; [|reflexivity]. rewrite <- (path_parts p), <- (path_parts q), D. f_equal. rewrite <- (name_parts (filename p)), <- (name_parts (filename q)), X, E2. reflexivity.
Qed.

(** * Other log files *)
Lemma path_eqb_true p q : path_eqb p q = true <-> p = q.
Proof. unfold path_eqb. destruct (list_eq_dec ascii_dec p q); split; congruence. Qed.
Lemma other_current p q i : p <> q -> filename p <> dots -> ~ numbered (stem (filename q)) -> q <> file_path p i.
Proof.
  intros N Np Pq E. destruct i as [|i]; [rewrite path_zero_proof in E; congruence|]. apply Pq, numbered_iff. exists (stem (filename p)), (S i).
  split; [lia|]. rewrite E. apply path_parts_proof, Np.
Qed.
Lemma batch_other {E} p q fuel rsize header (l : list (item E)) d o n d' : (forall i, q <> file_path p i) ->
  write_batch path_eqb (file_path p) fuel rsize header l d = (o, n, d') -> d' q = d q.
Proof.
  intros N H. eapply (write_batch_kept path_eqb path_eqb_true (file_path p) (path_inj_proof p) None) in H; [|discriminate].
  destruct H as ((_ & _ & K) & _). apply K, N.
Qed.
Lemma other_current_proof {E} p q fuel rsize header (l : list (item E)) d o n d' : p <> q -> filename p <> dots ->
  ~ numbered (stem (filename q)) -> write_batch path_eqb (file_path p) fuel rsize header l d = (o, n, d') -> d' q = d q.
Proof. intros H1 H2 H3. apply batch_other. intros i. apply other_current; auto. Qed.
Lemma other_files_proof {E} p q fuel rsize header (l : list (item E)) d o n d' i : p <> q -> filename p <> dots -> filename q <> dots ->
  ~ numbered (stem (filename p)) -> ~ numbered (stem (filename q)) ->
  write_batch path_eqb (file_path p) fuel rsize header l d = (o, n, d') -> d' (file_path q i) = d (file_path q i).
Proof. intros H1 H2 H3 H4 H5. apply batch_other. intros j X. apply path_separate_proof in X; auto. apply H1. symmetry. apply X. Qed.
