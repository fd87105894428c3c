(** Proofs about split, join, replace, strip. *)
From Coq Require Import List Bool Arith Lia.
From Verif Require Import Base StringModel StringSpec.
Import ListNotations.

Section Proofs.
Context {A : Type} (eqb : A -> A -> bool) (eqb_ok : forall x y, eqb x y = true <-> x = y).

Lemma prefixb_ok p s : prefixb eqb p s = true <-> exists v, s = p ++ v.
Proof.
  revert s. induction p as [|x p IH]; intros s; simpl.
  - split; [exists s; reflexivity|reflexivity].
  - destruct s as [|y s].
    + split; [discriminate|intros [v E]; discriminate].
    + rewrite andb_true_iff, eqb_ok, IH. split.
      * intros [-> [v ->]]. exists v. reflexivity.
      * intros [v E]. injection E as -> ->. split; eauto.
Qed.

Lemma search_some p s i : search eqb p s = Some i ->
  exists u v, first_cut p s u v /\ length u = i.
Proof.
  revert i. induction s as [|c s IH]; intros i; simpl.
  - destruct (prefixb eqb p []) eqn:P; [|discriminate]. intros E. injection E as <-.
    apply prefixb_ok in P. destruct P as [v ->]. exists [], v. split; [|reflexivity].
    split; [reflexivity|]. intros; simpl; lia.
  - destruct (prefixb eqb p (c :: s)) eqn:P.
    + intros E. injection E as <-. apply prefixb_ok in P. destruct P as [v E].
      exists [], v. split; [|reflexivity]. split; [exact E|]. intros; simpl; lia.
    + destruct (search eqb p s) as [j|]; [|discriminate]. intros E. injection E as <-.
      destruct (IH j eq_refl) as (u & v & [E F] & L). exists (c :: u), v.
      split; [|simpl; lia]. split; [simpl; f_equal; exact E|].
      intros [|x u'] v' E'.
      * exfalso. assert (P' : prefixb eqb p (c :: s) = true) by (apply prefixb_ok; exists v'; exact E').
        congruence.
      * simpl in E'. injection E' as -> E'. apply F in E'. simpl. lia.
Qed.

Lemma search_none p s : search eqb p s = None -> ~ occurs p s.
Proof.
  induction s as [|c s IH]; simpl.
  - destruct (prefixb eqb p []) eqn:P; [discriminate|]. intros _ (u & v & E).
    destruct u; [|discriminate].
    assert (P' : prefixb eqb p [] = true) by (apply prefixb_ok; exists v; exact E). congruence.
  - destruct (prefixb eqb p (c :: s)) eqn:P; [discriminate|].
    destruct (search eqb p s) as [j|]; [discriminate|]. intros _ (u & v & E).
    destruct u as [|x u].
    + assert (P' : prefixb eqb p (c :: s) = true) by (apply prefixb_ok; exists v; exact E). congruence.
    + injection E as -> E. apply IH; [reflexivity|]. exists u, v. exact E.
Qed.

Lemma first_cut_unique (p s u v u' v' : list A) : first_cut p s u v -> first_cut p s u' v' -> u = u' /\ v = v'.
Proof.
  intros [E F] [E' F']. pose proof (F _ _ E'). pose proof (F' _ _ E).
  assert (L : length u = length u') by lia.
  assert (U : u = u').
  { rewrite E in E'. apply (f_equal (firstn (length u))) in E'.
    rewrite firstn_app, firstn_all, Nat.sub_diag in E'. simpl in E'.
    rewrite L in E' at 1. rewrite firstn_app, firstn_all, Nat.sub_diag in E'. simpl in E'.
    rewrite !app_nil_r in E'. exact E'. }
  subst u'. split; [reflexivity|]. rewrite E in E'. apply app_inv_head in E'.
  apply app_inv_head in E'. exact E'.
Qed.

Lemma first_cut_occurs (p s u v : list A) : first_cut p s u v -> occurs p s.
Proof. intros [E _]. exists u, v. exact E. Qed.

Lemma pieces_unique (p s : list A) ps ps' : pieces p s ps -> pieces p s ps' -> ps = ps'.
Proof.
  intros H. revert ps'. induction H as [s N|s u v ps C H IH]; intros ps' H'; inversion H'; subst.
  - reflexivity.
  - exfalso. apply N. eapply first_cut_occurs; eauto.
  - exfalso. apply H0. eapply first_cut_occurs; eauto.
  - destruct (first_cut_unique _ _ _ _ _ _ C H0) as [-> ->]. f_equal. auto.
Qed.

Lemma pieces_nonempty (p s : list A) ps : pieces p s ps -> ps <> [].
Proof. destruct 1; discriminate. Qed.

Lemma interleaved_cons sep (x : list A) ps : ps <> [] ->
  interleaved sep (x :: ps) = x ++ sep ++ interleaved sep ps.
Proof. destruct ps; [congruence|reflexivity]. Qed.

Lemma pieces_join (p s : list A) ps : pieces p s ps -> interleaved p ps = s.
Proof.
  induction 1 as [s N|s u v ps [E _] H IH]; [reflexivity|].
  rewrite interleaved_cons by (eapply pieces_nonempty; eauto). rewrite IH. auto.
Qed.

Lemma pieces_no_sep (p s : list A) ps : p <> [] -> pieces p s ps -> Forall (fun x => ~ occurs p x) ps.
Proof.
  intros Hp. induction 1 as [s N|s u v ps [E F] H IH]; constructor; auto.
  intros (a & b & Eu). subst u.
  assert (E' : s = a ++ p ++ (b ++ p ++ v)) by (rewrite E, <- !app_assoc; reflexivity).
  apply F in E'. rewrite !app_length in E'. destruct p; [congruence|]. simpl in E'. lia.
Qed.

(** * join *)
Lemma join_loop_spec (sep : list A) parts : forall first joined,
  join_loop sep first parts joined =
    joined ++ (if first then interleaved sep parts
               else match parts with [] => [] | _ => sep ++ interleaved sep parts end).
Proof.
  induction parts as [|x rest IH]; intros first joined; simpl.
  - destruct first; rewrite app_nil_r; reflexivity.
  - rewrite IH. destruct first.
    + rewrite <- app_assoc. destruct rest; [rewrite app_nil_r|]; reflexivity.
    + rewrite <- !app_assoc. f_equal. f_equal. destruct rest; [rewrite app_nil_r|]; reflexivity.
Qed.

Lemma join_spec parts (sep : list A) : join parts sep = interleaved sep parts.
Proof. unfold join. rewrite join_loop_spec. reflexivity. Qed.

Lemma map_join_loop_spec {B S : Type} (sep : list A) (f : S -> B -> S * list A) parts : forall st first joined,
  map_join_loop sep f st first parts joined =
    (fst (in_order f st parts), join_loop sep first (snd (in_order f st parts)) joined).
Proof.
  induction parts as [|x rest IH]; intros st first joined; simpl; [reflexivity|].
  destruct (f st x) as [st1 y]. rewrite IH.
  destruct (in_order f st1 rest) as [st2 ys]. reflexivity.
Qed.

Lemma map_join_spec {B S : Type} (parts : list B) sep (f : S -> B -> S * list A) st :
  map_join parts sep f st =
    (fst (in_order f st parts), interleaved sep (snd (in_order f st parts))).
Proof. unfold map_join. rewrite map_join_loop_spec, join_loop_spec. reflexivity. Qed.

(** * split by separator *)

Lemma skipn_pre (pre rest : list A) : skipn (length pre) (pre ++ rest) = rest.
Proof. rewrite skipn_app, skipn_all, Nat.sub_diag. reflexivity. Qed.

Lemma skipn_pre_plus (pre rest : list A) n : skipn (length pre + n) (pre ++ rest) = skipn n rest.
Proof. rewrite skipn_app, skipn_all2 by lia. replace (length pre + n - length pre) with n by lia. reflexivity. Qed.

Lemma firstn_pre (pre rest : list A) : firstn (length pre) (pre ++ rest) = pre.
Proof. rewrite firstn_app, firstn_all, Nat.sub_diag. simpl. apply app_nil_r. Qed.

Lemma find_pre pre rest p : str_find eqb (pre ++ rest) p (length pre) =
  option_map (fun i => length pre + i) (search eqb p rest).
Proof.
  unfold str_find. rewrite (proj2 (Nat.leb_le _ _)) by (rewrite app_length; lia).
  rewrite skipn_pre. reflexivity.
Qed.

Lemma find_pre' s pre rest p : s = pre ++ rest -> str_find eqb s p (length pre) =
  option_map (fun i => length pre + i) (search eqb p rest).
Proof. intros ->. apply find_pre. Qed.

Lemma substr_pre (pre u rest : list A) : substr (pre ++ u ++ rest) (length pre) (Some (length u)) = Ret u.
Proof.
  unfold substr. rewrite (proj2 (Nat.leb_le _ _)) by (rewrite app_length; lia).
  rewrite skipn_pre, firstn_pre. reflexivity.
Qed.

Lemma split_sep_loop_spec sep s : sep <> [] -> forall n rest pre fuel acc,
  length rest <= n -> s = pre ++ rest -> length rest < fuel ->
  exists ps, split_sep_loop eqb s sep fuel (length pre) acc = Ret (acc ++ ps) /\ pieces sep rest ps.
Proof.
  intros Hsep. induction n as [|n IH]; intros rest pre fuel acc Hn Hs Hf;
    (destruct fuel as [|fuel]; [lia|]); cbn [split_sep_loop]; rewrite (find_pre' s pre rest sep Hs);
    destruct (search eqb sep rest) as [i|] eqn:Es; cbn [option_map].
  - exfalso. apply search_some in Es. destruct Es as (u & v & [E _] & _).
    destruct rest; [|simpl in Hn; lia]. destruct u; [|discriminate]. destruct sep; [congruence|discriminate].
  - exists [rest]. split; [|constructor; apply search_none; exact Es].
    unfold substr. rewrite Hs, (proj2 (Nat.leb_le _ _)) by (rewrite app_length; lia).
    rewrite skipn_pre. reflexivity.
  - destruct (search_some _ _ _ Es) as (u & v & C & L). pose proof C as [E _]. subst i.
    replace (length pre + length u - length pre) with (length u) by lia.
    assert (Es' : substr s (length pre) (Some (length u)) = Ret u)
      by (rewrite Hs, E; apply substr_pre).
    rewrite Es'. cbn [obind].
    destruct (IH v (pre ++ u ++ sep) fuel (acc ++ [u])) as (ps & E2 & P).
    { apply (f_equal (@length A)) in E. rewrite !app_length in E. destruct sep; [congruence|]. simpl in E. lia. }
    { rewrite Hs, E, <- !app_assoc. reflexivity. }
    { apply (f_equal (@length A)) in E. rewrite !app_length in E. destruct sep; [congruence|]. simpl in E. lia. }
    exists (u :: ps). split; [|econstructor; eauto].
    rewrite <- app_assoc in E2. simpl in E2. rewrite <- E2. f_equal. rewrite !app_length. lia.
  - exists [rest]. split; [|constructor; apply search_none; exact Es].
    unfold substr. rewrite Hs, (proj2 (Nat.leb_le _ _)) by (rewrite app_length; lia).
    rewrite skipn_pre. reflexivity.
Qed.

Lemma split_spec s sep : sep <> [] -> exists ps, split eqb s sep = Ret ps /\ pieces sep s ps.
Proof.
  intros H. unfold split. destruct sep as [|x sep]; [congruence|].
  destruct (split_sep_loop_spec (x :: sep) s H (length s) s [] (S (length s)) []) as (ps & E & P); auto.
  exists ps. split; assumption.
Qed.

Lemma split_chars_loop_spec (s : list A) : forall rest pre fuel acc, s = pre ++ rest -> length rest < fuel ->
  split_chars_loop s fuel (length pre) acc = Ret (acc ++ map (fun c => [c]) rest).
Proof.
  induction rest as [|c rest IH]; intros pre fuel acc Hs Hf;
    (destruct fuel as [|fuel]; [simpl in Hf; lia|]); cbn [split_chars_loop].
  - rewrite Hs, app_nil_r, Nat.ltb_irrefl. simpl. rewrite app_nil_r. reflexivity.
  - rewrite (proj2 (Nat.ltb_lt _ _)) by (rewrite Hs, app_length; simpl; lia).
    assert (E : substr s (length pre) (Some 1) = Ret [c])
      by (rewrite Hs; apply (substr_pre pre [c] rest)).
    rewrite E. cbn [obind].
    replace (S (length pre)) with (length (pre ++ [c])) by (rewrite app_length; simpl; lia).
    rewrite IH; [|rewrite <- app_assoc; exact Hs|simpl in Hf; lia].
    rewrite <- app_assoc. reflexivity.
Qed.

Lemma split_empty_sep s : split eqb s [] = Ret (map (fun c => [c]) s).
Proof. unfold split. apply (split_chars_loop_spec s s []); auto. Qed.

Lemma interleaved_nil (ps : list (list A)) : interleaved [] ps = concat ps.
Proof.
  induction ps as [|x ps IH]; [reflexivity|].
  destruct ps as [|y ps]; [simpl; rewrite app_nil_r; reflexivity|].
  change (interleaved [] (x :: y :: ps)) with (x ++ [] ++ interleaved [] (y :: ps)).
  rewrite IH. reflexivity.
Qed.

Theorem join_undoes_split s sep : exists ps, split eqb s sep = Ret ps /\ join ps sep = s.
Proof.
  destruct sep as [|x sep].
  - exists (map (fun c => [c]) s). split; [apply split_empty_sep|].
    rewrite join_spec, interleaved_nil.
    induction s as [|c s IH]; simpl; [reflexivity|f_equal; exact IH].
  - destruct (split_spec s (x :: sep)) as (ps & E & P); [discriminate|].
    exists ps. split; [exact E|]. rewrite join_spec. apply pieces_join. exact P.
Qed.

(** pieces from which the separator cannot arise except at the joints *)
Lemma pieces_of_join (p : list A) ps x : p <> [] ->
  (forall u, In u ps -> forall a b, u ++ p = a ++ p ++ b -> b = []) -> ~ occurs p x ->
  pieces p (interleaved p (ps ++ [x])) (ps ++ [x]).
Proof.
  intros Hp. induction ps as [|u ps IH]; intros Hu Hx.
  - apply pieces_last. exact Hx.
  - simpl app. rewrite interleaved_cons by (destruct ps; discriminate).
    eapply pieces_cut; [|apply IH; [intros; eapply Hu; eauto; right; assumption|exact Hx]].
    split; [reflexivity|]. intros u' v' E.
    destruct (le_lt_dec (length u) (length u')) as [L|L]; [exact L|exfalso].
    (* the occurrence lies inside u ++ p *)
    assert (E1 : exists l, u ++ p = u' ++ p ++ l).
    { rewrite !app_assoc in E. apply app_eq_app in E. destruct E as (l & [[El _]|[El _]]).
      - exists l. rewrite El, app_assoc. reflexivity.
      - exfalso. apply (f_equal (@length A)) in El. rewrite !app_length in El. lia. }
    destruct E1 as (l & E1).
    apply (Hu u (or_introl eq_refl)) in E1 as E2.
    apply (f_equal (@length A)) in E1. rewrite !app_length, E2 in E1. simpl in E1. lia.
Qed.

Theorem split_undoes_join p ps x : p <> [] ->
  (forall u, In u ps -> forall a b, u ++ p = a ++ p ++ b -> b = []) -> ~ occurs p x ->
  split eqb (join (ps ++ [x]) p) p = Ret (ps ++ [x]).
Proof.
  intros Hp Hu Hx. rewrite join_spec.
  destruct (split_spec (interleaved p (ps ++ [x])) p Hp) as (ps' & E & P).
  rewrite E. f_equal. eapply pieces_unique; [exact P|]. apply pieces_of_join; assumption.
Qed.

(** * replace *)

Lemma replace_loop_spec f r : f <> [] -> forall n rest pre fuel,
  length rest <= n -> length rest < fuel ->
  exists ps, replace_loop eqb f r fuel (pre ++ rest) (length pre) = Ret (pre ++ interleaved r ps) /\
    pieces f rest ps.
Proof.
  intros Hfne. induction n as [|n IH]; intros rest pre fuel Hn Hf;
    (destruct fuel as [|fuel]; [lia|]); cbn [replace_loop]; rewrite find_pre;
    destruct (search eqb f rest) as [i|] eqn:Es; cbn [option_map].
  - exfalso. apply search_some in Es. destruct Es as (u & v & [E _] & _).
    destruct rest; [|simpl in Hn; lia]. destruct u; [|discriminate]. destruct f; [congruence|discriminate].
  - exists [rest]. split; [reflexivity|constructor; apply search_none; exact Es].
  - destruct (search_some _ _ _ Es) as (u & v & C & L). pose proof C as [E _]. subst i.
    unfold str_replace. rewrite (proj2 (Nat.leb_le _ _)) by (rewrite E, !app_length; lia).
    cbn [obind].
    assert (E1 : firstn (length pre + length u) (pre ++ rest) = pre ++ u).
    { rewrite E, app_assoc, <- app_length. apply firstn_pre. }
    assert (E2 : skipn (length pre + length u + length f) (pre ++ rest) = v).
    { rewrite E. rewrite (app_assoc u f), app_assoc.
      replace (length pre + length u + length f) with (length (pre ++ u ++ f)) by (rewrite !app_length; lia).
      apply skipn_pre. }
    rewrite E1, E2.
    destruct (IH v ((pre ++ u) ++ r) fuel) as (ps & E3 & P).
    { apply (f_equal (@length A)) in E. rewrite !app_length in E. destruct f; [congruence|]. simpl in E. lia. }
    { apply (f_equal (@length A)) in E. rewrite !app_length in E. destruct f; [congruence|]. simpl in E. lia. }
    exists (u :: ps). split; [|econstructor; eauto].
    rewrite interleaved_cons by (eapply pieces_nonempty; eauto).
    rewrite !app_length, <- !app_assoc in E3. rewrite <- !app_assoc. rewrite <- E3.
    destruct f; [congruence|]. rewrite ?Nat.add_assoc. reflexivity.
  - exists [rest]. split; [reflexivity|constructor; apply search_none; exact Es].
Qed.

Theorem replace_spec s f r : f <> [] ->
  exists ps, replace eqb s f r = Ret (interleaved r ps) /\ pieces f s ps.
Proof.
  intros H. unfold replace. apply (replace_loop_spec f r H (length s) s []); lia.
Qed.

Lemma replace_empty_loop r : forall rest pre fuel, length rest + 1 < fuel ->
  replace_loop eqb [] r fuel (pre ++ rest) (length pre) = Ret (pre ++ r ++ flat_map (fun c => c :: r) rest).
Proof.
  induction rest as [|c rest IH]; intros pre fuel Hf; (destruct fuel as [|fuel]; [lia|]);
    cbn [replace_loop]; rewrite find_pre; cbn [search prefixb option_map];
    unfold str_replace; rewrite (proj2 (Nat.leb_le _ _)) by (rewrite app_length; lia); cbn [obind].
  - destruct fuel as [|fuel]; [simpl in Hf; lia|].
    cbn [replace_loop]. unfold str_find.
    assert (E0 : forall k, search eqb [] (skipn k (@nil A)) = Some 0) by (intros [|]; reflexivity).
    rewrite (proj2 (Nat.leb_gt _ _)).
    2: { rewrite !app_nil_r, !app_length, skipn_length, firstn_length. simpl. lia. }
    f_equal. simpl length. rewrite !Nat.add_0_r, firstn_pre, skipn_pre. reflexivity.
  - simpl length. rewrite !Nat.add_0_r, firstn_pre, skipn_pre.
    replace (pre ++ r ++ c :: rest) with ((pre ++ r ++ [c]) ++ rest) by (rewrite <- !app_assoc; reflexivity).
    replace (S (length pre + length r)) with (length (pre ++ r ++ [c])) by (rewrite !app_length; simpl; lia).
    rewrite IH by (simpl in Hf; lia). f_equal. rewrite <- !app_assoc. reflexivity.
Qed.

Theorem replace_empty s r : replace eqb s [] r = Ret (r ++ flat_map (fun c => c :: r) s).
Proof. unfold replace. apply (replace_empty_loop r s []). lia. Qed.

(** the replacement being the string itself: one replacement only *)
Theorem replace_self_spec s f : f <> [] ->
  (~ occurs f s /\ replace_self eqb s f = Ret s) \/
  (exists u v, first_cut f s u v /\ replace_self eqb s f = Ret (u ++ s ++ v)).
Proof.
  intros Hf. unfold replace_self.
  replace (length s + 2) with (S (S (length s))) by lia. cbn [replace_self_loop].
  pose proof (find_pre [] s f) as E0. simpl in E0. rewrite E0. clear E0.
  destruct (search eqb f s) as [i|] eqn:Es; cbn [option_map].
  - right. destruct (search_some _ _ _ Es) as (u & v & C & L). exists u, v. split; [exact C|].
    destruct C as [E _]. subst i. unfold str_replace.
    rewrite (proj2 (Nat.leb_le _ _)) by (rewrite E, !app_length; lia). cbn [obind].
    assert (E1 : firstn (length u) s = u) by (rewrite E; apply firstn_pre).
    assert (E2 : skipn (length u + length f) s = v).
    { rewrite E at 1. rewrite app_assoc, <- app_length. apply skipn_pre. }
    rewrite E1, E2. set (s' := u ++ s ++ v).
    assert (Hs' : forall n, n = length s -> match f with [] => S (length u + length s') | _ => length u + length s' end = length u + length s').
    { intros. destruct f; [congruence|reflexivity]. }
    rewrite (Hs' _ eq_refl). unfold str_find.
    destruct (Nat.leb_spec (length u + length s') (length s')) as [L|L]; [|reflexivity].
    assert (Z : skipn (length u + length s') s' = []) by (apply skipn_all2; lia).
    rewrite Z. destruct f; [congruence|]. reflexivity.
  - left. split; [apply search_none; exact Es|reflexivity].
Qed.

(** * index_if *)
Lemma index_if_some P (s : list A) i : index_if P s = Some i ->
  exists u x v, s = u ++ x :: v /\ length u = i /\ P x = true /\ Forall (fun y => P y = false) u.
Proof.
  revert i. induction s as [|y s IH]; intros i; simpl; [discriminate|].
  destruct (P y) eqn:Py.
  - intros E. injection E as <-. exists [], y, s. auto.
  - destruct (index_if P s) as [j|]; [|discriminate]. intros E. injection E as <-.
    destruct (IH j eq_refl) as (u & x & v & -> & L & Px & F).
    exists (y :: u), x, v. simpl. repeat split; auto.
Qed.

Lemma index_if_none P (s : list A) : index_if P s = None -> Forall (fun y => P y = false) s.
Proof.
  induction s as [|y s IH]; simpl; [constructor|].
  destruct (P y) eqn:Py; [discriminate|]. destruct (index_if P s); [discriminate|]. auto.
Qed.

Lemma find_if_pre P (pre rest : list A) : str_find_if P (pre ++ rest) (Some (length pre)) =
  option_map (fun i => length pre + i) (index_if P rest).
Proof. unfold str_find_if. rewrite skipn_pre. reflexivity. Qed.

Lemma find_if_pre' P (s pre rest : list A) : s = pre ++ rest -> str_find_if P s (Some (length pre)) =
  option_map (fun i => length pre + i) (index_if P rest).
Proof. intros ->. apply find_if_pre. Qed.

(** * replace_any_of *)
Definition subst_any (set r : list A) (c : A) : list A := if mem eqb set c then r else [c].

Lemma subst_none set r u : Forall (fun y => mem eqb set y = false) u -> flat_map (subst_any set r) u = u.
Proof.
  induction 1 as [|y u Hy Hu IH]; simpl; [reflexivity|]. unfold subst_any at 1. rewrite Hy. simpl. f_equal. exact IH.
Qed.

Lemma replace_any_of_loop_spec set r : forall n rest pre fuel,
  length rest <= n -> length rest < fuel ->
  replace_any_of_loop eqb set r fuel (pre ++ rest) (length pre) = Ret (pre ++ flat_map (subst_any set r) rest).
Proof.
  induction n as [|n IH]; intros rest pre fuel Hn Hf; (destruct fuel as [|fuel]; [lia|]);
    cbn [replace_any_of_loop]; unfold find_first_of; rewrite find_if_pre;
    destruct (index_if (mem eqb set) rest) as [i|] eqn:Ei; cbn [option_map].
  - destruct rest; [discriminate|simpl in Hn; lia].
  - apply index_if_none in Ei. rewrite subst_none by exact Ei. reflexivity.
  - apply index_if_some in Ei. destruct Ei as (u & x & v & -> & L & Px & F). subst i.
    unfold str_replace. rewrite (proj2 (Nat.leb_le _ _)) by (rewrite !app_length; lia).
    cbn [obind].
    assert (E1 : firstn (length pre + length u) (pre ++ u ++ x :: v) = pre ++ u).
    { rewrite app_assoc, <- app_length. apply firstn_pre. }
    assert (E2 : skipn (length pre + length u + 1) (pre ++ u ++ x :: v) = v).
    { replace (pre ++ u ++ x :: v) with ((pre ++ u ++ [x]) ++ v) by (rewrite <- !app_assoc; reflexivity).
      replace (length pre + length u + 1) with (length (pre ++ u ++ [x])) by (rewrite !app_length; simpl; lia).
      apply skipn_pre. }
    rewrite E1, E2.
    replace ((pre ++ u) ++ r ++ v) with ((pre ++ u ++ r) ++ v) by (rewrite <- !app_assoc; reflexivity).
    replace (length pre + length u + length r) with (length (pre ++ u ++ r)) by (rewrite !app_length; lia).
    rewrite app_length in Hn, Hf. simpl in Hn, Hf.
    rewrite IH by lia. f_equal.
    rewrite flat_map_app, (subst_none set r u F). simpl. unfold subst_any at 2. rewrite Px.
    rewrite <- !app_assoc. reflexivity.
  - apply index_if_none in Ei. rewrite subst_none by exact Ei. reflexivity.
Qed.

Theorem replace_any_of_spec s set r : replace_any_of eqb s set r = Ret (flat_map (subst_any set r) s).
Proof. unfold replace_any_of. apply (replace_any_of_loop_spec set r (length s) s []); lia. Qed.

(** * split_any_of *)
Lemma words_skip sep (u s : list A) ws : Forall (fun c => sep c = true) u -> words sep s ws -> words sep (u ++ s) ws.
Proof. induction 1; simpl; auto. intros. apply words_sep; auto. Qed.

Lemma split_any_of_loop_spec s set : forall n rest pre fuel acc,
  length rest <= n -> s = pre ++ rest -> length rest < fuel ->
  exists ws, split_any_of_loop eqb s set fuel (Some (length pre)) acc = Ret (acc ++ ws) /\
    words (mem eqb set) rest ws.
Proof.
  assert (NN : forall (u : list A), Forall (fun y => negb (mem eqb set y) = false) u ->
                 Forall (fun y => mem eqb set y = true) u).
  { intros u F. eapply Forall_impl; [|exact F]. intros y Hy. apply negb_false_iff in Hy. exact Hy. }
  induction n as [|n IH]; intros rest pre fuel acc Hn Hs Hf; (destruct fuel as [|fuel]; [lia|]);
    cbn [split_any_of_loop]; unfold find_first_not_of; rewrite (find_if_pre' _ s pre rest Hs);
    destruct (index_if _ rest) as [i|] eqn:Ei; cbn [option_map].
  - destruct rest; [discriminate|simpl in Hn; lia].
  - exists []. rewrite app_nil_r. split; [reflexivity|].
    apply index_if_none in Ei. rewrite <- (app_nil_r rest). apply words_skip; [auto|constructor].
  - apply index_if_some in Ei. destruct Ei as (u & x & v & Er & L & Px & F). subst i.
    apply negb_true_iff in Px. apply NN in F.
    assert (Hs' : s = (pre ++ u) ++ x :: v) by (rewrite Hs, Er, <- app_assoc; reflexivity).
    assert (Lp : length pre + length u = length (pre ++ u)) by (rewrite app_length; reflexivity).
    rewrite Lp. unfold find_first_of.
    assert (Ef : str_find_if (mem eqb set) s (Some (length (pre ++ u))) =
      option_map (fun i => length (pre ++ u) + i) (index_if (mem eqb set) (x :: v)))
      by (rewrite Hs'; apply find_if_pre).
    rewrite Ef.
    destruct (index_if (mem eqb set) (x :: v)) as [j|] eqn:Ej; cbn [option_map].
    + apply index_if_some in Ej. destruct Ej as (w & y & v2 & Ew & Lw & Py & Fw). subst j.
      assert (Hw : w <> []).
      { intros ->. simpl in Ew. injection Ew as -> ->. congruence. }
      replace (length (pre ++ u) + length w - length (pre ++ u)) with (length w) by lia.
      assert (Esub : substr s (length (pre ++ u)) (Some (length w)) = Ret w)
        by (rewrite Hs', Ew; apply substr_pre).
      rewrite Esub. cbn [obind].
      replace (length (pre ++ u) + length w) with (length ((pre ++ u) ++ w)) by (rewrite !app_length; lia).
      assert (LR : length rest = length u + length w + S (length v2)).
      { rewrite Er, Ew, !app_length. simpl. lia. }
      assert (Lw0 : length w <> 0) by (destruct w; [congruence|discriminate]).
      destruct (IH (y :: v2) ((pre ++ u) ++ w) fuel (acc ++ [w])) as (ws & E & W).
      { simpl. lia. }
      { rewrite Hs', Ew, <- !app_assoc. reflexivity. }
      { simpl. lia. }
      exists (w :: ws). split; [rewrite E, <- app_assoc; reflexivity|].
      rewrite Er, Ew. apply words_skip; [exact F|]. apply words_word; auto.
    + apply index_if_none in Ej.
      exists [x :: v]. split.
      * assert (Esub : substr s (length (pre ++ u)) None = Ret (x :: v)).
        { unfold substr. rewrite (proj2 (Nat.leb_le _ _)) by (rewrite Hs', !app_length; lia).
          rewrite Hs', skipn_pre. reflexivity. }
        rewrite Esub. cbn [obind].
        assert (LR : length rest = length u + S (length v)) by (rewrite Er, app_length; reflexivity).
        destruct fuel; [lia|reflexivity].
      * rewrite Er. apply words_skip; [exact F|].
        rewrite <- (app_nil_r (x :: v)) at 1. apply words_word; [discriminate|exact Ej|exact I|constructor].
  - exists []. rewrite app_nil_r. split; [reflexivity|].
    apply index_if_none in Ei. rewrite <- (app_nil_r rest). apply words_skip; [auto|constructor].
Qed.

Theorem split_any_of_spec s set : exists ws, split_any_of eqb s set = Ret ws /\ words (mem eqb set) s ws.
Proof. unfold split_any_of. apply (split_any_of_loop_spec s set (length s) s []); auto. Qed.

Theorem split_all s sep : sep <> [] -> exists ps, split eqb s sep = Ret ps /\ pieces sep s ps /\
  (forall ps', pieces sep s ps' -> ps' = ps) /\ Forall (fun x => ~ occurs sep x) ps.
Proof.
  intros H. destruct (split_spec s sep H) as (ps & E & P). exists ps. split; [exact E|]. split; [exact P|].
  split; [intros; eapply pieces_unique; eauto|eapply pieces_no_sep; eauto].
Qed.

Lemma mem_ok set x : mem eqb set x = true <-> In x set.
Proof.
  unfold mem. rewrite existsb_exists. split.
  - intros (y & I & E). apply eqb_ok in E. subst. exact I.
  - intros I. exists x. split; [exact I|apply eqb_ok; reflexivity].
Qed.

Lemma words_ext (p q : A -> bool) s ws : (forall x, p x = q x) -> words p s ws -> words q s ws.
Proof.
  intros E. induction 1; [constructor|apply words_sep; auto; rewrite <- E; auto|].
  apply words_word; auto.
  - eapply Forall_impl; [|eassumption]. intros x Hx. simpl in Hx. rewrite <- E. exact Hx.
  - destruct s; simpl in *; [auto|]. rewrite <- E. auto.
Qed.

(** any way of telling the characters in the set from the others *)
Theorem split_any_of_all s set (sepc : A -> bool) : (forall x, sepc x = true <-> In x set) ->
  exists ws, split_any_of eqb s set = Ret ws /\ words sepc s ws.
Proof.
  intros H. destruct (split_any_of_spec s set) as (ws & E & W). exists ws. split; [exact E|].
  eapply words_ext; [|exact W]. intros x. apply eq_true_iff_eq. rewrite mem_ok, H. reflexivity.
Qed.

Theorem replace_any_of_all s set r (sepc : A -> bool) : (forall x, sepc x = true <-> In x set) ->
  replace_any_of eqb s set r = Ret (flat_map (fun c => if sepc c then r else [c]) s).
Proof.
  intros H. rewrite replace_any_of_spec. f_equal. apply flat_map_ext. intros x. unfold subst_any.
  replace (mem eqb set x) with (sepc x); [reflexivity|].
  apply eq_true_iff_eq. rewrite mem_ok, H. reflexivity.
Qed.
End Proofs.

Section Words.
Context {A : Type} (sep : A -> bool).

Lemma words_head_unique (w s w' s' : list A) :
  Forall (fun c => sep c = false) w -> starts_with_sep sep s ->
  Forall (fun c => sep c = false) w' -> starts_with_sep sep s' ->
  w ++ s = w' ++ s' -> w = w' /\ s = s'.
Proof.
  intros F. revert w'. induction F as [|c w Hc F IH]; intros w' S F' S' E.
  - destruct w' as [|c' w']; [auto|]. simpl in E. subst s. simpl in S. inversion F'. congruence.
  - destruct w' as [|c' w'].
    + simpl in E. subst s'. simpl in S'. congruence.
    + injection E as -> E. inversion F'; subst. destruct (IH w' S H2 S' E). subst. auto.
Qed.

Lemma words_unique s ws ws' : words sep s ws -> words sep s ws' -> ws = ws'.
Proof.
  intros H. revert ws'. induction H as [|c s ws Hc H IH|w s ws Hw F S H IH]; intros ws' H'.
  - inversion H' as [| |w s ws2 Hw F S W E1 E2]; [reflexivity|]. destruct w; [congruence|discriminate].
  - inversion H' as [|c' s' ws2 Hc' W|w s' ws2 Hw F S W E1 E2]; subst; [auto|].
    destruct w as [|x w]; [congruence|]. simpl in E1. injection E1 as -> _. inversion F. congruence.
  - inversion H' as [|c' s' ws2 Hc' W E1|w' s' ws2 Hw' F' S' W E1]; subst.
    + destruct w; [congruence|discriminate].
    + destruct w as [|x w]; [congruence|]. simpl in E1. injection E1 as -> _. inversion F. congruence.
    + destruct (words_head_unique w' s' w s F' S' F S E1) as [-> ->]. f_equal. auto.
Qed.

Lemma words_concat s ws : words sep s ws -> concat ws = filter (fun c => negb (sep c)) s.
Proof.
  induction 1 as [|c s ws Hc H IH|w s ws Hw F S H IH]; simpl.
  - reflexivity.
  - rewrite Hc. exact IH.
  - rewrite filter_app, <- IH. f_equal.
    clear - F. induction F as [|c w Hc F IH]; simpl; [reflexivity|]. rewrite Hc. simpl. f_equal. exact IH.
Qed.

Lemma words_pieces s ws : words sep s ws ->
  Forall (fun w => w <> [] /\ Forall (fun c => sep c = false) w) ws.
Proof. induction 1; auto. Qed.

(** * split by space *)
Lemma at_pre (pre : list A) c rest : at_ (pre ++ c :: rest) (length pre) = Ret c.
Proof. unfold at_. rewrite nth_error_app2, Nat.sub_diag by lia. reflexivity. Qed.

Lemma at_pre' (s pre : list A) c rest : s = pre ++ c :: rest -> at_ s (length pre) = Ret c.
Proof. intros ->. apply at_pre. Qed.

Lemma word_end_spec s : forall rest pre fuel, s = pre ++ rest -> length rest < fuel ->
  exists w t, rest = w ++ t /\ Forall (fun c => sep c = false) w /\ starts_with_sep sep t /\
    word_end sep s fuel (length pre) = Ret (length pre + length w).
Proof.
  induction rest as [|c rest IH]; intros pre fuel Hs Hf; (destruct fuel as [|fuel]; [simpl in Hf; lia|]);
    cbn [word_end].
  - rewrite Hs, app_nil_r, Nat.ltb_irrefl. exists [], []. simpl. rewrite Nat.add_0_r. repeat split; auto.
  - rewrite (proj2 (Nat.ltb_lt _ _)) by (rewrite Hs, app_length; simpl; lia).
    rewrite (at_pre' s pre c rest Hs). cbn [obind].
    destruct (sep c) eqn:Hc; cbn [negb].
    + exists [], (c :: rest). simpl. rewrite Nat.add_0_r. repeat split; auto.
    + destruct (IH (pre ++ [c]) fuel) as (w & t & -> & F & St & E).
      { rewrite <- app_assoc. exact Hs. }
      { simpl in Hf. lia. }
      exists (c :: w), t. split; [reflexivity|]. split; [auto|]. split; [exact St|].
      rewrite app_length in E. simpl in E.
      replace (S (length pre)) with (length pre + 1) by lia. rewrite E. f_equal. simpl. lia.
Qed.

Lemma split_space_loop_spec s : forall n rest pre fuel acc,
  length rest <= n -> s = pre ++ rest -> length rest < fuel ->
  exists ws, split_space_loop sep s fuel (length pre) acc = Ret (acc ++ ws) /\ words sep rest ws.
Proof.
  induction n as [|n IH]; intros rest pre fuel acc Hn Hs Hf; (destruct fuel as [|fuel]; [lia|]);
    cbn [split_space_loop].
  - destruct rest; [|simpl in Hn; lia]. rewrite Hs, app_nil_r, Nat.ltb_irrefl.
    exists []. rewrite app_nil_r. split; [reflexivity|constructor].
  - destruct rest as [|c rest].
    { rewrite Hs, app_nil_r, Nat.ltb_irrefl. exists []. rewrite app_nil_r. split; [reflexivity|constructor]. }
    rewrite (proj2 (Nat.ltb_lt _ _)) by (rewrite Hs, app_length; simpl; lia).
    rewrite (at_pre' s pre c rest Hs). cbn [obind]. simpl in Hn, Hf.
    destruct (sep c) eqn:Hc.
    + destruct (IH rest (pre ++ [c]) fuel acc) as (ws & E & W); [lia|rewrite <- app_assoc; exact Hs|lia|].
      exists ws. split; [|apply words_sep; assumption]. rewrite <- E. f_equal. rewrite app_length. simpl. lia.
    + destruct (word_end_spec s rest (pre ++ [c]) (S (length s))) as (w & t & Er & F & St & E).
      { rewrite <- app_assoc. exact Hs. }
      { rewrite Hs, app_length. simpl. lia. }
      rewrite app_length in E. cbn [length] in E. rewrite E. cbn [obind].
      replace (length pre + 1 + length w - length pre) with (length (c :: w)) by (simpl; lia).
      assert (Esub : substr s (length pre) (Some (length (c :: w))) = Ret (c :: w)).
      { rewrite Hs, Er. apply (substr_pre pre (c :: w) t). }
      rewrite Esub. cbn [obind].
      destruct t as [|x t].
      * exists [c :: w]. split.
        { destruct fuel as [|fuel]; [simpl in *; subst rest; rewrite app_length in *; simpl in *; lia|].
          cbn [split_space_loop]. rewrite (proj2 (Nat.ltb_ge _ _)); [reflexivity|].
          rewrite Hs, Er, app_nil_r, app_length. simpl. lia. }
        rewrite Er, app_nil_r, <- (app_nil_r (c :: w)) at 1.
        apply words_word; [discriminate|auto|exact I|constructor].
      * assert (LR : length rest = length w + S (length t)) by (rewrite Er, app_length; reflexivity).
        destruct (IH t (pre ++ (c :: w) ++ [x]) fuel (acc ++ [c :: w])) as (ws & E2 & W).
        { lia. } { rewrite Hs, Er, <- !app_assoc. simpl. rewrite <- ?app_assoc. reflexivity. } { lia. }
        exists ((c :: w) :: ws). split.
        { rewrite <- app_assoc in E2. simpl in E2. rewrite <- E2. f_equal.
          rewrite !app_length. simpl. rewrite app_length. simpl. lia. }
        rewrite Er. change (c :: w ++ x :: t) with ((c :: w) ++ x :: t).
        apply words_word; [discriminate|auto|exact St|]. apply words_sep; [exact St|exact W].
Qed.

Theorem split_space_spec s : exists ws, split_space sep s = Ret ws /\ words sep s ws.
Proof. unfold split_space. apply (split_space_loop_spec s (length s) s []); auto. Qed.

(** * strip *)
Lemma lstrip_loop_spec s : forall rest pre fuel, s = pre ++ rest -> length rest < fuel ->
  Forall (fun c => sep c = true) pre ->
  exists a r, s = a ++ r /\ Forall (fun c => sep c = true) a /\
    (forall c r', r = c :: r' -> sep c = false) /\
    lstrip_loop sep s fuel (length pre) = Ret (length a).
Proof.
  induction rest as [|c rest IH]; intros pre fuel Hs Hf Fp; (destruct fuel as [|fuel]; [simpl in Hf; lia|]);
    cbn [lstrip_loop].
  - exists pre, []. split; [exact Hs|]. split; [exact Fp|]. split; [discriminate|].
    rewrite Hs, app_nil_r, Nat.ltb_irrefl. reflexivity.
  - rewrite (proj2 (Nat.ltb_lt _ _)) by (rewrite Hs, app_length; simpl; lia).
    rewrite (at_pre' s pre c rest Hs). cbn [obind].
    destruct (sep c) eqn:Hc.
    + destruct (IH (pre ++ [c]) fuel) as (a & r & E & Fa & N & L).
      { rewrite <- app_assoc. exact Hs. } { simpl in Hf. lia. } { apply Forall_app; auto. }
      exists a, r. split; [exact E|]. split; [exact Fa|]. split; [exact N|].
      rewrite <- L. f_equal. rewrite app_length. simpl. lia.
    + exists pre, (c :: rest). split; [exact Hs|]. split; [exact Fp|]. split; [|reflexivity].
      intros c' r' E. injection E as -> _. exact Hc.
Qed.

Theorem lstrip_spec s : exists r, lstrip sep s = Ret r /\ lstripped sep s r.
Proof.
  destruct (lstrip_loop_spec s s [] (S (length s))) as (a & r & E & Fa & N & L); auto.
  exists r. split; [|exists a; auto].
  unfold lstrip. simpl length in L. rewrite L. cbn [obind].
  unfold str_erase. rewrite (proj2 (Nat.leb_le _ _)) by lia. simpl. rewrite E, skipn_pre. reflexivity.
Qed.

Lemma rstrip_loop_spec s : forall stop b, stop <= length s -> skipn stop s = b ->
  Forall (fun c => sep c = true) b ->
  exists r b', s = r ++ b' /\ Forall (fun c => sep c = true) b' /\
    (forall c r', r = r' ++ [c] -> sep c = false) /\ rstrip_loop sep s stop = Ret (length r).
Proof.
  induction stop as [|stop IH]; intros b L Eb Fb; cbn [rstrip_loop].
  - exists [], b. simpl in Eb. subst. split; [reflexivity|]. split; [exact Fb|].
    split; [intros c [|] E; discriminate|reflexivity].
  - destruct (nth_error s stop) as [c|] eqn:En.
    2: { apply nth_error_None in En. lia. }
    unfold at_. rewrite En. cbn [obind].
    apply nth_error_split in En. destruct En as (l1 & l2 & E & L1).
    destruct (sep c) eqn:Hc; cbn [negb].
    + apply (IH (c :: l2)); [lia|subst s stop; apply skipn_pre|].
      constructor; [exact Hc|]. subst b. subst s stop.
      replace (l1 ++ c :: l2) with ((l1 ++ [c]) ++ l2) in Fb by (rewrite <- app_assoc; reflexivity).
      replace (S (length l1)) with (length (l1 ++ [c])) in Fb by (rewrite app_length; simpl; lia).
      rewrite skipn_pre in Fb. exact Fb.
    + exists (l1 ++ [c]), l2. split; [rewrite <- app_assoc; exact E|]. split; [|split].
      * subst b. subst s stop.
        replace (l1 ++ c :: l2) with ((l1 ++ [c]) ++ l2) in Fb by (rewrite <- app_assoc; reflexivity).
        replace (S (length l1)) with (length (l1 ++ [c])) in Fb by (rewrite app_length; simpl; lia).
        rewrite skipn_pre in Fb. exact Fb.
      * intros c' r' E'. apply app_inj_tail in E'. destruct E' as [_ <-]. exact Hc.
      * f_equal. rewrite app_length. simpl. lia.
Qed.

Theorem rstrip_spec s : exists r, rstrip sep s = Ret r /\ rstripped sep s r.
Proof.
  destruct (rstrip_loop_spec s (length s) []) as (r & b & E & Fb & N & L);
    [lia|apply skipn_all|constructor|].
  exists r. split; [|exists b; auto].
  unfold rstrip. rewrite L. cbn [obind]. unfold str_erase.
  rewrite (proj2 (Nat.leb_le _ _)) by (rewrite E, app_length; lia).
  rewrite app_nil_r, E, firstn_pre. reflexivity.
Qed.

Lemma lr_stripped s m r : rstripped sep s m -> lstripped sep m r -> stripped sep s r.
Proof.
  intros (b & -> & Fb & Nm) (a & -> & Fa & Nr). exists a, b.
  rewrite <- app_assoc. split; [reflexivity|]. split; [apply Forall_app; auto|]. split; [exact Nr|].
  intros c r' ->. apply (Nm c (a ++ r')). apply app_assoc.
Qed.

Lemma rl_stripped s m r : lstripped sep s m -> rstripped sep m r -> stripped sep s r.
Proof.
  intros (a & -> & Fa & Nm) (b & -> & Fb & Nr). exists a, b.
  split; [reflexivity|]. split; [apply Forall_app; auto|]. split; [|exact Nr].
  intros c r' ->. apply (Nm c (r' ++ b)). reflexivity.
Qed.

Lemma lstripped_unique s r r' : lstripped sep s r -> lstripped sep s r' -> r = r'.
Proof.
  intros (a & E & F & N) (a' & E' & F' & N'). rewrite E in E'. clear E s.
  revert a' E' F'. induction F as [|c a Hc F IH]; intros a' E' F'.
  - destruct F' as [|c' a' Hc' F']; [exact E'|]. simpl in E'. subst r.
    rewrite (N c' (a' ++ r') eq_refl) in Hc'. discriminate.
  - destruct F' as [|c' a' Hc' F'].
    + simpl in E'. rewrite (N' c (a ++ r)) in Hc; [discriminate|symmetry; exact E'].
    + injection E' as -> E'. eapply IH; eauto.
Qed.

Lemma rstripped_rev s r : rstripped sep s r <-> lstripped sep (rev s) (rev r).
Proof.
  split.
  - intros (b & -> & F & N). exists (rev b). rewrite rev_app_distr. split; [reflexivity|].
    split; [apply Forall_rev; exact F|]. intros c r' E.
    apply (N c (rev r')). apply (f_equal (@rev A)) in E. rewrite rev_involutive in E. exact E.
  - intros (a & E & F & N). exists (rev a). split; [|split].
    + apply (f_equal (@rev A)) in E. rewrite rev_app_distr, !rev_involutive in E. exact E.
    + apply Forall_rev. exact F.
    + intros c r' ->. rewrite rev_app_distr in N. eapply N. reflexivity.
Qed.

Lemma rstripped_unique s r r' : rstripped sep s r -> rstripped sep s r' -> r = r'.
Proof.
  rewrite !rstripped_rev. intros H H'. rewrite <- (rev_involutive r), <- (rev_involutive r').
  f_equal. eapply lstripped_unique; eauto.
Qed.

(** the stripped string is unique: it determines and is determined by stripping right, then left *)
Lemma stripped_unique s r r' : stripped sep s r -> stripped sep s r' -> r = r'.
Proof.
  assert (K : forall r, stripped sep s r -> exists m, rstripped sep s m /\ lstripped sep m r).
  { clear. intros r (a & b & -> & F & N1 & N2). apply Forall_app in F. destruct F as [Fa Fb].
    destruct r as [|c r].
    - exists []. split.
      + exists (a ++ b). simpl. split; [reflexivity|]. split; [apply Forall_app; auto|].
        intros c [|] E; discriminate.
      + exists []. split; [reflexivity|]. split; [constructor|]. discriminate.
    - exists (a ++ c :: r). split.
      + exists b. split; [rewrite <- app_assoc; reflexivity|]. split; [exact Fb|].
        intros x r' E.
        destruct (exists_last (l := c :: r)) as (l' & y & El); [discriminate|].
        rewrite El in *. rewrite app_assoc in E. apply app_inj_tail in E. destruct E as [_ <-].
        eapply N2. reflexivity.
      + exists a. auto. }
  intros H H'. destruct (K r H) as (m & Hm & Hr). destruct (K r' H') as (m' & Hm' & Hr').
  rewrite (rstripped_unique _ _ _ Hm Hm') in Hr. eapply lstripped_unique; eauto.
Qed.

Theorem strip_spec s : exists r, strip sep s = Ret r /\ stripped sep s r.
Proof.
  destruct (rstrip_spec s) as (m & E & H). destruct (lstrip_spec m) as (r & E2 & H2).
  exists r. split; [unfold strip; rewrite E; exact E2|]. eapply lr_stripped; eauto.
Qed.

Theorem strip_facts s : exists r, strip sep s = Ret r /\
  strip sep r = Ret r /\
  (exists m, lstrip sep s = Ret m /\ rstrip sep m = Ret r).
Proof.
  destruct (strip_spec s) as (r & E & H). exists r. split; [exact E|]. split.
  - destruct (strip_spec r) as (r2 & E2 & H2). rewrite E2. f_equal.
    eapply stripped_unique; [exact H2|]. exists [], []. rewrite app_nil_r.
    destruct H as (a & b & _ & _ & N1 & N2). split; [reflexivity|]. split; [constructor|auto].
  - destruct (lstrip_spec s) as (m & E1 & H1). destruct (rstrip_spec m) as (r2 & E2 & H2).
    exists m. split; [exact E1|]. rewrite E2. f_equal.
    eapply stripped_unique; [|exact H]. eapply rl_stripped; eauto.
Qed.

Theorem lstrip_facts s : exists r, lstrip sep s = Ret r /\ lstripped sep s r /\
  (forall r', lstripped sep s r' -> r' = r).
Proof.
  destruct (lstrip_spec s) as (r & E & H). exists r. split; [exact E|]. split; [exact H|].
  intros. eapply lstripped_unique; eauto.
Qed.

Theorem rstrip_facts s : exists r, rstrip sep s = Ret r /\ rstripped sep s r /\
  (forall r', rstripped sep s r' -> r' = r).
Proof.
  destruct (rstrip_spec s) as (r & E & H). exists r. split; [exact E|]. split; [exact H|].
  intros. eapply rstripped_unique; eauto.
Qed.

Theorem strip_all s : exists r, strip sep s = Ret r /\ stripped sep s r /\
  (forall r', stripped sep s r' -> r' = r) /\ strip sep r = Ret r /\
  (exists m, lstrip sep s = Ret m /\ rstrip sep m = Ret r) /\
  (exists m, rstrip sep s = Ret m /\ lstrip sep m = Ret r).
Proof.
  destruct (strip_spec s) as (r & E & H). exists r. split; [exact E|]. split; [exact H|].
  destruct (strip_facts s) as (r2 & E2 & I & L). assert (r2 = r) by congruence. subst r2.
  split; [intros; eapply stripped_unique; eauto|]. split; [exact I|]. split; [exact L|].
  unfold strip in E. destruct (rstrip sep s) as [m| | |] eqn:Em; try discriminate. exists m. auto.
Qed.

Theorem split_space_all s : exists ws, split_space sep s = Ret ws /\ words sep s ws /\
  (forall ws', words sep s ws' -> ws' = ws) /\
  Forall (fun w => w <> [] /\ Forall (fun c => sep c = false) w) ws /\
  concat ws = filter (fun c => negb (sep c)) s.
Proof.
  destruct (split_space_spec s) as (ws & E & W). exists ws. split; [exact E|]. split; [exact W|].
  split; [intros; eapply words_unique; eauto|]. split; [eapply words_pieces; eauto|apply words_concat; exact W].
Qed.

(** * is_lower / is_upper *)
Lemma none_of_loop_spec s : forall rest pre fuel, s = pre ++ rest -> length rest < fuel ->
  none_of_loop sep s fuel (length pre) = Ret (negb (existsb sep rest)).
Proof.
  induction rest as [|c rest IH]; intros pre fuel Hs Hf; (destruct fuel as [|fuel]; [simpl in Hf; lia|]);
    cbn [none_of_loop].
  - rewrite Hs, app_nil_r, Nat.ltb_irrefl. reflexivity.
  - rewrite (proj2 (Nat.ltb_lt _ _)) by (rewrite Hs, app_length; simpl; lia).
    rewrite (at_pre' s pre c rest Hs). cbn [obind]. simpl.
    destruct (sep c); [reflexivity|].
    replace (S (length pre)) with (length (pre ++ [c])) by (rewrite app_length; simpl; lia).
    apply IH; [rewrite <- app_assoc; exact Hs|simpl in Hf; lia].
Qed.
End Words.

Lemma replace_self_differs : exists s f : list nat, replace_self Nat.eqb s f <> replace Nat.eqb s f s.
Proof. exists [1;2;1], [1]. discriminate. Qed.
