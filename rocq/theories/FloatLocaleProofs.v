(** Proofs about texts of floating-point numbers in a locale. *)
From Coq Require Import Ascii String List Bool Arith ZArith QArith Qabs Floats.SpecFloat Lia.
From Verif Require Import Base DigitsSpec DigitsProofs LogTextModel ConvSpec ConvModel ConvProofs GroupModel GroupSpec GroupProofs FloatModel FloatSpec FloatProofs
  FloatTextModel FloatTextSpec FloatTextRound FloatTextNumber FloatTextProofs FloatTextUse FloatLocaleModel FloatLocaleSpec.
Import ListNotations.
Local Open Scope list_scope.
Local Open Scope Z_scope.
Notation length := List.length.

Lemma is_digit_true c : decimal_digit c -> is_digit c = true.
Proof. intros H. apply digit_val_digit in H. destruct H as (d & E). unfold is_digit. rewrite E. reflexivity. Qed.
Lemma is_digit_false c : ~ decimal_digit c -> is_digit c = false.
Proof. intros H. unfold is_digit. destruct (digit_val c) eqn:E; [|reflexivity]. exfalso. apply H, digit_val_digit. eauto. Qed.
Lemma use_grouping_size p : use_grouping p = true <-> size (grouping p) 0 <> None.
Proof.
  unfold use_grouping. destruct (grouping p) as [|n g]; [split; [discriminate|intros H; exfalso; apply H; reflexivity]|]. rewrite size_first. destruct (limits n); split; congruence.
Qed.
Lemma eqb_no (a b : ascii) : a <> b -> Ascii.eqb a b = false.
Proof. apply Ascii.eqb_neq. Qed.
Lemma is_e_no c : c <> "e"%char -> c <> "E"%char -> is_e c = false.
Proof. intros A B. unfold is_e. rewrite (eqb_no _ _ A), (eqb_no _ _ B). reflexivity. Qed.
Lemma is_e_cases c : is_e c = true -> (c = "e" \/ c = "E")%char.
Proof. unfold is_e. destruct (Ascii.eqb_spec c "e"); [auto|]. destruct (Ascii.eqb_spec c "E"); [auto|discriminate]. Qed.

(** * The shape of the texts of printf *)
Lemma point_shape i f : i <> [] -> Forall decimal_digit (i ++ f) -> exists f0, with_point i f = i ++ fraction f0 /\ Forall decimal_digit (i ++ f0).
Proof.
  intros I D. destruct (with_point_form i f) as (f0 & k & E & W & _). exists f0. split; [exact W|]. rewrite E, app_assoc in D. apply Forall_app in D. apply D.
Qed.
Definition shape (i f ex : list ascii) : Prop := i <> [] /\ Forall decimal_digit (i ++ f) /\ (exists x, exponent_text x ex) /\ (ex <> [] -> length i = 1%nat).
Lemma fmt_shape d k : 100000 <= d < 1000000 -> exists i f ex, fmt_g d k = i ++ fraction f ++ ex /\ shape i f ex.
Proof.
  intros H. destruct (dec_six d H) as (L & (N & R & Z0) & D). unfold fmt_g. set (ds := dec d) in *.
  destruct ((k <? -4) || (6 <=? k)).
  - destruct (point_shape (firstn 1 ds) (skipn 1 ds)) as (f0 & W & D0); [apply firstn_nonempty; [lia|exact N]|rewrite firstn_skipn; exact D|].
    exists (firstn 1 ds), f0, ("e"%char :: (if k <? 0 then "-"%char else "+"%char) :: two_digits (Z.abs k)). rewrite W, <- app_assoc. split; [reflexivity|].
    split; [apply firstn_nonempty; [lia|exact N]|]. split; [exact D0|]. split; [|intros _; rewrite firstn_length, L; reflexivity].
    destruct (two_digits_text (Z.abs k) ltac:(lia)) as (T1 & T2 & T3 & _). exists k. right. exists "e"%char, [if k <? 0 then "-"%char else "+"%char], (two_digits (Z.abs k)), (Z.abs k).
    split; [reflexivity|]. split; [left; reflexivity|]. repeat split; try assumption. destruct (Z.ltb_spec k 0); [right|left]; (split; [auto|lia]).
  - assert (X : exists x, exponent_text x []) by (exists 0; left; split; reflexivity). destruct (Z.ltb_spec k 0) as [C|C].
    + destruct (point_shape ["0"%char] (repeat "0"%char (Z.to_nat (- k - 1)) ++ ds)) as (f0 & W & D0); [discriminate|constructor; [left; reflexivity|]; apply Forall_app; split; [apply zeros_digits|exact D]|].
      exists ["0"%char], f0, []. rewrite W, app_nil_r. split; [reflexivity|]. repeat split; auto. discriminate.
    + destruct (point_shape (firstn (Z.to_nat (k + 1)) ds) (skipn (Z.to_nat (k + 1)) ds)) as (f0 & W & D0); [apply firstn_nonempty; [lia|exact N]|rewrite firstn_skipn; exact D|].
      exists (firstn (Z.to_nat (k + 1)) ds), f0, []. rewrite W, app_nil_r. split; [reflexivity|]. repeat split; auto; [apply firstn_nonempty; [lia|exact N]|congruence].
Qed.

(** * Writing *)
Lemma split_point_at t r : ~ In "."%char t -> split_point (t ++ "."%char :: r) = (t, "."%char :: r).
Proof.
  induction t as [|c t IH]; intros H; [reflexivity|]. cbn [app split_point]. rewrite (eqb_no c ".") by (intros ->; apply H; left; reflexivity).
  rewrite IH by (intros C; apply H; right; exact C). reflexivity.
Qed.
Lemma split_point_none t : ~ In "."%char t -> split_point t = (t, []).
Proof.
  induction t as [|c t IH]; intros H; [reflexivity|]. cbn [split_point]. rewrite (eqb_no c ".") by (intros ->; apply H; left; reflexivity).
  rewrite IH by (intros C; apply H; right; exact C). reflexivity.
Qed.
Lemma digits_no_point ds : Forall decimal_digit ds -> ~ In "."%char ds.
Proof. intros D C. rewrite Forall_forall in D. apply D in C. destruct (digit_no_sign _ C) as (_ & _ & A). apply A. reflexivity. Qed.
Lemma exponent_no_point x ex : exponent_text x ex -> ~ In "."%char ex.
Proof.
  intros [(-> & _)|(c & sg & ds & n & -> & C & _ & D & _ & S)]; [auto|]. intros [E|I]; [destruct C; subst; discriminate|]. apply in_app_iff in I. destruct I as [I|I].
  - destruct S as [([->| ->] & _)|(-> & _)]; cbn in I; intuition discriminate.
  - exact (digits_no_point ds D I).
Qed.
Lemma put_digits_grouped p ds : grouped (grouping p) (sep p) ds (put_digits p ds).
Proof. unfold put_digits. destruct (put_groups_proof (sep p) (length ds) (grouping p) ds (le_n _)) as (groups & _ & C & F & E & N). exists groups. repeat split; assumption. Qed.
Lemma grouped_one g sp d : grouped g sp [d] [d].
Proof.
  exists [[d]]. split; [reflexivity|]. split; [|split; [reflexivity|intros _; constructor; [discriminate|constructor]]]. cbn [rev app full length]. intros n E.
  unfold size in E. destruct (Z.leb_spec (nth 0 g (last g 0)) 0) as [C|C]; [discriminate|]. cbn [orb] in E. destruct (127 <=? nth 0 g (last g 0)); [discriminate|]. injection E as <-. lia.
Qed.
Lemma after_sign p sg i r t : t = sg ++ i -> sg = [] \/ sg = ["-"%char] -> i <> [] -> Forall decimal_digit i ->
  match t with "-"%char :: ds => "-"%char :: put_digits p ds ++ r | ds => put_digits p ds ++ r end = sg ++ put_digits p i ++ r.
Proof.
  intros -> [->| ->] N D; [|reflexivity]. cbn [app]. destruct D as [|c i Dc D]; [congruence|]. destruct (digit_no_sign c Dc) as (A & _).
  destruct c as [[] [] [] [] [] [] [] []]; try reflexivity; exfalso; apply A; reflexivity.
Qed.
Lemma insert_shape (p : floatpunct) sg i f ex : sg = [] \/ sg = ["-"%char] -> shape i f ex ->
  exists i', grouped (grouping p) (sep p) i i' /\ insert_float p (sg ++ i ++ fraction f ++ ex) = sg ++ i' ++ match f with [] => [] | _ => point p :: f end ++ ex /\ (ex = [] -> i' = put_digits p i).
Proof.
  intros S (N & D & (x & X) & L). apply Forall_app in D. destruct D as [Di Df].
  assert (P : ~ In "."%char (sg ++ i)). { intros C. apply in_app_iff in C. destruct C as [C|C]; [destruct S; subst; cbn in C; intuition discriminate|exact (digits_no_point i Di C)]. }
  unfold insert_float. destruct f as [|c f]; cbn [fraction app].
  - assert (P' : ~ In "."%char (sg ++ i ++ ex)). { rewrite app_assoc. intros C. apply in_app_iff in C. destruct C as [C|C]; [exact (P C)|exact (exponent_no_point x ex X C)]. }
    rewrite (split_point_none _ P'). cbn [length Nat.eqb negb orb]. destruct X as [(-> & _)|(c & es & ds & n & Ex & C & Nd & _)].
    + rewrite (app_nil_r i) in *. exists (put_digits p i). split; [apply put_digits_grouped|]. split; [|reflexivity].
      assert (T : ((length (sg ++ i) <? 3)%nat || (has_digit (sg ++ i) 1 && has_digit (sg ++ i) 2)) = true).
      { destruct (Nat.ltb_spec (length (sg ++ i)) 3) as [H|H]; [reflexivity|]. unfold has_digit. rewrite app_length in H. destruct S as [->| ->]; cbn [app length] in *.
        - destruct i as [|a [|b [|d i]]]; cbn [length] in H; try lia. inversion Di as [|? ? _ D1]; subst. inversion D1 as [|? ? Db D2]; subst. inversion D2 as [|? ? Dd _]; subst. cbn. rewrite !is_digit_true by assumption. reflexivity.
        - destruct i as [|a [|b i]]; cbn [length] in H; try lia. inversion Di as [|? ? Da D1]; subst. inversion D1 as [|? ? Db _]; subst. cbn. rewrite !is_digit_true by assumption. reflexivity. }
      rewrite T. etransitivity; [exact (after_sign p sg i [] _ eq_refl S N Di)|reflexivity].
    + assert (L1 : length i = 1%nat) by (apply L; rewrite Ex; discriminate). destruct i as [|d [|? ?]]; try discriminate L1. exists [d]. split; [apply grouped_one|]. split; [|rewrite Ex; discriminate].
      assert (Dc : is_digit c = false) by (apply is_digit_false, e_no_digit, C).
      assert (T : ((length (sg ++ [d] ++ ex) <? 3)%nat || (has_digit (sg ++ [d] ++ ex) 1 && has_digit (sg ++ [d] ++ ex) 2)) = false).
      { rewrite Ex. unfold has_digit. destruct ds as [|d' ds]; [congruence|]. destruct S as [->| ->]; cbn [app length nth_error]; rewrite Dc, ?andb_false_r; apply orb_false_iff; (split; [apply Nat.ltb_ge; rewrite app_length; cbn [length]; lia|reflexivity]). }
      cbn [app] in T |- *. rewrite T, app_nil_r. reflexivity.
  - assert (Ea : sg ++ i ++ "."%char :: c :: f ++ ex = (sg ++ i) ++ "."%char :: c :: f ++ ex) by (rewrite <- app_assoc; reflexivity). rewrite Ea, (split_point_at _ _ P).
    cbn [length Nat.eqb negb orb]. exists (put_digits p i). split; [apply put_digits_grouped|]. split; [|reflexivity]. exact (after_sign p sg i (point p :: c :: f ++ ex) _ eq_refl S N Di).
Qed.

Section Format.
Variables prec emax : Z.
Hypothesis F : a_format prec emax.
(** the text of a finite number *)
Lemma classic_shape x : number prec emax x -> is_finite x = true -> exists sg i f ex, FloatTextModel.str_float prec emax x = sg ++ i ++ fraction f ++ ex /\ (sg = [] \/ sg = ["-"%char]) /\ shape i f ex.
Proof.
  intros N Fi. destruct x as [s|s| |s m e]; try discriminate Fi.
  - exists (if s then ["-"%char] else []), ["0"%char], [], []. split; [destruct s; reflexivity|]. split; [destruct s; auto|]. split; [discriminate|]. split; [constructor; [left; reflexivity|constructor]|]. split; [exists 0; left; split; reflexivity|congruence].
  - pose proof (one_positive _ _ F) as O. pose proof (magnitude _ _ F s m e N) as [P _]. cbn [FloatTextModel.str_float]. fold (one prec emax).
    pose proof (six_digits_proof _ _ P O) as S. unfold FloatSpec.one in S |- *. destruct (six_digits (Z.pos m * 2 ^ (e - emin prec emax)) (2 ^ - emin prec emax)) as [d k]. destruct S as [R _].
    destruct (fmt_shape d k R) as (i & f & ex & E & Sh). exists (if s then ["-"%char] else []), i, f, ex. split; [rewrite E; destruct s; reflexivity|]. split; [destruct s; auto|exact Sh].
Qed.
Lemma localised_proof (p : floatpunct) x : number prec emax x -> is_finite x = true -> localised (grouping p) (sep p) (point p) (FloatTextModel.str_float prec emax x) (str_float prec emax p x).
Proof.
  intros N Fi. destruct (classic_shape x N Fi) as (sg & i & f & ex & E & S & Sh). unfold str_float. rewrite E. destruct (insert_shape p sg i f ex S Sh) as (i' & G & I & _).
  exists sg, i, f, ex, i'. destruct Sh as (A & B & C & _). repeat split; auto.
Qed.
(** integers of up to six digits *)
Lemma local_integer p x n : number prec emax x -> is_finite x = true -> 2 * 10 ^ 6 < 2 ^ (prec - 1) -> units prec emax x = n * one prec emax -> n <> 0 -> Z.abs n < 10 ^ 6 ->
  str_float prec emax p x = GroupModel.str_int p n.
Proof.
  intros N Fi P6 U Nz Sm. destruct (str_integer prec emax F P6 x n N Fi U Nz Sm) as [E _]. unfold str_float. rewrite E. unfold GroupModel.str_int.
  destruct (dec_parts n) as (sg & ds & Ed & S & Nd & D & _ & Pi). rewrite Pi, Ed.
  destruct (insert_shape p sg ds [] []) as (i' & _ & I & P); [destruct S as [(-> & _)|(-> & _)]; auto| |].
  - split; [exact Nd|]. split; [rewrite app_nil_r; exact D|]. split; [exists 0; left; split; reflexivity|congruence].
  - cbn [fraction app] in I. rewrite !app_nil_r in I. rewrite I, (P eq_refl). reflexivity.
Qed.
End Format.
Lemma not_finite_shown prec emax p x : is_finite x = false -> str_float prec emax p x = FloatTextModel.str_float prec emax x.
Proof. destruct x as [s|[]| |s m e]; intros H; try discriminate H; reflexivity. Qed.

(** * Reading *)
Definition prefix (ds : text) (t : option text) : option text := match t with Some t => Some (ds ++ t) | None => None end.
Lemma add_prefix c ds t : add c (prefix ds t) = prefix (c :: ds) t.
Proof. destruct t; reflexivity. Qed.
Lemma prefix_nil t : prefix [] t = t.
Proof. destruct t; reflexivity. Qed.
Lemma prefix_prefix a b t : prefix a (prefix b t) = prefix (a ++ b) t.
Proof. destruct t; cbn; [rewrite app_assoc|]; reflexivity. Qed.
Lemma prefix_add a c t : prefix a (add c t) = prefix (a ++ [c]) t.
Proof. destruct t; cbn; [rewrite <- app_assoc|]; reflexivity. Qed.
Definition some_of (ds : text) : bool := match ds with [] => false | _ => true end.
(** neither the point nor a separator is a digit *)
Definition digit_safe (p : floatpunct) : Prop := forall c, decimal_digit c -> is_sep p c = false /\ Ascii.eqb c (point p) = false.
Lemma collect_digits p ds rest : digit_safe p -> Forall decimal_digit ds -> forall pos dec sci man,
  collect p (ds ++ rest) pos dec sci man = prefix ds (collect p rest (pos || some_of ds) dec sci (man || some_of ds)).
Proof.
  intros Sf D. induction D as [|c ds Dc D IH]; intros pos dec sci man.
  - cbn [app some_of]. rewrite !orb_false_r, prefix_nil. reflexivity.
  - destruct (Sf c Dc) as [A B]. cbn [app collect some_of]. rewrite A, B, (is_digit_true c Dc), IH, add_prefix, !orb_true_r. reflexivity.
Qed.
Lemma proper_safe (p : floatpunct) : proper (grouping p) (sep p) (point p) -> digit_safe p.
Proof.
  intros (Pt & _ & Sp) c Dc. split.
  - unfold is_sep. destruct (use_grouping p) eqn:U; [|reflexivity]. apply use_grouping_size in U. destruct (Sp U) as [Fs _]. apply eqb_no. intros ->. exact (proj1 Fs Dc).
  - apply eqb_no. intros ->. exact (proj1 Pt Dc).
Qed.
(** groups with separators *)
Lemma collect_groups p groups rest man : use_grouping p = true -> digit_safe p -> groups <> [] -> Forall (Forall decimal_digit) groups -> Forall (fun x => x <> []) groups ->
  collect p (separated (sep p) groups ++ rest) false false false man = prefix (concat groups) (collect p rest true false false true).
Proof.
  intros U Sf. revert man. induction groups as [|g groups IH]; intros man Ne D N; [congruence|]. inversion D as [|? ? Dg D']; subst. inversion N as [|? ? Ng N']; subst.
  assert (So : some_of g = true) by (destruct g; [congruence|reflexivity]). destruct groups as [|g' groups].
  - cbn [separated concat]. rewrite app_nil_r, (collect_digits p g rest Sf Dg), So, !orb_true_r. reflexivity.
  - change (separated (sep p) (g :: g' :: groups)) with (g ++ sep p :: separated (sep p) (g' :: groups)). rewrite <- app_assoc. cbn [app].
    rewrite (collect_digits p g _ Sf Dg), So, !orb_true_r. cbn [collect]. unfold is_sep. rewrite U, Ascii.eqb_refl. cbn [andb orb].
    rewrite IH; [|discriminate|exact D'|exact N']. rewrite prefix_prefix. reflexivity.
Qed.
Lemma separated_one sp l : (List.length l <= 1)%nat -> separated sp l = concat l.
Proof. destruct l as [|a [|b l]]; cbn; intros H; [reflexivity|rewrite app_nil_r; reflexivity|lia]. Qed.
Lemma collect_integer (p : floatpunct) groups rest : digit_safe p -> Forall decimal_digit (concat groups) -> Forall (fun x => x <> []) groups -> (size (grouping p) 0 = None -> (List.length groups <= 1)%nat) ->
  collect p (separated (sep p) groups ++ rest) false false false false = prefix (concat groups) (collect p rest (some_of (concat groups)) false false (some_of (concat groups))).
Proof.
  intros Sf D N U. destruct groups as [|g groups]; [cbn [separated concat app some_of]; rewrite prefix_nil; reflexivity|]. destruct (use_grouping p) eqn:E.
  - rewrite (collect_groups p (g :: groups) rest false E Sf); [|discriminate|apply (concat_digits _ _ eq_refl D)|exact N]. inversion N; subst. destruct g; [congruence|]. reflexivity.
  - rewrite separated_one; [apply (collect_digits p _ rest Sf D)|]. apply U. destruct (size (grouping p) 0) eqn:S; [|reflexivity]. assert (X : use_grouping p = true) by (apply use_grouping_size; congruence). congruence.
Qed.
Definition stops (p : floatpunct) (rest : text) (dec sci : bool) : Prop :=
  match rest with c :: _ => ~ decimal_digit c /\ (c = "e"%char \/ c = "E"%char -> sci = true) /\ (c = point p \/ size (grouping p) 0 <> None /\ c = sep p -> dec || sci = true) | [] => True end.
Lemma collect_end (p : floatpunct) rest pos dec sci man : stops p rest dec sci -> collect p rest pos dec sci man = Some [].
Proof.
  destruct rest as [|c rest]; [reflexivity|]. intros (D & E & S). cbn [collect]. destruct (is_sep p c) eqn:Is.
  - unfold is_sep in Is. apply andb_true_iff in Is. destruct Is as [U Is]. apply Ascii.eqb_eq in Is. rewrite (S (or_intror (conj (proj1 (use_grouping_size p) U) Is))). reflexivity.
  - destruct (Ascii.eqb_spec c (point p)) as [Ep|_]; [rewrite (S (or_introl Ep)); reflexivity|]. rewrite (is_digit_false c D). destruct (is_e c) eqn:Ec; [|reflexivity]. rewrite (E (is_e_cases c Ec)). reflexivity.
Qed.
Lemma not_sep (p : floatpunct) c : proper (grouping p) (sep p) (point p) -> (free c -> False) -> is_sep p c = false /\ Ascii.eqb c (point p) = false.
Proof.
  intros (Pt & _ & Sp) N. split.
  - unfold is_sep. destruct (use_grouping p) eqn:U; [|reflexivity]. apply use_grouping_size in U. apply eqb_no. intros ->. apply N, Sp, U.
  - apply eqb_no. intros ->. exact (N Pt).
Qed.
Lemma collect_exponent (p : floatpunct) x ex rest pos dec : proper (grouping p) (sep p) (point p) -> exponent_text x ex -> stops p rest dec (some_of ex) ->
  exists ex', exponent_text x ex' /\ collect p (ex ++ rest) pos dec false true = Some ex'.
Proof.
  intros Pr [(-> & ->)|(c & sg & ds & n & -> & C & N & D & R & S)] Er.
  - exists []. split; [left; split; reflexivity|]. apply collect_end, Er.
  - exists ("e"%char :: sg ++ ds). split.
    + right. exists "e"%char, sg, ds, n. repeat split; auto.
    + destruct (not_sep p c Pr) as [A B]; [intros (_ & _ & _ & X & Y); destruct C; contradiction|]. cbn [app collect]. rewrite A, B, (is_digit_false c (e_no_digit c C)).
      replace (is_e c) with true by (destruct C; subst; reflexivity). cbn [negb andb]. pose proof (proper_safe p Pr) as Sf.
      assert (E : forall pos, collect p (ds ++ rest) pos dec true true = Some ds) by (intros pos'; rewrite (collect_digits p ds rest Sf D), collect_end by exact Er; cbn [prefix]; rewrite app_nil_r; reflexivity).
      rewrite <- app_assoc. destruct S as [([->| ->] & _)|(-> & _)]; cbn [app].
      * destruct D as [|d ds Dd D]; [congruence|]. destruct (digit_no_sign d Dd) as (H1 & H2 & _). cbn [app] in *. rewrite (eqb_no _ _ H1), (eqb_no _ _ H2). cbn [orb]. rewrite E. reflexivity.
      * change (Ascii.eqb "+" "+") with true. cbn [orb]. rewrite E. reflexivity.
      * change (Ascii.eqb "-" "-") with true. rewrite orb_true_r, E. reflexivity.
Qed.
(** which characters are in the text of a number *)
Lemma separated_char sp groups c : In c (separated sp groups) -> In c (concat groups) \/ c = sp /\ (1 < List.length groups)%nat.
Proof.
  induction groups as [|g [|g' groups] IH]; [auto| |].
  - cbn [separated concat]. rewrite app_nil_r. auto.
  - change (separated sp (g :: g' :: groups)) with (g ++ sp :: separated sp (g' :: groups)). change (concat (g :: g' :: groups)) with (g ++ concat (g' :: groups)). rewrite !in_app_iff. cbn [In].
    intros [H|[H|H]]; [auto|right; split; [auto|cbn; lia]|]. destruct (IH H) as [H'|(H' & L)]; [auto|]. right. split; [exact H'|]. cbn [length] in *. lia.
Qed.
Lemma text_char (p : floatpunct) groups pt f ex c : proper (grouping p) (sep p) (point p) -> Forall decimal_digit (concat groups) -> Forall decimal_digit f -> (size (grouping p) 0 = None -> (List.length groups <= 1)%nat) ->
  (pt = [] /\ f = [] \/ pt = [point p]) -> ~ decimal_digit c -> (size (grouping p) 0 <> None -> c <> sep p) -> In c (separated (sep p) groups ++ pt ++ f ++ ex) -> c = point p /\ some_of pt = true \/ some_of ex = true.
Proof.
  intros Pr Di Df U P D Sp H. rewrite !in_app_iff in H. rewrite Forall_forall in Di, Df. destruct H as [H|[H|[H|H]]].
  - exfalso. destruct (separated_char _ _ _ H) as [H'|(H' & L)]; [exact (D (Di c H'))|]. apply Sp in H'; [exact H'|]. intros Sz. specialize (U Sz). lia.
  - destruct P as [(-> & _)| ->]; [contradiction|]. destruct H as [<-|[]]. left. auto.
  - exfalso. exact (D (Df c H)).
  - right. destruct ex; [contradiction|reflexivity].
Qed.
Lemma extract_text (p : floatpunct) s sg m e t rest : proper (grouping p) (sep p) (point p) -> sign_text s sg -> local_number (grouping p) (sep p) (point p) m e t -> ends_local (grouping p) (sep p) (point p) t rest ->
  exists t', number_text m e t' /\ extract p (sg ++ t ++ rest) = Some (sg ++ t').
Proof.
  intros Pr S (groups & pt & f & ex & x & -> & N & D & R & P & X & -> & Ng & U) Er. pose proof (proper_safe p Pr) as Sf. apply Forall_app in D as D'. destruct D' as [Di Df].
  assert (M : forall man, (concat groups = [] -> f <> []) -> man || some_of (concat groups) || some_of f = true). { intros man H. destruct (concat groups); [|rewrite orb_true_r; reflexivity]. destruct f; [exfalso; apply H; reflexivity|rewrite orb_true_r; reflexivity]. }
  assert (Nf : concat groups = [] -> f <> []) by (intros E ->; rewrite E in N; apply N; reflexivity).
  assert (St : stops p rest (some_of pt) (some_of ex)).
  { destruct rest as [|c rest]; [exact I|]. destruct Er as (Ed & Ee & Ep). split; [exact Ed|].
    assert (Fe : forall c, c = "e"%char \/ c = "E"%char -> In c (separated (sep p) groups ++ pt ++ f ++ ex) -> some_of ex = true).
    { intros d Hd H. apply (text_char p groups pt f ex d Pr Di Df U P) in H; [destruct H as [(-> & _)|H]; [exfalso; destruct Pr as ((_ & _ & _ & A & B) & _); destruct Hd; congruence|exact H]|apply e_no_digit, Hd|].
      intros Ug ->. destruct Pr as (_ & _ & Q). destruct (Q Ug) as ((_ & _ & _ & A & B) & _). destruct Hd; contradiction. }
    split.
    - intros H. destruct (Ee H) as [H'|H']; [apply (Fe "e"%char)|apply (Fe "E"%char)]; auto.
    - intros H. apply orb_true_iff. destruct (Ep H) as [H'|[H'|H']]; [|right; apply (Fe "e"%char); auto|right; apply (Fe "E"%char); auto].
      apply (text_char p groups pt f ex (point p) Pr Di Df U P) in H'; [tauto|exact (proj1 (proj1 Pr))|]. intros Ug E. destruct Pr as (_ & _ & Q). destruct (Q Ug) as (_ & Q'). apply Q'. symmetry. exact E. }
  clear Er. assert (C : exists t', number_text m (x - Z.of_nat (length f)) t' /\ collect p ((separated (sep p) groups ++ pt ++ f ++ ex) ++ rest) false false false false = Some t').
  { rewrite <- !app_assoc. rewrite (collect_integer p groups _ Sf Di Ng U). destruct P as [(-> & ->)| ->].
    - destruct (collect_exponent p x ex rest (some_of (concat groups)) false Pr X St) as (ex' & X' & E). cbn [app]. specialize (M false Nf). cbn [orb some_of] in M. rewrite orb_false_r in M. rewrite M in *. rewrite E. cbn [prefix].
      exists (concat groups ++ ex'). split; [|reflexivity]. exists (concat groups), [], [], ex', x. cbn [app]. repeat split; auto.
    - destruct (collect_exponent p x ex rest (some_of (concat groups) || some_of f) true Pr X St) as (ex' & X' & E). cbn [app]. cbn [collect].
      assert (is_sep p (point p) = false) as ->. { unfold is_sep. destruct (use_grouping p) eqn:Ug; [|reflexivity]. apply use_grouping_size in Ug. apply eqb_no. intros Ep. apply (proj2 (proj2 Pr) Ug). symmetry. exact Ep. }
      rewrite Ascii.eqb_refl. cbn [orb]. rewrite (collect_digits p f _ Sf Df). specialize (M false Nf). cbn [orb] in M. rewrite M in *. rewrite E. cbn [prefix add].
      exists (concat groups ++ ["."%char] ++ f ++ ex'). split; [|reflexivity]. exists (concat groups), ["."%char], f, ex', x. repeat split; auto. }
  destruct C as (t' & T & C). exists t'. split; [exact T|]. unfold extract.
  assert (Sg : forall c, c = "-"%char \/ c = "+"%char -> is_sign p c = true).
  { intros c H. destruct (not_sep p c Pr) as [A B]; [intros (_ & A & B & _); destruct H; contradiction|]. unfold is_sign. rewrite A, B. destruct H; subst; reflexivity. }
  destruct s; cbn [sign_text] in S; [subst; cbn [app]; rewrite (Sg _ (or_introl eq_refl)), C; reflexivity|]. destruct S as [->| ->]; [|cbn [app]; rewrite (Sg _ (or_intror eq_refl)), C; reflexivity].
  cbn [app]. assert (Hd : exists c r, (separated (sep p) groups ++ pt ++ f ++ ex) ++ rest = c :: r /\ (decimal_digit c \/ c = point p)).
  { destruct groups as [|[|c g] groups].
    - destruct P as [(-> & ->)| ->]; [exfalso; apply Nf; reflexivity|]. eexists _, _. split; [reflexivity|]. right. reflexivity.
    - inversion Ng; congruence.
    - cbn [concat app] in Di. inversion Di; subst. destruct groups; eexists _, _; (split; [reflexivity|left; assumption]). }
  destruct Hd as (c & r & E & H). rewrite E in *. assert (is_sign p c = false) as ->; [|exact C]. unfold is_sign. destruct H as [H| ->]; [|rewrite Ascii.eqb_refl, andb_false_r; reflexivity].
  destruct (digit_no_sign c H) as (H1 & H2 & _). rewrite (eqb_no _ _ H1), (eqb_no _ _ H2). reflexivity.
Qed.
