(** Proofs about str_to of texts in a locale. *)
From Coq Require Import Ascii String List Bool Arith ZArith QArith Qabs Floats.SpecFloat Lia.
From Verif Require Import Base DigitsSpec DigitsProofs LogTextModel ConvSpec ConvModel ConvProofs GroupModel GroupSpec GroupProofs FloatModel FloatSpec FloatProofs
  FloatTextModel FloatTextSpec FloatTextRound FloatTextNumber FloatTextProofs FloatTextUse FloatLocaleModel FloatLocaleSpec FloatLocaleProofs.
Import ListNotations.
Local Open Scope list_scope.
Local Open Scope Z_scope.
Notation length := List.length.

Section Format.
Variables prec emax : Z.
Notation str_to_float := (FloatLocaleModel.str_to_float prec emax).
Notation str_float := (FloatLocaleModel.str_float prec emax).

Lemma local_head (p : floatpunct) m e t rest : local_number (grouping p) (sep p) (point p) m e t -> exists c r, t ++ rest = c :: r /\ (decimal_digit c \/ c = point p).
Proof.
  intros (groups & pt & f & ex & x & -> & N & D & R & P & X & -> & Ng & U). destruct groups as [|[|c g] groups].
  - destruct P as [(-> & ->)| ->]; [exfalso; apply N; reflexivity|]. eexists _, _. split; [reflexivity|]. right. reflexivity.
  - inversion Ng; congruence.
  - cbn [concat app] in D. inversion D; subst. destruct groups; eexists _, _; (split; [reflexivity|left; assumption]).
Qed.
Lemma not_space c : ~ blank c -> is_space c = false.
Proof. intros H. destruct (is_space c) eqn:E; [|reflexivity]. apply is_space_blank in E. contradiction. Qed.
Lemma str_to_head p ws c s : Forall blank ws -> is_space c = false -> str_to_float p (ws ++ c :: s) = Ret (match extract p (c :: s) with Some t => get_float prec emax t | None => S754_zero false end).
Proof. intros B S. unfold FloatLocaleModel.str_to_float. rewrite skip_blank by exact B. cbn [skip_ws]. rewrite S. reflexivity. Qed.
Lemma local_value (p : floatpunct) ws s sg m e t rest : proper (grouping p) (sep p) (point p) -> Forall blank ws -> sign_text s sg -> local_number (grouping p) (sep p) (point p) m e t ->
  ends_local (grouping p) (sep p) (point p) t rest -> str_to_float p (ws ++ sg ++ t ++ rest) = Ret (to_float prec emax s m e).
Proof.
  intros Pr B S T Er. destruct (extract_text p s sg m e t rest Pr S T Er) as (t' & T' & E). destruct (local_head p m e t rest T) as (c & r & Eh & Hc).
  assert (Hd : exists c' r', sg ++ t ++ rest = c' :: r' /\ is_space c' = false).
  { destruct s; cbn [sign_text] in S; [subst; eexists _, _; split; reflexivity|]. destruct S as [->| ->]; [|eexists _, _; split; reflexivity]. cbn [app]. rewrite Eh. eexists _, _. split; [reflexivity|].
    destruct Hc as [Hc| ->]; [apply no_blank; tauto|apply not_space, Pr]. }
  destruct Hd as (c' & r' & Ed & Sp). rewrite Ed in *. rewrite (str_to_head p ws c' r' B Sp), E. rewrite <- (app_nil_r t'), (get_float_text prec emax s sg m e t' [] S T' I). reflexivity.
Qed.
(** the same value as in the classic locale *)
Lemma same_value (p : floatpunct) ws s sg m e t rest ws' t' rest' : proper (grouping p) (sep p) (point p) -> Forall blank ws -> sign_text s sg -> local_number (grouping p) (sep p) (point p) m e t ->
  ends_local (grouping p) (sep p) (point p) t rest -> Forall blank ws' -> number_text m e t' -> ends_number rest' ->
  str_to_float p (ws ++ sg ++ t ++ rest) = FloatTextModel.str_to_float prec emax (ws' ++ sg ++ t' ++ rest').
Proof. intros Pr B S T Er B' T' Er'. rewrite (local_value p ws s sg m e t rest Pr B S T Er), (str_to_text prec emax ws' s sg m e t' rest' B' S T' Er'). reflexivity. Qed.
Lemma local_nearest (p : floatpunct) ws s sg m e t rest : a_format prec emax -> proper (grouping p) (sep p) (point p) -> Forall blank ws -> sign_text s sg -> local_number (grouping p) (sep p) (point p) m e t ->
  ends_local (grouping p) (sep p) (point p) t rest -> exists x, str_to_float p (ws ++ sg ++ t ++ rest) = Ret x /\ sign x = s /\
  nearest_number prec emax (inject_Z (if s then -1 else 1) * decimal_value m e) x.
Proof.
  intros F Pr B S T Er. rewrite (local_value p ws s sg m e t rest Pr B S T Er). assert (M : 0 <= m). { destruct T as (gs & pt & f & ex & y & -> & _ & D & R & _). apply (DigitsProofs.read_nonneg 10 ltac:(lia) _ _ R). }
  exists (to_float prec emax s m e). split; [reflexivity|]. destruct (to_float_cases _ _ F s m e M) as (_ & _ & Sg & _). split; [exact Sg|apply (to_float_nearest _ _ F s m e M)].
Qed.

(** * Reading what str has written *)
Lemma grouped_parts g sp ds ds' : ds <> [] -> grouped g sp ds ds' -> exists groups, concat groups = ds /\ ds' = separated sp groups /\ Forall (fun x => x <> []) groups /\ (size g 0 = None -> (List.length groups <= 1)%nat).
Proof.
  intros N (groups & C & Fu & E & Ne). exists groups. split; [exact C|]. split; [exact E|]. split; [apply Ne, N|]. intros S. rewrite <- rev_length. destruct (rev groups) as [|a [|b r]]; cbn; [lia|lia|]. cbn [full] in Fu. destruct Fu as [Fu _]. congruence.
Qed.
Lemma localised_number (p : floatpunct) t t' : localised (grouping p) (sep p) (point p) t t' -> exists s sg m e u u', sign_text s sg /\ t = sg ++ u /\ t' = sg ++ u' /\ number_text m e u /\ local_number (grouping p) (sep p) (point p) m e u'.
Proof.
  intros (sg & i & f & ex & i' & -> & S & N & D & (x & X) & G & ->). destruct (grouped_parts _ _ _ _ N G) as (groups & C & -> & Ng & U).
  destruct (read_some (i ++ f) D) as (m & R & _). exists (match sg with [] => false | _ => true end), sg, m, (x - Z.of_nat (length f)), (i ++ fraction f ++ ex), (separated (sep p) groups ++ match f with [] => [] | _ => point p :: f end ++ ex).
  split; [destruct S; subst; cbn; auto|]. split; [reflexivity|]. split; [reflexivity|]. assert (N' : i ++ f <> []) by (destruct i; [congruence|discriminate]). split.
  - destruct f as [|c f].
    + exists i, [], [], ex, x. repeat split; auto.
    + exists i, ["."%char], (c :: f), ex, x. repeat split; auto.
  - rewrite <- C in D, R, N'. destruct f as [|c f].
    + exists groups, [], [], ex, x. repeat split; auto.
    + exists groups, [point p], (c :: f), ex, x. repeat split; auto.
Qed.
Lemma not_finite_back (p : floatpunct) x : is_finite x = false -> str_to_float p (str_float p x) = Ret (S754_zero false).
Proof.
  intros H. rewrite (not_finite_shown prec emax p x H).
  destruct x as [s|[]| |s m e]; try discriminate H; unfold FloatLocaleModel.str_to_float; cbn [FloatTextModel.str_float minus chars list_ascii_of_string skip_ws]; f_equal; cbv - [is_sep point get_float];
  repeat match goal with |- context [if is_sep p ?c then _ else _] => destruct (is_sep p c); try reflexivity end; destruct (point p) as [[] [] [] [] [] [] [] []]; reflexivity.
Qed.
Lemma str_back (p : floatpunct) x : a_format prec emax -> proper (grouping p) (sep p) (point p) -> number prec emax x -> str_to_float p (str_float p x) = FloatTextModel.str_to_float prec emax (FloatTextModel.str_float prec emax x).
Proof.
  intros F Pr N. destruct (is_finite x) eqn:Fi; [|rewrite not_finite_back, back_not_finite by exact Fi; reflexivity].
  destruct (localised_number p _ _ (localised_proof prec emax F p x N Fi)) as (s & sg & m & e & u & u' & S & -> & -> & T & T').
  rewrite <- (app_nil_r u), <- (app_nil_r u'). exact (same_value p [] s sg m e u' [] [] u [] Pr (Forall_nil _) S T' I (Forall_nil _) T I).
Qed.
Lemma local_blank p s : str_to_float p s = Ub <-> Forall blank s.
Proof. rewrite <- skip_all. unfold FloatLocaleModel.str_to_float. destruct (skip_ws s); split; congruence. Qed.

(** * Separators where none should be *)
Lemma sep_first (p : floatpunct) ws s sg rest : proper (grouping p) (sep p) (point p) -> size (grouping p) 0 <> None -> Forall blank ws -> sign_text s sg -> ~ blank (sep p) ->
  str_to_float p (ws ++ sg ++ sep p :: rest) = Ret (S754_zero false).
Proof.
  intros Pr U B S Nb. assert (Is : is_sep p (sep p) = true) by (unfold is_sep; rewrite Ascii.eqb_refl, andb_true_r; apply use_grouping_size, U).
  assert (Sg : forall c, c = "-"%char \/ c = "+"%char -> is_sign p c = true).
  { intros c H. destruct (not_sep p c Pr) as [A C]; [intros (_ & A & C & _); destruct H; contradiction|]. unfold is_sign. rewrite A, C. destruct H; subst; reflexivity. }
  destruct s; cbn [sign_text] in S; [|destruct S as [->| ->]]; subst; cbn [app].
  - rewrite (str_to_head p ws "-"%char _ B eq_refl). cbn [extract]. rewrite (Sg _ (or_introl eq_refl)). cbn [collect]. rewrite Is. reflexivity.
  - rewrite (str_to_head p ws (sep p) _ B (not_space _ Nb)). cbn [extract]. unfold is_sign. rewrite Is. cbn [negb]. rewrite andb_false_r. cbn [andb collect]. rewrite Is. reflexivity.
  - rewrite (str_to_head p ws "+"%char _ B eq_refl). cbn [extract]. rewrite (Sg _ (or_intror eq_refl)). cbn [collect]. rewrite Is. reflexivity.
Qed.
Lemma sep_twice (p : floatpunct) ws s sg groups rest : proper (grouping p) (sep p) (point p) -> size (grouping p) 0 <> None -> Forall blank ws -> sign_text s sg -> groups <> [] ->
  Forall decimal_digit (concat groups) -> Forall (fun x => x <> []) groups -> str_to_float p (ws ++ sg ++ separated (sep p) groups ++ sep p :: sep p :: rest) = Ret (S754_zero false).
Proof.
  intros Pr U B S Ne D N. assert (Is : is_sep p (sep p) = true) by (unfold is_sep; rewrite Ascii.eqb_refl, andb_true_r; apply use_grouping_size, U). pose proof (proper_safe p Pr) as Sf.
  assert (C : collect p (separated (sep p) groups ++ sep p :: sep p :: rest) false false false false = None).
  { rewrite (collect_integer p groups _ Sf D N) by congruence. destruct groups as [|g groups]; [congruence|]. inversion N; subst. destruct g as [|c g]; [congruence|]. cbn [concat app some_of collect]. rewrite Is. cbn [orb]. reflexivity. }
  assert (Sg : forall c, c = "-"%char \/ c = "+"%char -> is_sign p c = true).
  { intros c H. destruct (not_sep p c Pr) as [A C']; [intros (_ & A & C' & _); destruct H; contradiction|]. unfold is_sign. rewrite A, C'. destruct H; subst; reflexivity. }
  destruct s; cbn [sign_text] in S; [|destruct S as [->| ->]]; subst; cbn [app].
  - rewrite (str_to_head p ws "-"%char _ B eq_refl). cbn [extract]. rewrite (Sg _ (or_introl eq_refl)), C. reflexivity.
  - destruct groups as [|[|c g] groups]; [congruence|inversion N; congruence|]. cbn [concat app] in D. inversion D as [|? ? Dc _]; subst.
    assert (E : exists r, separated (sep p) ((c :: g) :: groups) ++ sep p :: sep p :: rest = c :: r) by (destruct groups; eexists; reflexivity). destruct E as (r & E). rewrite E in *. rewrite (str_to_head p ws c r B) by (apply no_blank; tauto). cbn [extract].
    destruct (digit_no_sign c Dc) as (H1 & H2 & _). unfold is_sign. rewrite (eqb_no _ _ H1), (eqb_no _ _ H2). cbn [orb andb]. rewrite C. reflexivity.
  - rewrite (str_to_head p ws "+"%char _ B eq_refl). cbn [extract]. rewrite (Sg _ (or_intror eq_refl)), C. reflexivity.
Qed.
End Format.

(** * The classic locale *)
Definition no_digit (t : text) : Prop := match t with c :: _ => ~ decimal_digit c | [] => True end.
Lemma digits_of_split t : exists ds r, t = ds ++ r /\ digits_of t = (ds, r) /\ Forall decimal_digit ds /\ no_digit r.
Proof.
  induction t as [|c t (ds & r & E & Dg & D & N)]; [exists [], []; repeat split; constructor|]. cbn [digits_of]. destruct (digit_val c) eqn:V.
  - exists (c :: ds), r. rewrite Dg. split; [rewrite E; reflexivity|]. split; [reflexivity|]. split; [constructor; [apply digit_val_digit; eauto|exact D]|exact N].
  - exists [], (c :: t). repeat split; [constructor|]. intros C. apply digit_val_digit in C. destruct C as (d & C). congruence.
Qed.
Lemma get_sign_split t : exists sg r, t = sg ++ r /\ (sg = [] /\ get_sign t = (false, t) /\ match r with c :: _ => c <> "-"%char /\ c <> "+"%char | [] => True end \/ sg = ["-"%char] /\ get_sign t = (true, r) \/ sg = ["+"%char] /\ get_sign t = (false, r)).
Proof.
  destruct t as [|c t]; [exists [], []; auto|]. destruct (Ascii.eqb_spec c "-") as [->|A]; [exists ["-"%char], t; auto|]. destruct (Ascii.eqb_spec c "+") as [->|B]; [exists ["+"%char], t; auto|].
  exists [], (c :: t). split; [reflexivity|]. left. split; [reflexivity|]. split; [|split; assumption]. destruct c as [[] [] [] [] [] [] [] []]; try reflexivity; exfalso; congruence.
Qed.
Section Classic.
Variable p : floatpunct.
Hypothesis G : size (grouping p) 0 = None.
Hypothesis Pt : point p = "."%char.
Lemma no_sep c : is_sep p c = false.
Proof. unfold is_sep. destruct (use_grouping p) eqn:U; [|reflexivity]. apply use_grouping_size in U. contradiction. Qed.
Lemma classic_safe : digit_safe p.
Proof. intros c D. split; [apply no_sep|]. rewrite Pt. apply eqb_no. apply digit_no_sign in D. apply D. Qed.
(** an exponent, or none *)
Lemma sci_end r pos dec man : no_digit r -> collect p r pos dec true man = Some [].
Proof.
  destruct r as [|c r]; [reflexivity|]. intros N. cbn [collect]. rewrite no_sep, (is_digit_false c N), orb_true_r, andb_false_r. destruct (Ascii.eqb c (point p)); reflexivity.
Qed.
Lemma classic_exponent t pos dec : no_digit t -> (match t with c :: _ => c <> "."%char \/ dec = true | [] => True end) ->
  collect p t pos dec false false = Some [] /\ exists ex, collect p t pos dec false true = Some ex /\ get_exponent ex = get_exponent t /\ (ex = [] \/ exists r, ex = "e"%char :: r).
Proof.
  intros N Q. destruct t as [|c t]; [split; [reflexivity|]; exists []; auto|]. cbn [collect]. rewrite no_sep, (is_digit_false c N), !andb_false_r, Pt.
  destruct (Ascii.eqb_spec c ".") as [->|Nc].
  - destruct Q as [Q| ->]; [congruence|]. split; [reflexivity|]. exists []. repeat split; auto.
  - split; [reflexivity|]. rewrite andb_true_r. cbn [negb]. rewrite andb_true_r. destruct (is_e c) eqn:E; [|exists []; split; [reflexivity|]; split; [cbn [get_exponent]; rewrite E; reflexivity|auto]].
    destruct (get_sign_split t) as (sg & r & Et & S). destruct (digits_of_split r) as (ds & rest & Er & Dg & D & Nr).
    assert (C : forall pos, collect p r pos dec true true = Some ds) by (intros pos'; rewrite Er, (collect_digits p ds rest classic_safe D), sci_end by exact Nr; cbn [prefix]; rewrite app_nil_r; reflexivity).
    assert (Dd : digits_of ds = (ds, [])) by (rewrite <- (app_nil_r ds) at 1; apply digits_of_app; [exact D|exact I]).
    exists ("e"%char :: sg ++ ds). split; [|split; [|right; eauto]].
    + destruct S as [(-> & _ & S)|[(-> & _)|(-> & _)]]; cbn [app] in *; subst t.
      * destruct r as [|d r]; [cbn in Er; destruct ds; [reflexivity|discriminate Er]|]. destruct S as [A B]. rewrite (eqb_no _ _ A), (eqb_no _ _ B). cbn [orb]. rewrite C. reflexivity.
      * change (Ascii.eqb "-" "-") with true. rewrite orb_true_r, C. reflexivity.
      * change (Ascii.eqb "+" "+") with true. cbn [orb]. rewrite C. reflexivity.
    + cbn [get_exponent]. rewrite E. change (is_e "e") with true. cbv iota. assert (Gs : exists n, get_sign t = (n, r) /\ get_sign (sg ++ ds) = (n, ds)).
      { destruct S as [(-> & S & S')|[(-> & S)|(-> & S)]]; [|exists true; auto|exists false; auto]. exists false. cbn [app] in *. subst t. split; [exact S|]. apply (get_sign_sign false [] ds (or_introl eq_refl)). destruct ds as [|d ds]; [exact I|]. rewrite Er in S'. exact S'. }
      destruct Gs as (n & -> & ->). rewrite Dg, Dd. destruct ds; reflexivity.
Qed.
(** get_float after the sign *)
Variables prec emax : Z.
Definition body (neg : bool) (t : text) : spec_float :=
  let (i, t) := digits_of t in
  let (f, t) := match t with "."%char :: t' => digits_of t' | _ => ([], t) end in
  match i ++ f, get_exponent t with
  | [], _ | _, None => S754_zero false
  | ds, Some e => to_float prec emax neg (ConvModel.get_digits ds 0) (e - Z.of_nat (length f))
  end.
Lemma dot_cases (t : text) : (exists t', t = "."%char :: t') \/ (match t with c :: _ => c <> "."%char | [] => True end) /\ match t with "."%char :: t' => digits_of t' | _ => ([], t) end = ([], t).
Proof.
  destruct t as [|c t]; [right; split; [exact I|reflexivity]|]. destruct (Ascii.eqb_spec c ".") as [->|N]; [left; eauto|]. right. split; [exact N|]. destruct c as [[] [] [] [] [] [] [] []]; try reflexivity; exfalso; apply N; reflexivity.
Qed.
Lemma body_split neg i t : Forall decimal_digit i -> no_digit t -> body neg (i ++ t) =
  (let (f, t) := match t with "."%char :: t' => digits_of t' | _ => ([], t) end in
   match i ++ f, get_exponent t with [], _ | _, None => S754_zero false | ds, Some e => to_float prec emax neg (ConvModel.get_digits ds 0) (e - Z.of_nat (length f)) end).
Proof. intros D N. unfold body. rewrite (digits_of_app i t D N). reflexivity. Qed.
Lemma e_head ex : (ex = [] \/ exists r, ex = "e"%char :: r) -> no_digit ex /\ match ex with "."%char :: t' => digits_of t' | _ => ([], ex) end = ([], ex).
Proof. intros [->|(r & ->)]; split; try reflexivity; try exact I. apply e_no_digit. auto. Qed.
Lemma classic_body neg t : exists u, collect p t false false false false = Some u /\ body neg u = body neg t /\ match u with c :: _ => c <> "-"%char /\ c <> "+"%char | [] => True end.
Proof.
  destruct (digits_of_split t) as (i & t2 & -> & _ & Di & N2). rewrite (body_split neg i t2 Di N2), (collect_digits p i t2 classic_safe Di). cbn [orb].
  assert (Hd : forall u c r, u = c :: r -> c <> "-"%char /\ c <> "+"%char -> match i ++ u with c :: _ => c <> "-"%char /\ c <> "+"%char | [] => True end).
  { intros u c r -> H. destruct Di as [|d ds Dd _]; [exact H|]. cbn. destruct (digit_no_sign d Dd) as (A & B & _). auto. }
  destruct (dot_cases t2) as [(t3 & ->)|(Nd & ->)].
  - destruct (digits_of_split t3) as (f & t4 & -> & Dg & Df & N4). rewrite Dg. cbn [collect]. rewrite no_sep, Pt, Ascii.eqb_refl. cbn [orb]. rewrite (collect_digits p f t4 classic_safe Df).
    assert (Q : match t4 with c :: _ => c <> "."%char \/ true = true | [] => True end) by (destruct t4; auto).
    destruct (classic_exponent t4 (some_of i || some_of f) true N4 Q) as (E0 & ex & E1 & Ge & He). destruct (some_of i || some_of f) eqn:M.
    + rewrite E1. cbn [prefix add]. exists (i ++ "."%char :: f ++ ex). split; [reflexivity|]. split; [|apply (Hd _ "."%char (f ++ ex) eq_refl); split; discriminate].
      rewrite (body_split neg i _ Di) by (cbn; intuition discriminate). destruct (e_head ex He) as [Ne _]. rewrite (digits_of_app f ex Df Ne), Ge. reflexivity.
    + rewrite E0. cbn [prefix add]. apply orb_false_iff in M. destruct i; [|destruct M; discriminate]. destruct f; [|destruct M; discriminate]. exists ["."%char]. split; [reflexivity|]. split; [reflexivity|split; discriminate].
  - assert (Q : match t2 with c :: _ => c <> "."%char \/ false = true | [] => True end) by (destruct t2; auto).
    destruct (classic_exponent t2 (some_of i) false N2 Q) as (E0 & ex & E1 & Ge & He). destruct (some_of i) eqn:M.
    + rewrite E1. cbn [prefix]. exists (i ++ ex). destruct (e_head ex He) as [Ne Nf]. split; [reflexivity|]. split; [rewrite (body_split neg i ex Di Ne), Nf, Ge; reflexivity|].
      destruct Di as [|d ds Dd _]; [discriminate M|]. cbn. destruct (digit_no_sign d Dd) as (A & B & _). auto.
    + rewrite E0. cbn [prefix]. destruct i; [|discriminate]. exists []. repeat split.
Qed.
Lemma classic_extract t : match extract p t with Some u => get_float prec emax u | None => S754_zero false end = get_float prec emax t.
Proof.
  assert (Gf : forall t, get_float prec emax t = let (n, t) := get_sign t in body n t) by reflexivity.
  assert (Sg : forall c, is_sign p c = (Ascii.eqb c "+" || Ascii.eqb c "-")).
  { intros c. unfold is_sign. rewrite no_sep, Pt. cbn [negb]. rewrite andb_true_r. destruct (Ascii.eqb_spec c "."); [subst; reflexivity|]. apply andb_true_r. }
  destruct (get_sign_split t) as (sg & r & -> & S). rewrite (Gf (sg ++ r)). destruct S as [(-> & -> & S)|[(-> & ->)|(-> & ->)]]; cbn [app].
  - destruct (classic_body false r) as (u & E & B & H). destruct r as [|c r]; [reflexivity|]. destruct S as [H1 H2]. cbn [extract]. rewrite Sg, (eqb_no _ _ H1), (eqb_no _ _ H2). cbn [orb]. rewrite E, Gf.
    pose proof (get_sign_sign false [] u (or_introl eq_refl) H) as Gu. cbn [app] in Gu. rewrite Gu. exact B.
  - destruct (classic_body true r) as (u & E & B & H). cbn [extract]. rewrite Sg. cbn [Ascii.eqb]. change (Ascii.eqb "-" "-") with true. rewrite orb_true_r, E. exact B.
  - destruct (classic_body false r) as (u & E & B & H). cbn [extract]. rewrite Sg. change (Ascii.eqb "+" "+") with true. cbn [orb]. rewrite E. exact B.
Qed.
Lemma classic_str_to s : FloatLocaleModel.str_to_float prec emax p s = FloatTextModel.str_to_float prec emax s.
Proof. unfold FloatLocaleModel.str_to_float, FloatTextModel.str_to_float. destruct (skip_ws s) as [|c t]; [reflexivity|]. rewrite classic_extract. reflexivity. Qed.
Lemma split_point_app t : let (i, r) := split_point t in t = i ++ r /\ (r = [] \/ exists f, r = "."%char :: f).
Proof.
  induction t as [|c t IH]; [split; [reflexivity|auto]|]. cbn [split_point]. destruct (Ascii.eqb_spec c ".") as [->|N]; [split; [reflexivity|eauto]|]. destruct (split_point t) as [i r]. destruct IH as [-> H]. split; [reflexivity|exact H].
Qed.
Lemma classic_insert t : insert_float p t = t.
Proof.
  unfold insert_float. pose proof (split_point_app t) as S. destruct (split_point t) as [i r]. destruct S as [E H].
  assert (Pd : forall ds, put_digits p ds = ds) by (intros ds; unfold put_digits; apply put_groups_none; congruence).
  assert (R : match r with _ :: f => point p :: f | [] => [] end = r) by (destruct H as [->|(f & ->)]; [reflexivity|rewrite Pt; reflexivity]). rewrite R.
  destruct (negb (length r =? 0)%nat || (length t <? 3)%nat || has_digit t 1 && has_digit t 2); [|symmetry; exact E].
  rewrite Pd, E. destruct i as [|c i]; [reflexivity|]. rewrite Pd. destruct c as [[] [] [] [] [] [] [] []]; reflexivity.
Qed.
Lemma classic_str x : FloatLocaleModel.str_float prec emax p x = FloatTextModel.str_float prec emax x.
Proof. apply classic_insert. Qed.
End Classic.

(** * Texts without a point or a separator *)
Definition classic : floatpunct := Floatpunct (Numpunct [] ",") ".".
Lemma collect_same (p q : floatpunct) t : (forall c, In c t -> is_sep p c = false /\ Ascii.eqb c (point p) = false /\ is_sep q c = false /\ Ascii.eqb c (point q) = false) ->
  forall pos dec sci man, collect p t pos dec sci man = collect q t pos dec sci man.
Proof.
  induction t as [t IH] using (well_founded_induction (Wf_nat.well_founded_ltof _ (@length ascii))). intros H pos dec sci man. destruct t as [|c t]; [reflexivity|].
  assert (T : forall pos dec sci man, collect p t pos dec sci man = collect q t pos dec sci man) by (apply IH; [unfold Wf_nat.ltof; cbn; lia|intros d D; apply H; right; exact D]).
  cbn [collect]. destruct (H c (or_introl eq_refl)) as (-> & -> & -> & ->). destruct (is_digit c); [rewrite T; reflexivity|]. destruct (is_e c && negb sci && man); [|reflexivity].
  destruct t as [|d t]; [reflexivity|]. rewrite T, (IH t); [reflexivity|unfold Wf_nat.ltof; cbn; lia|intros a A; apply H; right; right; exact A].
Qed.
Lemma plain_same prec emax (p : floatpunct) s : ~ In "."%char s -> ~ In (point p) s -> (size (grouping p) 0 <> None -> ~ In (sep p) s) -> FloatLocaleModel.str_to_float prec emax p s = FloatTextModel.str_to_float prec emax s.
Proof.
  intros A B C. rewrite <- (classic_str_to classic eq_refl eq_refl). unfold FloatLocaleModel.str_to_float.
  assert (Sk : forall c, In c (skip_ws s) -> In c s) by (clear; intros c; induction s as [|a s IH]; [auto|]; cbn [skip_ws]; destruct (is_space a); [intros D; right; apply IH, D|auto]).
  assert (H : forall c, In c (skip_ws s) -> is_sep p c = false /\ Ascii.eqb c (point p) = false /\ is_sep classic c = false /\ Ascii.eqb c (point classic) = false).
  { intros c D. apply Sk in D. repeat split; try reflexivity; try (apply eqb_no; intros ->; contradiction).
    unfold is_sep. destruct (use_grouping p) eqn:U; [|reflexivity]. apply eqb_no. intros ->. apply use_grouping_size in U. exact (C U D). }
  destruct (skip_ws s) as [|c t]; [reflexivity|]. destruct (H c (or_introl eq_refl)) as (H1 & H2 & H3 & H4). cbn [extract]. unfold is_sign. rewrite H1, H2, H3, H4.
  rewrite (collect_same p classic t) by (intros d D; apply H; right; exact D). rewrite (collect_same p classic (c :: t)) by exact H. reflexivity.
Qed.
