(** Proofs about the text of floating-point numbers. *)
From Coq Require Import Ascii String List Bool ZArith QArith Qabs Qpower Lqa Floats.SpecFloat Lia.
From Verif Require Import Base DigitsSpec DigitsProofs LogTextModel LogTextProofs ConvSpec GroupProofs ConvModel ConvProofs AlgoModel AlgoProofs FloatModel FloatSpec FloatProofs FloatSum FloatUse
  FloatTextModel FloatTextSpec FloatTextRound FloatTextNumber.
Import ListNotations.
Local Open Scope list_scope.
Local Open Scope Z_scope.
Notation length := List.length.

(** * Digits *)
Lemma digits_of_app ds rest : Forall decimal_digit ds -> (match rest with c :: _ => ~ decimal_digit c | [] => True end) -> digits_of (ds ++ rest) = (ds, rest).
Proof.
  intros D R. induction D as [|c ds Dc D IH]; cbn [app].
  - destruct rest as [|c rest]; [reflexivity|]. cbn [digits_of]. destruct (digit_val c) eqn:E; [|reflexivity]. exfalso. apply R, digit_val_digit. eauto.
  - cbn [digits_of]. apply digit_val_digit in Dc. destruct Dc as (d & ->). rewrite IH. reflexivity.
Qed.
Lemma get_read ds n : Forall decimal_digit ds -> read 10 ds = Some n -> ConvModel.get_digits ds 0 = n.
Proof. intros D R. rewrite <- (app_nil_r ds). apply (read_from ds 0 n R); [exact D|exact I]. Qed.
Lemma read_zeros l n k : read 10 l = Some n -> read 10 (l ++ repeat "0"%char k) = Some (n * 10 ^ Z.of_nat k).
Proof.
  intros R. induction k as [|k IH]; [cbn [repeat]; rewrite app_nil_r, R; f_equal; change (10 ^ Z.of_nat 0) with 1; lia|].
  change (S k) with (1 + k)%nat. rewrite Nat.add_comm, repeat_app. cbn [repeat]. rewrite app_assoc, read_snoc, IH. cbn. f_equal. rewrite Z.add_0_r, Nat2Z.inj_add, Z.pow_add_r by lia. change (10 ^ Z.of_nat 1) with 10. ring.
Qed.
Lemma read_lead k ds : read 10 (repeat "0"%char k ++ ds) = read 10 ds.
Proof. unfold read. rewrite fold_left_app. f_equal. induction k as [|k IH]; [reflexivity|]. cbn [repeat fold_left]. exact IH. Qed.
Lemma zeros_digits k : Forall decimal_digit (repeat "0"%char k).
Proof. apply Forall_forall. intros c H. apply repeat_spec in H. subst. left. reflexivity. Qed.
Lemma read_some ds : Forall decimal_digit ds -> exists n, read 10 ds = Some n /\ 0 <= n.
Proof. intros D. rewrite (value_read ds D). eexists. split; [reflexivity|]. apply (DigitsProofs.read_nonneg 10 ltac:(lia) ds). apply value_read, D. Qed.

(** * Zeros at the end *)
Lemma drop_zeros_split t : exists k, t = repeat "0"%char k ++ drop_zeros t /\ (forall t', drop_zeros t <> "0"%char :: t').
Proof.
  induction t as [|c t IH]; [exists 0%nat; split; [reflexivity|discriminate]|]. destruct (Ascii.eqb_spec c "0"%char) as [->|N].
  - destruct IH as (k & E & H). exists (S k). cbn [drop_zeros repeat app]. split; [f_equal; exact E|exact H].
  - assert (E : drop_zeros (c :: t) = c :: t) by (destruct c as [[] [] [] [] [] [] [] []]; try reflexivity; exfalso; apply N; reflexivity). exists 0%nat. rewrite E. split; [reflexivity|]. intros t' [= X _]. apply N, X.
Qed.
Lemma rev_zeros k : rev (repeat "0"%char k) = repeat "0"%char k.
Proof. induction k as [|k IH]; [reflexivity|]. cbn [repeat rev]. rewrite IH. clear IH. induction k as [|k IH]; [reflexivity|]. cbn [repeat app]. rewrite IH. reflexivity. Qed.
Lemma with_point_form i f : exists f0 k, f = f0 ++ repeat "0"%char k /\ with_point i f = i ++ fraction f0 /\ (forall f', f0 <> f' ++ ["0"%char]).
Proof.
  destruct (drop_zeros_split (rev f)) as (k & E & H). exists (rev (drop_zeros (rev f))), k. split; [|split].
  - apply (f_equal (@rev ascii)) in E. rewrite rev_involutive, rev_app_distr, rev_zeros in E. exact E.
  - unfold with_point, fraction. destruct (rev (drop_zeros (rev f))) as [|c t]; [rewrite app_nil_r|]; reflexivity.
  - intros f' E'. apply (f_equal (@rev ascii)) in E'. rewrite rev_involutive, rev_app_distr in E'. exact (H _ E').
Qed.
(** the value of digits with a point *)
Lemma point_value i f d ex x : i <> [] -> Forall decimal_digit (i ++ f) -> read 10 (i ++ f) = Some d -> exponent_text x ex ->
  exists f0 m, with_point i f = i ++ fraction f0 /\ (forall f', f0 <> f' ++ ["0"%char]) /\ 0 <= m /\
  number_text m (x - Z.of_nat (length f0)) (with_point i f ++ ex) /\ (decimal_value m (x - Z.of_nat (length f0)) == decimal_value d (x - Z.of_nat (length f)))%Q.
Proof.
  intros I D R X. destruct (with_point_form i f) as (f0 & k & E & W & Z0). rewrite E, app_assoc in D, R. apply Forall_app in D. destruct D as [D _].
  destruct (read_some (i ++ f0) D) as (m & Rm & Pm). rewrite (read_zeros _ _ k Rm) in R. injection R as <-. exists f0, m. split; [exact W|]. split; [exact Z0|]. split; [exact Pm|]. split.
  - rewrite W. destruct f0 as [|c f0].
    + exists i, [], [], ex, x. cbn [fraction app]. rewrite !app_nil_r in *. repeat split; auto.
    + exists i, ["."%char], (c :: f0), ex, x. cbn [fraction]. split; [rewrite <- !app_assoc; reflexivity|]. split; [destruct i; discriminate|]. repeat split; auto.
  - rewrite E, app_length, repeat_length. replace (x - Z.of_nat (length f0)) with (x - Z.of_nat (length f0 + k) + Z.of_nat k) by lia. apply decimal_shift. lia.
Qed.

(** * What %g writes *)
Lemma dec_digits_of d : 0 <= d -> numeral 10 d (dec d) /\ Forall decimal_digit (dec d).
Proof.
  intros H. destruct (dec_parts d) as (sg & ds & E & S & N & D & R & _). destruct S as [(-> & _)|(_ & S)]; [|lia]. cbn [app] in E. rewrite E in *. split; [|exact D].
  destruct (decimal_proof d) as (ds' & Nu & E'). unfold ConvModel.str_int in E'. destruct (Z.ltb_spec d 0); [lia|]. rewrite Z.abs_eq in Nu by lia. congruence.
Qed.
Lemma dec_six d : 100000 <= d < 1000000 -> length (dec d) = 6%nat /\ numeral 10 d (dec d) /\ Forall decimal_digit (dec d).
Proof. intros H. pose proof (dec_length d 5). pose proof (dec_long d 5). change (10 ^ Z.of_nat 6) with 1000000 in *. change (10 ^ Z.of_nat 5) with 100000 in *. split; [lia|]. apply dec_digits_of. lia. Qed.
Lemma two_digits_text n : 0 <= n -> two_digits n <> [] /\ Forall decimal_digit (two_digits n) /\ read 10 (two_digits n) = Some n /\ (2 <= length (two_digits n))%nat /\
  ((2 < length (two_digits n))%nat -> forall n', two_digits n <> "0"%char :: n').
Proof.
  intros H. destruct (dec_digits_of n H) as [(N & R & L) D]. unfold two_digits. destruct (Z.ltb_spec n 10) as [C|C].
  - split; [discriminate|]. split; [constructor; [left; reflexivity|exact D]|]. split; [exact (eq_trans (read_lead 1 (dec n)) R)|]. pose proof (dec_length n 0). change (10 ^ Z.of_nat 1) with 10 in *. destruct (dec n); [congruence|]. cbn [length] in *. split; lia.
  - pose proof (dec_long n 1). change (10 ^ Z.of_nat 1) with 10 in *. repeat split; try assumption; try lia. intros _ n' E. pose proof (L n' E) as ->. rewrite E in *. cbn [length] in *. lia.
Qed.
Lemma firstn_nonempty (n : nat) (l : list ascii) : (0 < n)%nat -> l <> [] -> firstn n l <> [].
Proof. intros N L. destruct n; [lia|]. destruct l; [congruence|]. discriminate. Qed.
Lemma fmt_value d k : 100000 <= d < 1000000 -> exists m e, 0 <= m /\ number_text m e (fmt_g d k) /\ (decimal_value m e == decimal_value d (k - 5))%Q /\ form k (fmt_g d k).
Proof.
  intros H. destruct (dec_six d H) as (L & (N & R & Z0) & D). unfold fmt_g. set (ds := dec d) in *.
  assert (Lead : forall n l, (0 < n)%nat -> firstn n ds <> "0"%char :: l).
  { intros n l Hn E. destruct n; [lia|]. destruct ds as [|c t]; [discriminate|]. cbn [firstn] in E. injection E as -> _. rewrite (Z0 t eq_refl) in L. discriminate. }
  destruct ((k <? -4) || (6 <=? k)) eqn:B.
  - assert (K : ~ (-4 <= k < 6)) by (apply orb_prop in B; rewrite Z.ltb_lt, Z.leb_le in B; lia).
    destruct (two_digits_text (Z.abs k) ltac:(lia)) as (T1 & T2 & T3 & T4 & T5).
    destruct (point_value (firstn 1 ds) (skipn 1 ds) d ("e"%char :: (if k <? 0 then "-"%char else "+"%char) :: two_digits (Z.abs k)) k) as (f0 & m & W & Zf & Pm & Nt & V).
    + apply firstn_nonempty; [lia|exact N].
    + rewrite firstn_skipn. exact D.
    + rewrite firstn_skipn. exact R.
    + right. exists "e"%char, [if k <? 0 then "-"%char else "+"%char], (two_digits (Z.abs k)), (Z.abs k). split; [reflexivity|]. split; [left; reflexivity|]. repeat split; try assumption.
      destruct (Z.ltb_spec k 0); [right|left]; (split; [auto|lia]).
    + exists m, (k - Z.of_nat (length f0)). split; [exact Pm|]. split; [exact Nt|]. split; [rewrite V, skipn_length, L; reflexivity|].
      exists (firstn 1 ds), f0, ("e"%char :: (if k <? 0 then "-"%char else "+"%char) :: two_digits (Z.abs k)). split; [rewrite W, <- app_assoc; reflexivity|].
      split; [apply firstn_nonempty; [lia|exact N]|]. split; [intros i' E; exfalso; exact (Lead 1%nat i' ltac:(lia) E)|]. split; [exact Zf|]. right. split; [exact K|]. split; [rewrite firstn_length, L; reflexivity|]. split; [intros E; exact (Lead 1%nat [] ltac:(lia) E)|].
      exists (two_digits (Z.abs k)). repeat split; assumption.
  - apply orb_false_elim in B. rewrite Z.ltb_ge, Z.leb_gt in B. destruct (Z.ltb_spec k 0) as [C|C].
    + destruct (point_value ["0"%char] (repeat "0"%char (Z.to_nat (- k - 1)) ++ ds) d [] 0) as (f0 & m & W & Zf & Pm & Nt & V).
      * discriminate.
      * constructor; [left; reflexivity|]. apply Forall_app. split; [apply zeros_digits|exact D].
      * rewrite app_assoc. change (["0"%char] ++ repeat "0"%char (Z.to_nat (- k - 1))) with (repeat "0"%char (S (Z.to_nat (- k - 1)))). rewrite read_lead. exact R.
      * left. split; reflexivity.
      * rewrite app_nil_r in Nt. exists m, (0 - Z.of_nat (length f0)). split; [exact Pm|]. split; [exact Nt|]. split; [rewrite V, app_length, repeat_length, L; replace (0 - Z.of_nat (Z.to_nat (- k - 1) + 6)) with (k - 5) by lia; reflexivity|].
        exists ["0"%char], f0, []. split; [rewrite W, app_nil_r; reflexivity|]. split; [discriminate|]. split; [intros i' [= <-]; reflexivity|]. split; [exact Zf|]. left. split; [lia|reflexivity].
    + destruct (point_value (firstn (Z.to_nat (k + 1)) ds) (skipn (Z.to_nat (k + 1)) ds) d [] 0) as (f0 & m & W & Zf & Pm & Nt & V).
      * apply firstn_nonempty; [lia|exact N].
      * rewrite firstn_skipn. exact D.
      * rewrite firstn_skipn. exact R.
      * left. split; reflexivity.
      * rewrite app_nil_r in Nt. exists m, (0 - Z.of_nat (length f0)). split; [exact Pm|]. split; [exact Nt|]. split; [rewrite V, skipn_length, L; replace (0 - Z.of_nat (6 - Z.to_nat (k + 1))) with (k - 5) by lia; reflexivity|].
        exists (firstn (Z.to_nat (k + 1)) ds), f0, []. split; [rewrite W, app_nil_r; reflexivity|]. split; [apply firstn_nonempty; [lia|exact N]|]. split; [intros i' E; exfalso; exact (Lead (Z.to_nat (k + 1)) i' ltac:(lia) E)|]. split; [exact Zf|]. left. split; [lia|reflexivity].
Qed.

(** * What operator>> reads *)
Lemma get_sign_sign s sg t : sign_text s sg -> (match t with c :: _ => c <> "-"%char /\ c <> "+"%char | [] => True end) -> get_sign (sg ++ t) = (s, t).
Proof.
  intros S T. destruct s; cbn [sign_text] in S.
  - subst. reflexivity.
  - destruct S as [->| ->]; [|reflexivity]. destruct t as [|c t]; [reflexivity|]. destruct T as [T1 T2]. cbn [app get_sign]. destruct c as [[] [] [] [] [] [] [] []]; try reflexivity; exfalso; congruence.
Qed.
Lemma digit_no_sign c : decimal_digit c -> c <> "-"%char /\ c <> "+"%char /\ c <> "."%char.
Proof. unfold decimal_digit. cbn. intros H. repeat (destruct H as [<-|H]; [repeat split; discriminate|]). contradiction. Qed.
Lemma digits_no_sign ds rest : ds <> [] -> Forall decimal_digit ds -> match ds ++ rest with c :: _ => c <> "-"%char /\ c <> "+"%char | [] => True end.
Proof. intros N D. destruct D as [|c ds Dc D]; [congruence|]. cbn. destruct (digit_no_sign c Dc) as (A & B & _). auto. Qed.
Lemma ends_digits rest : ends_number rest -> match rest with c :: _ => ~ decimal_digit c | [] => True end.
Proof. destruct rest; [auto|]. intros H. apply H. Qed.
Lemma e_no_digit c : (c = "e" \/ c = "E")%char -> ~ decimal_digit c.
Proof. intros [->| ->]; cbn; intuition discriminate. Qed.
Lemma get_exponent_text x ex rest : exponent_text x ex -> ends_number rest -> get_exponent (ex ++ rest) = Some x.
Proof.
  intros [(-> & ->)|(c & sg & ds & n & -> & C & N & D & R & S)] Er.
  - cbn [app]. destruct rest as [|c rest]; [reflexivity|]. destruct Er as (_ & _ & A & B). cbn [get_exponent]. unfold is_e. destruct (Ascii.eqb_spec c "e"%char); [contradiction|]. destruct (Ascii.eqb_spec c "E"%char); [contradiction|]. reflexivity.
  - cbn [app get_exponent]. replace (is_e c) with true by (destruct C; subst; reflexivity). rewrite <- app_assoc.
    assert (G : exists s, sign_text s sg /\ x = if s then - n else n) by (destruct S as [(S & ->)|(S & ->)]; [exists false|exists true]; split; auto). destruct G as (s & G & ->).
    rewrite (get_sign_sign s sg _ G (digits_no_sign ds rest N D)). rewrite (digits_of_app ds rest D (ends_digits rest Er)). rewrite (get_read ds n D R). destruct ds; [congruence|]. reflexivity.
Qed.
Section Format.
Variables prec emax : Z.
Notation get_float := (get_float prec emax).
Notation str_to_float := (str_to_float prec emax).
Notation to_float := (to_float prec emax).
Lemma number_head m e t rest : number_text m e t -> exists c t', t ++ rest = c :: t' /\ (decimal_digit c \/ c = "."%char).
Proof.
  intros (i & p & f & ex & x & -> & N & D & R & P & X & _). destruct i as [|c i].
  - destruct P as [(-> & ->)| ->]; [cbn in N; congruence|]. eexists _, _. split; [reflexivity|]. right. reflexivity.
  - inversion D; subst. eexists _, _. split; [reflexivity|]. left. assumption.
Qed.
Lemma get_float_text s sg m e t rest : sign_text s sg -> number_text m e t -> ends_number rest -> get_float (sg ++ t ++ rest) = to_float s m e.
Proof.
  intros S T Er. destruct (number_head m e t rest T) as (c & t' & Eh & Hc). unfold FloatTextModel.get_float. rewrite (get_sign_sign s sg (t ++ rest) S).
  2:{ rewrite Eh. destruct Hc as [Hc| ->]; [destruct (digit_no_sign c Hc) as (A & B & _); auto|split; discriminate]. }
  clear c t' Eh Hc. destruct T as (i & p & f & ex & x & -> & N & D & R & P & X & ->). apply Forall_app in D as D'. destruct D' as [Di Df]. rewrite <- !app_assoc.
  assert (Hx : match ex ++ rest with c :: _ => ~ decimal_digit c /\ c <> "."%char | [] => True end).
  { destruct X as [(-> & _)|(c & ? & ? & ? & -> & C & _)]; cbn [app]; [destruct rest; [exact I|]; split; apply Er|]. split; [apply e_no_digit, C|destruct C; subst; discriminate]. }
  assert (Hx' : match ex ++ rest with c :: _ => ~ decimal_digit c | [] => True end) by (destruct (ex ++ rest); [exact I|apply Hx]).
  assert (G : digits_of (i ++ p ++ f ++ ex ++ rest) = (i, p ++ f ++ ex ++ rest)).
  { apply digits_of_app; [exact Di|]. destruct P as [(-> & ->)| ->]; [exact Hx'|]. cbn. intuition discriminate. }
  rewrite G. assert (G2 : match p ++ f ++ ex ++ rest with "."%char :: t' => digits_of t' | _ => ([], p ++ f ++ ex ++ rest) end = (f, ex ++ rest)).
  { destruct P as [(-> & ->)| ->]; [|cbn [app]; apply digits_of_app; assumption]. cbn [app]. destruct (ex ++ rest) as [|c t]; [reflexivity|]. destruct Hx as [_ Hx]. destruct c as [[] [] [] [] [] [] [] []]; try reflexivity; exfalso; apply Hx; reflexivity. }
  rewrite G2, (get_exponent_text x ex rest X Er). pose proof (get_read _ _ D R) as <-. destruct (i ++ f); [congruence|]. reflexivity.
Qed.
Lemma no_blank c : decimal_digit c \/ c = "."%char \/ c = "-"%char \/ c = "+"%char -> is_space c = false.
Proof. unfold decimal_digit. cbn. intros H. repeat (destruct H as [H|H]; [|]; try contradiction). all: try (destruct H as [H|H]); subst; try reflexivity; try contradiction. Qed.
Lemma str_to_text ws s sg m e t rest : Forall blank ws -> sign_text s sg -> number_text m e t -> ends_number rest -> str_to_float (ws ++ sg ++ t ++ rest) = Ret (to_float s m e).
Proof.
  intros B S T Er. unfold FloatTextModel.str_to_float. rewrite skip_blank by exact B. destruct (number_head m e t rest T) as (c & t' & Eh & Hc).
  assert (Hd : exists c' t'', sg ++ t ++ rest = c' :: t'' /\ is_space c' = false).
  { destruct s; cbn [sign_text] in S; [subst; eexists _, _; split; reflexivity|]. destruct S as [->| ->]; [|eexists _, _; split; reflexivity]. cbn [app]. rewrite Eh. eexists _, _. split; [reflexivity|]. apply no_blank. tauto. }
  destruct Hd as (c' & t'' & E & Sp). assert (Sk : skip_ws (sg ++ t ++ rest) = sg ++ t ++ rest) by (rewrite E; cbn [skip_ws]; rewrite Sp; reflexivity). rewrite Sk, <- (get_float_text s sg m e t rest S T Er). rewrite E. reflexivity.
Qed.
(** texts without a number *)
Lemma str_to_other ws c s : Forall blank ws -> ~ blank c -> ~ decimal_digit c -> c <> "-"%char -> c <> "+"%char -> c <> "."%char -> str_to_float (ws ++ c :: s) = Ret (S754_zero false).
Proof.
  intros B NB ND M P Dt. unfold FloatTextModel.str_to_float. rewrite skip_blank by exact B. cbn [skip_ws]. destruct (is_space c) eqn:X; [apply is_space_blank in X; contradiction|]. f_equal. unfold FloatTextModel.get_float.
  pose proof (get_sign_sign false [] (c :: s) (or_introl eq_refl) (conj M P)) as G. cbn [app] in G. rewrite G. pose proof (digits_of_app [] (c :: s) (Forall_nil _) ND) as G2. cbn [app] in G2. rewrite G2.
  assert (G3 : match c :: s with "."%char :: t' => digits_of t' | _ => ([], c :: s) end = ([], c :: s)) by (destruct c as [[] [] [] [] [] [] [] []]; try reflexivity; exfalso; apply Dt; reflexivity). rewrite G3. reflexivity.
Qed.
(** an exponent without digits *)
Lemma str_to_no_exponent ws s sg m t c esg rest : Forall blank ws -> sign_text s sg -> (exists f, number_text m (- Z.of_nat f) t /\ ~ In "e"%char t /\ ~ In "E"%char t) -> (c = "e" \/ c = "E")%char ->
  (esg = [] \/ esg = ["-"%char] \/ esg = ["+"%char]) -> (match rest with c :: _ => ~ decimal_digit c /\ (esg = [] -> c <> "-"%char /\ c <> "+"%char) | [] => True end) ->
  str_to_float (ws ++ sg ++ t ++ c :: esg ++ rest) = Ret (S754_zero false).
Proof.
  intros B S (n & T & NE & NE') C Es Er. unfold FloatTextModel.str_to_float. rewrite skip_blank by exact B. destruct (number_head m _ t (c :: esg ++ rest) T) as (c1 & t' & Eh & Hc).
  assert (Hd : exists c' t'', sg ++ t ++ c :: esg ++ rest = c' :: t'' /\ is_space c' = false).
  { destruct s; cbn [sign_text] in S; [subst; eexists _, _; split; reflexivity|]. destruct S as [->| ->]; [|eexists _, _; split; reflexivity]. cbn [app]. rewrite Eh. eexists _, _. split; [reflexivity|]. apply no_blank. tauto. }
  destruct Hd as (c' & t'' & E & Sp). assert (Sk : skip_ws (sg ++ t ++ c :: esg ++ rest) = sg ++ t ++ c :: esg ++ rest) by (rewrite E; cbn [skip_ws]; rewrite Sp; reflexivity). rewrite Sk.
  assert (G0 : get_float (sg ++ t ++ c :: esg ++ rest) = S754_zero false); [|rewrite E in *; rewrite G0; reflexivity].
  unfold FloatTextModel.get_float. rewrite (get_sign_sign s sg _ S). 2:{ rewrite Eh. destruct Hc as [Hc| ->]; [destruct (digit_no_sign c1 Hc) as (A & B' & _); auto|split; discriminate]. }
  destruct T as (i & p & f & ex & x & -> & N & D & R & P & X & _). apply Forall_app in D as D'. destruct D' as [Di Df].
  assert (ex = []) as ->. { destruct X as [(-> & _)|(y & ? & ? & ? & -> & Y & _)]; [reflexivity|exfalso]. destruct Y as [->| ->]; [apply NE|apply NE']; rewrite !in_app_iff; do 3 right; left; reflexivity. }
  rewrite app_nil_r, <- !app_assoc. pose proof (e_no_digit c C) as Cd.
  assert (G : digits_of (i ++ p ++ f ++ c :: esg ++ rest) = (i, p ++ f ++ c :: esg ++ rest)) by (apply digits_of_app; [exact Di|]; destruct P as [(-> & ->)| ->]; [exact Cd|]; cbn; intuition discriminate).
  rewrite G. assert (G2 : match p ++ f ++ c :: esg ++ rest with "."%char :: t' => digits_of t' | _ => ([], p ++ f ++ c :: esg ++ rest) end = (f, c :: esg ++ rest)).
  { destruct P as [(-> & ->)| ->]; [|cbn [app]; apply digits_of_app; assumption]. cbn [app]. destruct C; subst; reflexivity. }
  rewrite G2. assert (G3 : get_exponent (c :: esg ++ rest) = None).
  { cbn [get_exponent]. replace (is_e c) with true by (destruct C; subst; reflexivity). assert (Gs : exists s', get_sign (esg ++ rest) = (s', rest)).
    { destruct Es as [->|[->| ->]]; [|exists true; reflexivity|exists false; reflexivity]. exists false. apply (get_sign_sign false [] rest (or_introl eq_refl)). destruct rest; [exact I|]. apply Er. reflexivity. }
    destruct Gs as (s' & ->). pose proof (digits_of_app [] rest (Forall_nil _)) as G4. cbn [app] in G4. rewrite G4; [reflexivity|]. destruct rest; [exact I|apply Er]. }
  rewrite G3. destruct (i ++ f); reflexivity.
Qed.
Lemma str_to_blank s : str_to_float s = Ub <-> Forall blank s.
Proof. rewrite <- skip_all. unfold FloatTextModel.str_to_float. destruct (skip_ws s); split; congruence. Qed.
End Format.
