(** Proofs about the conversions to and from text. *)
From Coq Require Import Ascii String List Bool Arith ZArith Lia.
From Verif Require Import Base DigitsSpec LogTextModel LogTextSpec LogTextProofs ConvModel ConvSpec.
Import ListNotations.
Open Scope list_scope.

Lemma is_space_blank c : is_space c = true <-> blank c.
Proof.
  unfold blank. split.
  - destruct c as [[] [] [] [] [] [] [] []]; vm_compute; intros H; try discriminate; tauto.
  - cbn [In]. intros [<-|[<-|[<-|[<-|[<-|[<-|[]]]]]]]; reflexivity.
Qed.
Lemma digit_val_digit c : (exists d, digit_val c = Some d) <-> decimal_digit c.
Proof.
  unfold decimal_digit. split.
  - intros (d & H). destruct c as [[] [] [] [] [] [] [] []]; vm_compute in H; try discriminate; vm_compute; tauto.
  - cbn [In]. intros H. repeat (destruct H as [<-|H]; [eexists; reflexivity|]). destruct H.
Qed.
Lemma digit_val_of c d : digit_val c = Some d -> digit_of c = Some d /\ (0 <= d < 10)%Z.
Proof.
  unfold digit_val, digit_of. destruct (Z.leb_spec 48 (Z.of_N (N_of_ascii c))); cbn [andb]; [|discriminate].
  destruct (Z.leb_spec (Z.of_N (N_of_ascii c)) 57); [|discriminate]. intros [= <-]. split; [reflexivity|lia].
Qed.
Lemma skip_blank ws s : Forall blank ws -> skip_ws (ws ++ s) = skip_ws s.
Proof. induction 1 as [|c ws H _ IH]; [reflexivity|]. cbn. apply is_space_blank in H. rewrite H. exact IH. Qed.
Lemma skip_all s : skip_ws s = [] <-> Forall blank s.
Proof.
  induction s as [|c s IH]; [split; [constructor|reflexivity]|]. cbn. destruct (is_space c) eqn:S.
  - rewrite IH, Forall_cons_iff. apply is_space_blank in S. tauto.
  - split; [discriminate|]. intros F. inversion F as [|x y B _]; subst. apply is_space_blank in B. congruence.
Qed.
Lemma read_from ds : forall n m, fold_left (read_digit 10) ds (Some n) = Some m -> forall rest,
  Forall decimal_digit ds -> (match rest with c :: _ => ~ decimal_digit c | [] => True end) -> get_digits (ds ++ rest) n = m.
Proof.
  induction ds as [|c ds IH]; intros n m R rest F N.
  - cbn in R |- *. injection R as <-. destruct rest as [|c rest]; [reflexivity|]. cbn. destruct (digit_val c) eqn:D; [|reflexivity].
    exfalso. apply N, digit_val_digit. eauto.
  - inversion F as [|x y Dc F']; subst. apply digit_val_digit in Dc. destruct Dc as (d & Hd). cbn [app get_digits]. rewrite Hd.
    apply digit_val_of in Hd. destruct Hd as [Hd B]. cbn [fold_left] in R. unfold read_digit in R at 2. rewrite Hd in R.
    destruct (Z.ltb_spec d 10); [|lia]. replace (10 * n + d)%Z with (n * 10 + d)%Z by lia. apply IH; assumption.
Qed.
Lemma read_nonneg ds : forall n m, fold_left (read_digit 10) ds (Some n) = Some m -> (0 <= n)%Z -> Forall decimal_digit ds -> (0 <= m)%Z.
Proof.
  induction ds as [|c ds IH]; intros n m R Hn F; [cbn in R; congruence|]. inversion F as [|x y Dc F']; subst.
  apply digit_val_digit in Dc. destruct Dc as (d & Hd). apply digit_val_of in Hd. destruct Hd as [Hd B].
  cbn [fold_left] in R. unfold read_digit in R at 2. rewrite Hd in R. destruct (Z.ltb_spec d 10); [|lia]. apply (IH _ _ R); [lia|assumption].
Qed.
Lemma digit_not c : decimal_digit c -> is_space c = false /\ c <> "-"%char /\ c <> "+"%char.
Proof. intros H. cbn [decimal_digit In] in H. repeat (destruct H as [<-|H]; [repeat split; discriminate|]). destruct H. Qed.
Lemma sign_digits ds rest : ds <> [] -> Forall decimal_digit ds -> get_sign (ds ++ rest) = (false, ds ++ rest).
Proof.
  destruct ds as [|c ds]; [congruence|]. intros _ F. inversion F as [|x y Dc _]; subst. apply digit_not in Dc. destruct Dc as (_ & A & B). cbn [app].
  unfold get_sign. destruct c as [[] [] [] [] [] [] [] []]; try reflexivity; exfalso; congruence.
Qed.
Lemma skip_digits ds rest : ds <> [] -> Forall decimal_digit ds -> skip_ws (ds ++ rest) = ds ++ rest.
Proof. destruct ds as [|c ds]; [congruence|]. intros _ F. inversion F as [|x y Dc _]; subst. apply digit_not in Dc. destruct Dc as (A & _). cbn. rewrite A. reflexivity. Qed.
Lemma ub_proof signed w s : str_to_int signed w s = Ub <-> Forall blank s.
Proof.
  rewrite <- skip_all. unfold str_to_int. destruct (skip_ws s) as [|c t]; [tauto|]. destruct (get_sign (c :: t)). split; discriminate.
Qed.
Lemma defined_proof signed w s : ~ Forall blank s -> exists v, str_to_int signed w s = Ret v.
Proof. rewrite <- skip_all. unfold str_to_int. destruct (skip_ws s) as [|c t]; [tauto|]. destruct (get_sign (c :: t)). eauto. Qed.
Lemma ub_bool_proof s : str_to_bool s = Ub <-> Forall blank s.
Proof. rewrite <- (ub_proof true 64). unfold str_to_bool. destruct (str_to_int true 64 s); split; congruence. Qed.
Lemma ub_char_proof s : str_to_char s = Ub <-> Forall blank s.
Proof. rewrite <- skip_all. unfold str_to_char. destruct (skip_ws s); split; congruence. Qed.

Lemma read_number v s : begins_with_number v s -> exists (neg : bool) (n : Z), (0 <= n)%Z /\ v = (if neg then - n else n)%Z /\
  forall signed w, str_to_int signed w s = Ret (convert signed w neg n).
Proof.
  intros (ws & sign & ds & rest & m & -> & B & N & D & R & Re & S).
  assert (M : (0 <= m)%Z) by (apply (read_nonneg ds 0 m R); [lia|exact D]).
  assert (G : get_digits (ds ++ rest) 0 = m) by (apply (read_from ds 0 m R); assumption).
  destruct S as [[[->| ->] ->]|[-> ->]].
  - exists false, m. split; [exact M|]. split; [reflexivity|]. intros signed w. unfold str_to_int. rewrite skip_blank by exact B. cbn [app].
    rewrite skip_digits by assumption. pose proof (sign_digits ds rest N D) as X. destruct (ds ++ rest) eqn:Y; [apply app_eq_nil in Y; tauto|].
    rewrite X, G. reflexivity.
  - exists false, m. split; [exact M|]. split; [reflexivity|]. intros signed w. unfold str_to_int. rewrite skip_blank by exact B. cbn. rewrite G. reflexivity.
  - exists true, m. split; [exact M|]. split; [reflexivity|]. intros signed w. unfold str_to_int. rewrite skip_blank by exact B. cbn. rewrite G. reflexivity.
Qed.
Lemma convert_nearest signed w (neg : bool) (n v : Z) : (0 < w)%Z -> (0 <= n)%Z -> v = (if neg then - n else n)%Z -> (signed = true \/ (0 <= v)%Z) ->
  nearest signed w v (convert signed w neg n).
Proof.
  intros W N -> S. unfold nearest, convert, representable, lo, hi. pose proof (Z.pow_pos_nonneg 2 (w - 1)). pose proof (Z.pow_pos_nonneg 2 w).
  destruct signed; [split; [lia|]; intros; lia|]. destruct S as [S|S]; [discriminate|].
  destruct (Z.ltb_spec (2 ^ w - 1) n) as [L|L]; [split; [lia|]; intros r' Hr; destruct neg; lia|].
  destruct neg.
  - assert (n = 0)%Z by lia. subst n. change (- 0)%Z with 0%Z. rewrite Zmod_0_l. split; [lia|]. intros. lia.
  - split; [lia|]. intros. lia.
Qed.
Lemma number_proof signed w v s : (0 < w)%Z -> begins_with_number v s -> (signed = true \/ (0 <= v)%Z) ->
  exists r, str_to_int signed w s = Ret r /\ nearest signed w v r.
Proof.
  intros W B S. destruct (read_number v s B) as (neg & n & N & V & E). exists (convert signed w neg n). split; [apply E|]. apply convert_nearest; assumption.
Qed.
Lemma nearest_self signed w v r : representable signed w v -> nearest signed w v r -> r = v.
Proof. intros R (_ & H). specialize (H v R). lia. Qed.

(** ** what operator<< writes *)
Lemma is_digit_decimal c : is_digit c -> decimal_digit c.
Proof.
  intros (d & Hd & ->). assert (D : (d = 0 \/ d = 1 \/ d = 2 \/ d = 3 \/ d = 4 \/ d = 5 \/ d = 6 \/ d = 7 \/ d = 8 \/ d = 9)%Z) by lia.
  unfold decimal_digit. repeat (destruct D as [->|D]; [vm_compute; tauto|]). subst. vm_compute. tauto.
Qed.
Lemma value_read ds : Forall decimal_digit ds -> read 10 ds = Some (value ds).
Proof.
  unfold read. induction ds as [|c ds IH] using rev_ind; intros F; [reflexivity|]. apply Forall_app in F. destruct F as [F1 F2]. inversion F2 as [|x y Dc _]; subst.
  rewrite fold_left_app, IH by exact F1. cbn. rewrite value_snoc. apply digit_val_digit in Dc. destruct Dc as (d & Hd).
  pose proof Hd as Hv. unfold digit_val in Hv. apply digit_val_of in Hd. destruct Hd as [Hd B]. rewrite Hd. destruct (Z.ltb_spec d 10); [|lia].
  destruct ((48 <=? Z.of_N (N_of_ascii c)) && (Z.of_N (N_of_ascii c) <=? 57))%Z; [|discriminate]. injection Hv as Hv. f_equal. lia.
Qed.
Lemma digits_nonempty fuel n : dec_digits (S fuel) n <> [].
Proof. cbn. destruct (n <? 10)%Z; [discriminate|]. destruct (dec_digits fuel (n / 10)); discriminate. Qed.
Lemma digits_lead fuel : forall n, (0 <= n < 2 ^ Z.of_nat fuel)%Z -> forall ds, dec_digits fuel n = "0"%char :: ds -> ds = [].
Proof.
  induction fuel as [|f IH]; intros n H ds E; [discriminate|]. cbn [dec_digits] in E. destruct (Z.ltb_spec n 10) as [L|L]; [injection E; congruence|].
  assert (H' : (0 < n / 10 < 2 ^ Z.of_nat f)%Z).
  { rewrite Nat2Z.inj_succ, Z.pow_succ_r in H by lia. split; [apply Z.div_str_pos; lia|]. apply Z.div_lt_upper_bound; lia. }
  destruct (dec_digits f (n / 10)) as [|c t] eqn:D.
  - exfalso. destruct f; [cbn in H'; lia|]. apply (digits_nonempty f (n / 10)%Z D).
  - cbn in E. injection E as -> E. assert (t = []) as -> by (apply (IH (n / 10)%Z); [lia|exact D]).
    exfalso. assert (V : value (dec_digits f (n / 10)) = (n / 10)%Z) by (apply digits_value; lia). rewrite D in V. cbn in V. lia.
Qed.
Lemma digits_numeral n : (0 <= n)%Z -> numeral 10 n (dec_digits (S (Z.to_nat (Z.log2 n))) n).
Proof.
  intros H. pose proof (fuel_enough n H) as F. split; [apply digits_nonempty|]. split.
  - rewrite value_read; [rewrite digits_value by lia; reflexivity|]. eapply Forall_impl; [apply is_digit_decimal|apply digits_digits, H].
  - apply digits_lead. lia.
Qed.
Lemma decimal_proof v : decimal v (str_int v).
Proof.
  unfold decimal, str_int, dec. destruct (Z.ltb_spec v 0) as [L|L]; eexists; (split; [|reflexivity]).
  - rewrite Z.abs_neq by lia. apply digits_numeral. lia.
  - rewrite Z.abs_eq by lia. apply digits_numeral. lia.
Qed.
Lemma str_begins v : begins_with_number v (str_int v).
Proof.
  destruct (decimal_proof v) as (ds & (N & R & _) & E). pose proof E as E'. unfold str_int, dec in E'.
  assert (D : Forall decimal_digit ds).
  { eapply Forall_impl; [apply is_digit_decimal|]. destruct (Z.ltb_spec v 0).
    - apply (f_equal (@tl ascii)) in E'. cbn [tl] in E'. rewrite <- E'. apply digits_digits. lia.
    - rewrite <- E'. apply digits_digits. lia. }
  exists [], (if (v <? 0)%Z then ["-"%char] else []), ds, [], (Z.abs v). repeat split; try assumption.
  - rewrite app_nil_r, E. destruct (v <? 0)%Z; reflexivity.
  - constructor.
  - destruct (Z.ltb_spec v 0); [right; split; [reflexivity|lia]|left; split; [left; reflexivity|lia]].
Qed.
Lemma round_trip_proof signed w v : (0 < w)%Z -> representable signed w v -> str_to_int signed w (str_int v) = Ret v.
Proof.
  intros W R. destruct (number_proof signed w v _ W (str_begins v)) as (r & -> & N).
  - destruct signed; [left; reflexivity|right]. cbn in R. lia.
  - f_equal. eapply nearest_self; eassumption.
Qed.
Lemma round_trip_bool b : str_to_bool (str_bool b) = Ret b.
Proof. destruct b; reflexivity. Qed.
(** ** no number *)
Lemma no_number_proof signed w ws c s : (0 < w)%Z -> Forall blank ws -> ~ blank c -> ~ decimal_digit c -> c <> "-"%char -> c <> "+"%char ->
  str_to_int signed w (ws ++ c :: s) = Ret 0%Z.
Proof.
  intros W B NB ND M P. unfold str_to_int. rewrite skip_blank by exact B. cbn [skip_ws]. destruct (is_space c) eqn:X; [apply is_space_blank in X; contradiction|].
  assert (G : get_sign (c :: s) = (false, c :: s)) by (unfold get_sign; destruct c as [[] [] [] [] [] [] [] []]; try reflexivity; exfalso; congruence).
  rewrite G. cbn. destruct (digit_val c) eqn:D; [exfalso; apply ND, digit_val_digit; eauto|]. f_equal.
  unfold convert, lo, hi. pose proof (Z.pow_pos_nonneg 2 (w - 1)). pose proof (Z.pow_pos_nonneg 2 w).
  destruct signed; [lia|]. destruct (Z.ltb_spec (2 ^ w - 1) 0); [lia|reflexivity].
Qed.
(** ** characters and strings *)
Lemma char_proof c : (~ blank c -> str_to_char (str_char c) = Ret c) /\ (blank c -> str_to_char (str_char c) = Ub).
Proof.
  unfold str_to_char, str_char. cbn. destruct (is_space c) eqn:S; split; intros H; try reflexivity; exfalso; apply is_space_blank in S || idtac; try contradiction.
  apply is_space_blank in H. congruence.
Qed.
Lemma word_prefix s : exists rest, s = get_word s ++ rest /\ Forall (fun c => ~ blank c) (get_word s) /\ match rest with c :: _ => blank c | [] => True end.
Proof.
  induction s as [|c s (rest & E & F & H)]; [exists []; repeat split; constructor|]. cbn. destruct (is_space c) eqn:S.
  - exists (c :: s). repeat split; [constructor|]. apply is_space_blank, S.
  - exists rest. cbn. rewrite <- E. repeat split; [|exact H]. constructor; [|exact F]. intros B. apply is_space_blank in B. congruence.
Qed.
Lemma skip_split s : exists ws, s = ws ++ skip_ws s /\ Forall blank ws.
Proof.
  induction s as [|c s (ws & E & F)]; [exists []; split; [reflexivity|constructor]|]. cbn. destruct (is_space c) eqn:S.
  - exists (c :: ws). cbn. rewrite <- E. split; [reflexivity|]. constructor; [apply is_space_blank, S|exact F].
  - exists []. split; [reflexivity|constructor].
Qed.
Lemma skip_head s : match skip_ws s with c :: _ => ~ blank c | [] => True end.
Proof.
  induction s as [|c s IH]; [exact I|]. cbn. destruct (is_space c) eqn:S; [exact IH|]. intros B. apply is_space_blank in B. congruence.
Qed.
Lemma string_proof s : exists ws word rest, s = ws ++ word ++ rest /\ str_to_string s = Ret word /\ Forall blank ws /\ Forall (fun c => ~ blank c) word /\
  (word = [] -> rest = []) /\ match rest with c :: _ => blank c | [] => True end.
Proof.
  destruct (skip_split s) as (ws & E & F). destruct (word_prefix (skip_ws s)) as (rest & E' & F' & H).
  exists ws, (get_word (skip_ws s)), rest. rewrite <- E'. repeat split; try assumption. intros X. rewrite X in E'. cbn in E'.
  pose proof (skip_head s) as K. rewrite E' in K. destruct rest; [reflexivity|contradiction].
Qed.
Lemma string_round_trip s : str_to_string (str_string s) = Ret s <-> Forall (fun c => ~ blank c) s.
Proof.
  unfold str_to_string, str_string. split.
  - intros [= E]. rewrite <- E. destruct (word_prefix (skip_ws s)) as (_ & _ & F & _). exact F.
  - intros F. f_equal. assert (S : skip_ws s = s).
    { destruct F as [|c s H _]; [reflexivity|]. cbn. destruct (is_space c) eqn:S; [apply is_space_blank in S; contradiction|reflexivity]. }
    rewrite S. clear S. induction F as [|c s H F IH]; [reflexivity|]. cbn. destruct (is_space c) eqn:S; [apply is_space_blank in S; contradiction|]. rewrite IH. reflexivity.
Qed.
(** ** every other text that has a bool or a character in it *)
Lemma bool_number v s : begins_with_number v s -> str_to_bool s = Ret (negb (v =? 0)%Z).
Proof.
  intros B. destruct (number_proof true 64 v s) as (r & E & N); [lia|exact B|left; reflexivity|]. unfold str_to_bool. rewrite E. f_equal.
  destruct N as [R H]. unfold representable in *. cbn [Z.sub] in *. specialize (H 0%Z).
  destruct (Z.eqb_spec r 0) as [->|Nr], (Z.eqb_spec v 0) as [->|Nv]; try reflexivity; exfalso.
  - assert (X : (v < 0 \/ 0 < v)%Z) by lia.
    destruct (number_proof true 64 v s) as (r & E' & _ & H'); [lia|exact B|left; reflexivity|]. rewrite E in E'. injection E' as <-.
    specialize (H' (if v <? 0 then -1 else 1)%Z). unfold representable in H'. destruct (Z.ltb_spec v 0); lia.
  - lia.
Qed.
Lemma bool_written b : str_bool b = [if b then "1"%char else "0"%char].
Proof. destruct b; reflexivity. Qed.
Lemma char_first ws c s : Forall blank ws -> ~ blank c -> str_to_char (ws ++ c :: s) = Ret c.
Proof.
  intros B N. unfold str_to_char. rewrite skip_blank by exact B. cbn. destruct (is_space c) eqn:X; [apply is_space_blank in X; contradiction|reflexivity].
Qed.
