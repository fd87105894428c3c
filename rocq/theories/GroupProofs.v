(** Proofs about numbers with digits in groups. *)
From Coq Require Import Ascii String List Bool Arith ZArith Lia.
From Verif Require Import Base DigitsSpec LogTextModel LogTextSpec LogTextProofs ConvModel ConvSpec ConvProofs GroupModel GroupSpec.
Import ListNotations.
Local Open Scope nat_scope.
Local Open Scope list_scope.

(** * Writing *)
Lemma size_shift n g k : size (n :: g) (S k) = size (match g with [] => [n] | _ => g end) k.
Proof. destruct g as [|m g]; unfold size; cbn [nth last]; [destruct k as [|[|k]]; reflexivity|reflexivity]. Qed.
Lemma full_shift n g groups : forall k, full (n :: g) (S k) groups <-> full (match g with [] => [n] | _ => g end) k groups.
Proof.
  induction groups as [|t groups IH]; intros k; [reflexivity|]. cbn [full]. rewrite size_shift. destruct groups as [|t' groups]; [reflexivity|].
  rewrite IH. reflexivity.
Qed.
Lemma size_first n g : size (n :: g) 0 = if limits n then Some (Z.to_nat n) else None.
Proof.
  unfold size, limits. cbn [nth]. destruct (Z.leb_spec n 0), (Z.ltb_spec 0 n); try lia; cbn [orb andb]; try reflexivity.
  destruct (Z.leb_spec 127 n), (Z.ltb_spec n 127); try lia; reflexivity.
Qed.
Lemma separated_snoc sp l t : l <> [] -> separated sp (l ++ [t]) = separated sp l ++ sp :: t.
Proof.
  induction l as [|x l IH]; [congruence|]. intros _. destruct l as [|y l]; [reflexivity|].
  cbn [app separated] in *. rewrite IH by discriminate. rewrite <- app_assoc. reflexivity.
Qed.
Lemma put_groups_proof sp fuel : forall g ds, length ds <= fuel -> exists groups, groups <> [] /\ concat groups = ds /\ full g 0 (rev groups) /\
  put_groups fuel sp g ds = separated sp groups /\ (ds <> [] -> Forall (fun x => x <> []) groups).
Proof.
  assert (Base : forall g ds, (forall n, size g 0 = Some n -> length ds <= n) -> exists groups : list text, groups <> [] /\ concat groups = ds /\ full g 0 (rev groups) /\
    ds = separated sp groups /\ (ds <> [] -> Forall (fun x => x <> []) groups)).
  { intros g ds H. exists [ds]. cbn. rewrite app_nil_r. repeat split; try discriminate; try assumption. intros N. constructor; [exact N|constructor]. }
  induction fuel as [|fuel IH]; intros g ds L.
  - cbn [put_groups]. apply Base. intros n _. lia.
  - destruct g as [|n g]; [cbn [put_groups]; apply Base; discriminate|]. cbn [put_groups].
    destruct (limits n) eqn:Li; cbn [andb]; [|apply Base; rewrite size_first, Li; discriminate].
    destruct (Nat.ltb_spec (Z.to_nat n) (length ds)) as [H|H]; [|apply Base; rewrite size_first, Li; intros m [= <-]; exact H].
    assert (P : 0 < Z.to_nat n). { unfold limits in Li. apply andb_true_iff in Li. destruct Li as [Li _]. apply Z.ltb_lt in Li. lia. }
    set (k := length ds - Z.to_nat n).
    destruct (IH (match g with [] => n :: g | _ => g end) (firstn k ds)) as (groups & NE & C & F & E & N).
    { rewrite firstn_length. lia. }
    exists (groups ++ [skipn k ds]). split; [destruct groups; discriminate|]. split; [|split; [|split]].
    + rewrite concat_app, C. cbn. rewrite app_nil_r. apply firstn_skipn.
    + rewrite rev_app_distr. cbn [rev app]. assert (R : rev groups <> []). { intros R. apply NE. rewrite <- (rev_involutive groups), R. reflexivity. }
      destruct (rev groups) as [|t r] eqn:Er; [congruence|]. cbn [full]. split.
      * rewrite size_first, Li, skipn_length. unfold k. f_equal. lia.
      * apply (full_shift n g (t :: r) 0). destruct g; exact F.
    + rewrite E, separated_snoc by exact NE. reflexivity.
    + intros _. apply Forall_app. split.
      * apply N. intros Z0. apply (f_equal (@length ascii)) in Z0. rewrite firstn_length in Z0. cbn in Z0. lia.
      * constructor; [|constructor]. intros Z0. apply (f_equal (@length ascii)) in Z0. rewrite skipn_length in Z0. cbn in Z0. lia.
Qed.

(** what [dec] is made of *)
Lemma dec_parts v : exists sign ds, dec v = sign ++ ds /\ (sign = [] /\ (0 <= v)%Z \/ sign = ["-"%char] /\ (v < 0)%Z) /\ ds <> [] /\
  Forall decimal_digit ds /\ read 10 ds = Some (Z.abs v) /\ (forall p, put_int p v = sign ++ put_digits p ds).
Proof.
  destruct (decimal_proof v) as (ds & (N & R & _) & E). unfold ConvModel.str_int in E.
  assert (D : Forall decimal_digit ds).
  { eapply Forall_impl; [apply is_digit_decimal|]. unfold dec in E. destruct (Z.ltb_spec v 0).
    - apply (f_equal (@tl ascii)) in E. cbn [tl] in E. rewrite <- E. apply digits_digits. lia.
    - rewrite <- E. apply digits_digits. lia. }
  exists (if (v <? 0)%Z then ["-"%char] else []), ds. split; [rewrite E; destruct (v <? 0)%Z; reflexivity|]. split.
  { destruct (Z.ltb_spec v 0); [right|left]; split; (reflexivity || assumption). }
  repeat split; try assumption. intros p. unfold put_int. rewrite E. destruct (v <? 0)%Z; [reflexivity|].
  destruct ds as [|c ds]; [congruence|]. inversion D as [|x y Dc _]; subst. apply digit_not in Dc. destruct Dc as (_ & A & _). cbn [app].
  destruct c as [[] [] [] [] [] [] [] []]; try reflexivity; exfalso; congruence.
Qed.
Lemma grouped_proof p v : grouped_decimal (grouping p) (sep p) v (GroupModel.str_int p v).
Proof.
  destruct (dec_parts v) as (sign & ds & E & S & N & D & R & P). unfold grouped_decimal, GroupModel.str_int.
  exists (dec v), sign, ds, (put_digits p ds). split; [apply decimal_proof|]. split; [exact E|]. split; [tauto|]. split; [exact D|]. split; [apply P|].
  unfold put_digits. destruct (put_groups_proof (sep p) (length ds) (grouping p) ds (le_n _)) as (groups & _ & C & F & E' & Ne).
  exists groups. repeat split; assumption.
Qed.
Lemma put_groups_none fuel sp g ds : (forall n, size g 0 <> Some n) -> put_groups fuel sp g ds = ds.
Proof.
  destruct fuel, g as [|n g]; try reflexivity. intros H. cbn [put_groups]. specialize (H (Z.to_nat n)). rewrite size_first in H.
  destruct (limits n); [congruence|reflexivity].
Qed.
Lemma no_grouping_proof p v : size (grouping p) 0 = None -> GroupModel.str_int p v = ConvModel.str_int v.
Proof.
  intros H. destruct (dec_parts v) as (sign & ds & E & _ & _ & _ & _ & P). unfold GroupModel.str_int, ConvModel.str_int. rewrite P, E.
  unfold put_digits. rewrite put_groups_none; [reflexivity|congruence].
Qed.

Lemma filter_separated sp groups : Forall (fun c => c <> sp) (concat groups) -> filter (fun c => negb (Ascii.eqb c sp)) (separated sp groups) = concat groups.
Proof.
  assert (K : forall t, Forall (fun c => c <> sp) t -> filter (fun c => negb (Ascii.eqb c sp)) t = t).
  { induction 1 as [|c t H _ IH]; [reflexivity|]. cbn. apply Ascii.eqb_neq in H. rewrite H. cbn. rewrite IH. reflexivity. }
  induction groups as [|t groups IH]; intros F; [reflexivity|]. cbn [concat] in F. apply Forall_app in F. destruct F as [F1 F2].
  destruct groups as [|t' groups]; [cbn [separated concat]; rewrite app_nil_r; apply K, F1|].
  specialize (IH F2). cbn [separated concat] in *. rewrite filter_app, K by exact F1. cbn [filter]. rewrite Ascii.eqb_refl. cbn [negb]. rewrite IH. reflexivity.
Qed.
Lemma digit_not_sep sp ds : ~ decimal_digit sp -> Forall decimal_digit ds -> Forall (fun c => c <> sp) ds.
Proof. intros S D. eapply Forall_impl; [|exact D]. intros c H ->. exact (S H). Qed.
Lemma strip_proof p v : ~ decimal_digit (sep p) -> sep p <> "-"%char ->
  filter (fun c => negb (Ascii.eqb c (sep p))) (GroupModel.str_int p v) = ConvModel.str_int v.
Proof.
  intros S M. destruct (dec_parts v) as (sign & ds & E & Sg & N & D & R & P). unfold GroupModel.str_int, ConvModel.str_int. rewrite P, E, filter_app.
  destruct (put_groups_proof (sep p) (length ds) (grouping p) ds (le_n _)) as (groups & _ & C & F & E' & Ne). unfold put_digits. rewrite E'.
  rewrite filter_separated, C by (rewrite C; apply digit_not_sep; assumption).
  destruct Sg as [[-> _]|[-> _]]; [reflexivity|]. cbn [filter]. destruct (Ascii.eqb_spec "-" (sep p)); [congruence|reflexivity].
Qed.

(** * Reading *)
Lemma get_digits_filter p t : forall n, GroupModel.get_digits p t n = ConvModel.get_digits (filter (fun c => negb (discards p c)) t) n.
Proof.
  induction t as [|c t IH]; intros n; [reflexivity|]. cbn [GroupModel.get_digits filter]. destruct (discards p c); cbn [negb]; [apply IH|].
  cbn [ConvModel.get_digits]. destruct (digit_val c); [apply IH|reflexivity].
Qed.
Lemma no_discard p t : Forall (fun c => discards p c = false) t -> filter (fun c => negb (discards p c)) t = t.
Proof. induction 1 as [|c t H _ IH]; [reflexivity|]. cbn. rewrite H. cbn. rewrite IH. reflexivity. Qed.
Lemma discards_not p c : c <> sep p -> discards p c = false.
Proof. intros H. unfold discards. destruct (grouping p); [reflexivity|]. apply Ascii.eqb_neq, H. Qed.
Lemma discards_digits p ds : ~ decimal_digit (sep p) -> Forall decimal_digit ds -> Forall (fun c => discards p c = false) ds.
Proof. intros S D. eapply Forall_impl; [|apply digit_not_sep; eassumption]. intros c. apply discards_not. Qed.
Lemma discards_sep p : grouping p <> [] -> forall c, discards p c = Ascii.eqb c (sep p).
Proof. intros N c. unfold discards. destruct (grouping p); [congruence|reflexivity]. Qed.

(** a text of digits in groups, with or without a sign, is read as the number of its digits *)
Lemma read_groups p signed w v sign groups rest : (0 < w)%Z -> representable signed w v -> grouping p <> [] ->
  ~ decimal_digit (sep p) -> sep p <> "-"%char -> sep p <> "+"%char ->
  Forall (Forall decimal_digit) groups -> Forall (fun x => x <> []) groups -> groups <> [] ->
  (match rest with c :: _ => ~ decimal_digit c /\ c <> sep p | [] => True end) ->
  (exists m, read 10 (concat groups) = Some m /\ ((sign = [] \/ sign = ["+"%char]) /\ v = m \/ sign = ["-"%char] /\ v = (- m)%Z)) ->
  GroupModel.str_to_int p signed w (sign ++ separated (sep p) groups ++ rest) = Ret v.
Proof.
  intros W Rv G Sd Sm Sp Dg Ne NE Rest (m & Rm & Sg).
  assert (D : Forall decimal_digit (concat groups)). { clear - Dg. induction Dg; cbn; [constructor|apply Forall_app; split; assumption]. }
  assert (NC : concat groups <> []). { destruct groups as [|[|c t] groups]; [congruence|inversion Ne; congruence|discriminate]. }
  set (t := separated (sep p) groups ++ rest).
  assert (Hd : exists c t', t = c :: t' /\ decimal_digit c).
  { unfold t. destruct groups as [|[|c x] groups]; [congruence|inversion Ne; congruence|]. inversion Dg as [|? ? Dx _]; subst. inversion Dx; subst.
    destruct groups as [|y groups]; cbn [separated app]; eauto. }
  assert (GD : GroupModel.get_digits p t 0 = m).
  { rewrite get_digits_filter. unfold t. rewrite filter_app.
    replace (filter (fun c => negb (discards p c)) (separated (sep p) groups)) with (concat groups).
    - apply read_from; [exact Rm|exact D|]. destruct rest as [|c rest]; [exact I|]. destruct Rest as [R1 R2]. cbn [filter]. rewrite discards_not by exact R2. cbn. exact R1.
    - rewrite <- (filter_separated (sep p) groups) at 1 by (apply digit_not_sep; assumption). apply filter_ext. intros c. rewrite discards_sep by exact G. reflexivity. }
  assert (M0 : (0 <= m)%Z) by (eapply read_nonneg; [exact Rm|lia|exact D]).
  assert (Fin : forall neg, v = (if neg : bool then - m else m)%Z -> convert signed w neg m = v).
  { intros neg Ev. eapply nearest_self; [exact Rv|]. apply convert_nearest; [exact W|exact M0|exact Ev|]. destruct signed; [left; reflexivity|right]. cbn in Rv. lia. }
  destruct Hd as (c & t' & Et & Dc). pose proof (digit_not c Dc) as (Sc & _).
  assert (Cs : c <> sep p) by (intros ->; exact (Sd Dc)).
  unfold GroupModel.str_to_int.
  destruct Sg as [[[->| ->] Ev]|[-> Ev]].
  - cbn [app]. rewrite Et. cbn [skip_ws]. rewrite Sc. cbn [drop_seps]. rewrite (discards_not p c Cs). rewrite <- Et.
    replace (get_sign t) with (false, t); [rewrite GD, (Fin false Ev); reflexivity|]. symmetry. rewrite Et. apply (sign_digits [c] t'); [discriminate|]. constructor; [exact Dc|constructor].
  - change (skip_ws (["+"%char] ++ t)) with ("+"%char :: t). cbn iota. cbn [drop_seps]. rewrite (discards_not p "+"%char) by congruence. cbn [get_sign].
    rewrite GD, (Fin false Ev). reflexivity.
  - change (skip_ws (["-"%char] ++ t)) with ("-"%char :: t). cbn iota. cbn [drop_seps]. rewrite (discards_not p "-"%char) by congruence. cbn [get_sign].
    rewrite GD, (Fin true Ev). reflexivity.
Qed.

Lemma no_sep_proof p signed w s : (grouping p <> [] -> ~ In (sep p) s) -> GroupModel.str_to_int p signed w s = ConvModel.str_to_int signed w s.
Proof.
  intros H. assert (F : Forall (fun c => discards p c = false) s).
  { apply Forall_forall. intros c Hc. unfold discards. destruct (grouping p) eqn:G; [reflexivity|]. apply Ascii.eqb_neq. intros ->. apply H; [discriminate|exact Hc]. }
  destruct (skip_split s) as (ws & E & _). unfold GroupModel.str_to_int, ConvModel.str_to_int.
  assert (F' : Forall (fun c => discards p c = false) (skip_ws s)). { rewrite E in F. apply Forall_app in F. tauto. }
  destruct (skip_ws s) as [|c t]; [reflexivity|]. cbn [drop_seps]. inversion F' as [|? ? Dc Ft]; subst. rewrite Dc.
  destruct (get_sign (c :: t)) as [neg t'] eqn:Es. rewrite get_digits_filter, no_discard; [reflexivity|].
  unfold get_sign in Es. destruct c as [[] [] [] [] [] [] [] []]; injection Es as <- <-; assumption.
Qed.
(** any text is read as the classic locale reads it without the separators *)
Lemma ignore_proof p signed w ws c s d u : Forall blank ws -> ~ blank c -> grouping p <> [] ->
  filter (fun x => negb (Ascii.eqb x (sep p))) (c :: s) = d :: u -> ~ blank d ->
  GroupModel.str_to_int p signed w (ws ++ c :: s) = ConvModel.str_to_int signed w (d :: u).
Proof.
  intros Bw Bc G Eu Bd.
  assert (Ns : forall x, ~ blank x -> is_space x = false). { intros x B. destruct (is_space x) eqn:S; [|reflexivity]. exfalso. apply B, is_space_blank, S. }
  unfold GroupModel.str_to_int. rewrite skip_blank by exact Bw. cbn [skip_ws]. rewrite (Ns c Bc).
  set (f := fun x => negb (Ascii.eqb x (sep p))) in *.
  assert (Ef : forall t, filter (fun x => negb (discards p x)) t = filter f t).
  { intros t. apply filter_ext. intros x. rewrite discards_sep by exact G. reflexivity. }
  assert (Dr : forall t, filter f t = d :: u -> exists u', drop_seps p t = d :: u' /\ filter f u' = u /\ f d = true).
  { induction t as [|x t IH]; [discriminate|]. cbn [filter drop_seps]. rewrite discards_sep by exact G. destruct (Ascii.eqb x (sep p)) eqn:E.
    - replace (f x) with false by (unfold f; rewrite E; reflexivity). exact IH.
    - assert (Fx : f x = true) by (unfold f; rewrite E; reflexivity). rewrite Fx. intros [= <- <-]. exists t. auto. }
  destruct (Dr _ Eu) as (u' & -> & Eu' & Fd). unfold ConvModel.str_to_int. cbn [skip_ws]. rewrite (Ns d Bd).
  assert (Gd : get_sign (d :: u') = (true, u') /\ get_sign (d :: u) = (true, u) \/ get_sign (d :: u') = (false, u') /\ get_sign (d :: u) = (false, u) \/
    get_sign (d :: u') = (false, d :: u') /\ get_sign (d :: u) = (false, d :: u)).
  { destruct d as [[] [] [] [] [] [] [] []]; cbn; tauto. }
  destruct Gd as [[-> ->]|[[-> ->]|[-> ->]]]; rewrite get_digits_filter, Ef; cbn [filter]; rewrite ?Fd, Eu'; reflexivity.
Qed.
Lemma only_seps_proof p signed w ws c s : (0 < w)%Z -> Forall blank ws -> ~ blank c -> grouping p <> [] -> Forall (fun x => x = sep p) (c :: s) ->
  GroupModel.str_to_int p signed w (ws ++ c :: s) = Ret 0%Z.
Proof.
  intros W Bw Bc G F. unfold GroupModel.str_to_int. rewrite skip_blank by exact Bw. cbn [skip_ws].
  destruct (is_space c) eqn:S; [exfalso; apply Bc, is_space_blank, S|].
  replace (drop_seps p (c :: s)) with (@nil ascii).
  - cbn. f_equal. assert (0 < 2 ^ (w - 1))%Z by (apply Z.pow_pos_nonneg; lia). assert (0 < 2 ^ w)%Z by (apply Z.pow_pos_nonneg; lia).
    unfold convert, lo, hi. destruct signed; [lia|]. destruct (Z.ltb_spec (2 ^ w - 1) 0); [lia|reflexivity].
  - symmetry. induction F as [|x t -> _ IH]; [reflexivity|]. cbn [drop_seps]. rewrite discards_sep, Ascii.eqb_refl by exact G. exact IH.
Qed.
Lemma zero_converts signed w : (0 < w)%Z -> convert signed w false 0 = 0%Z.
Proof.
  intros W. assert (0 < 2 ^ (w - 1))%Z by (apply Z.pow_pos_nonneg; lia). assert (0 < 2 ^ w)%Z by (apply Z.pow_pos_nonneg; lia).
  unfold convert, lo, hi. destruct signed; [lia|]. destruct (Z.ltb_spec (2 ^ w - 1) 0); [lia|reflexivity].
Qed.
(** white space after separators is not skipped *)
Lemma sep_blank_proof p signed w ws c s d u : (0 < w)%Z -> Forall blank ws -> ~ blank c -> grouping p <> [] ->
  filter (fun x => negb (Ascii.eqb x (sep p))) (c :: s) = d :: u -> blank d ->
  GroupModel.str_to_int p signed w (ws ++ c :: s) = Ret 0%Z.
Proof.
  intros W Bw Bc G Eu Bd. unfold GroupModel.str_to_int. rewrite skip_blank by exact Bw. cbn [skip_ws].
  destruct (is_space c) eqn:S; [exfalso; apply Bc, is_space_blank, S|].
  assert (Dr : forall t, filter (fun x => negb (Ascii.eqb x (sep p))) t = d :: u -> exists u', drop_seps p t = d :: u' /\ discards p d = false).
  { induction t as [|x t IH]; [discriminate|]. cbn [filter drop_seps]. rewrite discards_sep by exact G. destruct (Ascii.eqb x (sep p)) eqn:E; cbn [negb]; [exact IH|].
    intros [= <- <-]. exists t. split; [reflexivity|]. rewrite discards_sep by exact G. exact E. }
  destruct (Dr _ Eu) as (u' & -> & Dd).
  assert (X : get_sign (d :: u') = (false, d :: u') /\ digit_val d = None).
  { unfold blank in Bd. cbn in Bd. destruct Bd as [<-|[<-|[<-|[<-|[<-|[<-|[]]]]]]]; split; reflexivity. }
  destruct X as [-> X]. cbn [get_digits]. rewrite Dd, X. f_equal. apply zero_converts, W.
Qed.
(** every text *)
Lemma every_text_proof p signed w s : (0 < w)%Z -> grouping p <> [] ->
  Forall blank s /\ GroupModel.str_to_int p signed w s = Ub \/
  exists ws c r, s = ws ++ c :: r /\ Forall blank ws /\ ~ blank c /\
  match filter (fun x => negb (Ascii.eqb x (sep p))) (c :: r) with
  | [] => GroupModel.str_to_int p signed w s = Ret 0%Z
  | d :: u => blank d /\ GroupModel.str_to_int p signed w s = Ret 0%Z \/ ~ blank d /\ GroupModel.str_to_int p signed w s = ConvModel.str_to_int signed w (d :: u)
  end.
Proof.
  intros W G. assert (Sp : forall s, Forall blank s \/ exists ws c r, s = ws ++ c :: r /\ Forall blank ws /\ ~ blank c).
  { clear s. induction s as [|x s IH]; [left; constructor|]. destruct (is_space x) eqn:X.
    - apply is_space_blank in X. destruct IH as [F|(ws & c & r & -> & F & B)]; [left; constructor; assumption|]. right. exists (x :: ws), c, r. auto.
    - right. exists [], x, s. split; [reflexivity|]. split; [constructor|]. intros B. apply is_space_blank in B. congruence. }
  destruct (Sp s) as [F|(ws & c & r & -> & F & B)].
  - left. split; [exact F|]. unfold GroupModel.str_to_int. rewrite (proj2 (skip_all s) F). reflexivity.
  - right. exists ws, c, r. split; [reflexivity|]. split; [exact F|]. split; [exact B|].
    destruct (filter _ (c :: r)) as [|d u] eqn:E.
    + apply only_seps_proof; auto. rewrite Forall_forall. intros x Hx. destruct (Ascii.eqb_spec x (sep p)) as [X|X]; [exact X|]. exfalso.
      assert (I : In x (filter (fun x => negb (Ascii.eqb x (sep p))) (c :: r))). { apply filter_In. split; [exact Hx|]. apply Ascii.eqb_neq in X. rewrite X. reflexivity. }
      rewrite E in I. exact I.
    + destruct (is_space d) eqn:X.
      * apply is_space_blank in X. left. split; [exact X|]. eapply sep_blank_proof; eauto.
      * right. assert (N : ~ blank d) by (intros Bd; apply is_space_blank in Bd; congruence). split; [exact N|]. eapply ignore_proof; eauto.
Qed.
(** ... so that a number, however large, is read up to the first character that is neither a digit nor a separator *)
Lemma nearest_groups p signed w v ws c s : (0 < w)%Z -> Forall blank ws -> ~ blank c -> grouping p <> [] ->
  begins_with_number v (filter (fun x => negb (Ascii.eqb x (sep p))) (c :: s)) ->
  match filter (fun x => negb (Ascii.eqb x (sep p))) (c :: s) with d :: _ => ~ blank d | [] => True end ->
  (signed = true \/ (0 <= v)%Z) -> exists r, GroupModel.str_to_int p signed w (ws ++ c :: s) = Ret r /\ nearest signed w v r.
Proof.
  intros W Bw Bc G N H S. destruct (number_proof signed w v _ W N S) as (r & E & Nr). exists r. split; [|exact Nr]. rewrite <- E.
  destruct (filter _ (c :: s)) as [|d u] eqn:Eu; [|exact (ignore_proof p signed w ws c s d u Bw Bc G Eu H)].
  discriminate E.
Qed.
Lemma concat_digits groups ds : concat groups = ds -> Forall decimal_digit ds -> Forall (Forall decimal_digit) groups.
Proof.
  intros <-. induction groups as [|t groups IH]; [constructor|]. cbn. intros H. apply Forall_app in H. constructor; tauto.
Qed.
Lemma round_trip_grouped p signed w v : (0 < w)%Z -> representable signed w v -> ~ decimal_digit (sep p) -> sep p <> "-"%char -> sep p <> "+"%char ->
  GroupModel.str_to_int p signed w (GroupModel.str_int p v) = Ret v.
Proof.
  intros W R S M Pl. destruct (grouping p) as [|g0 gr] eqn:G.
  - rewrite no_sep_proof by congruence. rewrite no_grouping_proof; [apply round_trip_proof; assumption|]. rewrite G. reflexivity.
  - destruct (dec_parts v) as (sign & ds & E & Sg & N & D & Rd & P). unfold GroupModel.str_int. rewrite P.
    destruct (put_groups_proof (sep p) (length ds) (grouping p) ds (le_n _)) as (groups & NE & C & F & E' & Ne). unfold put_digits. rewrite E'.
    rewrite <- (app_nil_r (separated _ _)). apply read_groups; try assumption; try (exact I); try congruence.
    + eapply concat_digits; eassumption.
    + apply Ne, N.
    + exists (Z.abs v). rewrite C. split; [exact Rd|]. destruct Sg as [[-> Hv]|[-> Hv]]; [left|right]; (split; [tauto || reflexivity|lia]).
Qed.

(** * Lines *)
Lemma row_num_proof num hide e s : out (log_writer num hide e s) = out s ++ log_row_num num hide e.
Proof.
  unfold log_writer, log_ops, log_row_num, pad_left, pad_right.
  set (m := num (Z.rem (t_micros e) 1000000)). set (th := num (l_thread e)). set (li := num (l_line e)).
  set (ti := chars (log_level_to_title (l_level e))). set (fi := firstn 20 (file_name (l_file e))). set (fu := firstn 20 (l_function e)).
  destruct hide; cbn [app fold_left apply_num apply put out width fill to_left chars list_ascii_of_string]; unfold put; cbn [out width fill to_left length Nat.sub repeat];
    fold m th li; rewrite ?app_nil_r; do 3 (rewrite <- ?app_assoc; cbn [app]); reflexivity.
Qed.
Lemma same_row hide e : log_row_num dec hide e = log_row hide e.
Proof. reflexivity. Qed.
Lemma flat_length (cells : list text) sp : length (flat_map (fun c => c ++ [sp]) cells) = fold_right (fun x n => S x + n) 0 (map (@length ascii) cells).
Proof. induction cells as [|c l IH]; [reflexivity|]. cbn. rewrite !app_length, IH. cbn. lia. Qed.
Lemma pad_left_le c n t : length (pad_left c n t) = Nat.max n (length t).
Proof. unfold pad_left. rewrite app_length, repeat_length. lia. Qed.
Lemma columns_num_proof num hide e : plain_tm (t_local e) ->
  (columns (widths hide) "|" (log_row_num num hide e) (l_message e) <->
   length (num (Z.rem (t_micros e) 1000000)) <= 6 /\ length (num (l_thread e)) <= 7 /\ (hide = false -> length (num (l_line e)) <= 5)).
Proof.
  intros T.
  assert (L3 : length (pad_right 8 (chars (log_level_to_title (l_level e)))) = 8) by apply pad_right_length, title_length.
  assert (L4 : length (pad_right 20 (firstn 20 (file_name (l_file e)))) = 20) by apply pad_right_length, firstn_le_length.
  assert (L6 : length (pad_right 20 (firstn 20 (l_function e))) = 20) by apply pad_right_length, firstn_le_length.
  pose proof (time_length _ T) as L0. split.
  - intros (cells & W & E). apply (f_equal (@length ascii)) in E. rewrite app_length, flat_length, W in E. unfold log_row_num in E.
    destruct hide; rewrite !app_length, L0, L3, ?L4, ?L6, !pad_left_le in E; cbn [chars list_ascii_of_string length widths fold_right] in E; lia.
  - intros (A & B & C). 
    assert (L1 : length (put_time (t_local e) ++ pad_left "0" 6 (num (Z.rem (t_micros e) 1000000))) = 26) by (rewrite app_length, L0, pad_left_le; lia).
    assert (L2 : length (pad_left " " 7 (num (l_thread e))) = 7) by (rewrite pad_left_le; lia).
    destruct hide; unfold columns, log_row_num.
    + exists [put_time (t_local e) ++ pad_left "0" 6 (num (Z.rem (t_micros e) 1000000)); pad_left " " 7 (num (l_thread e));
        pad_right 8 (chars (log_level_to_title (l_level e)))].
      split; [cbn [map widths]; rewrite L1, L2, L3; reflexivity|]. cbn [flat_map]. rewrite app_nil_r. cbn [app]. do 3 (rewrite <- ?app_assoc; cbn [app]). reflexivity.
    + assert (L5 : length (pad_left " " 5 (num (l_line e))) = 5) by (rewrite pad_left_le; specialize (C eq_refl); lia).
      exists [put_time (t_local e) ++ pad_left "0" 6 (num (Z.rem (t_micros e) 1000000)); pad_left " " 7 (num (l_thread e));
        pad_right 8 (chars (log_level_to_title (l_level e))); pad_right 20 (firstn 20 (file_name (l_file e))); pad_left " " 5 (num (l_line e));
        pad_right 20 (firstn 20 (l_function e))].
      split; [cbn [map widths]; rewrite L1, L2, L3, L4, L5, L6; reflexivity|]. cbn [flat_map]. rewrite app_nil_r. do 3 (rewrite <- ?app_assoc; cbn [app]). reflexivity.
Qed.

(** groups of three *)
Lemma thousands_length sp fuel : forall ds, length ds <= fuel -> length (put_groups fuel sp [3%Z] ds) = length ds + (length ds - 1) / 3.
Proof.
  induction fuel as [|fuel IH]; intros ds L.
  - destruct ds; [reflexivity|cbn in L; lia].
  - cbn [put_groups]. change (limits 3) with true. cbn [andb]. change (Z.to_nat 3) with 3. destruct (Nat.ltb_spec 3 (length ds)) as [H|H].
    + set (k := length ds - 3). rewrite app_length. cbn [length]. rewrite IH by (rewrite firstn_length; lia). rewrite firstn_length, skipn_length.
      replace (Nat.min k (length ds)) with k by lia.
      replace (length ds - 1) with ((k - 1) + 1 * 3) by lia. rewrite Nat.div_add by lia. lia.
    + rewrite Nat.div_small by lia. lia.
Qed.
Lemma thousands_short sp v k : (0 <= v)%Z -> (length (put_int (Numpunct [3%Z] sp) v) <= k <-> length (dec v) + (length (dec v) - 1) / 3 <= k).
Proof.
  intros H. destruct (dec_parts v) as (sign & ds & E & Sg & N & D & Rd & P). destruct Sg as [[-> _]|[_ ?]]; [|lia]. cbn [app] in *. rewrite P, E.
  unfold put_digits. cbn [sep grouping]. rewrite thousands_length by lia. reflexivity.
Qed.
Lemma dec_length_iff v k : (0 <= v)%Z -> (length (dec v) <= S k <-> (v < 10 ^ Z.of_nat (S k))%Z).
Proof.
  intros H. split; intros L.
  - destruct (Z.lt_ge_cases v (10 ^ Z.of_nat (S k))) as [|G]; [assumption|]. apply dec_long in G. lia.
  - apply dec_length. lia.
Qed.
Lemma thousands_columns sp hide e : plain_tm (t_local e) -> (0 <= t_micros e)%Z -> (0 <= l_thread e)%Z -> (0 <= l_line e)%Z ->
  (columns (widths hide) "|" (log_row_num (put_int (Numpunct [3%Z] sp)) hide e) (l_message e) <->
   (t_micros e mod 1000000 < 100000)%Z /\ (l_thread e < 1000000)%Z /\ (hide = false -> (l_line e < 10000)%Z)).
Proof.
  intros T Mi Th Li. rewrite columns_num_proof by exact T. rewrite Z.rem_mod_nonneg by lia.
  pose proof (Z.mod_pos_bound (t_micros e) 1000000 ltac:(lia)) as B. set (m := (t_micros e mod 1000000)%Z) in *.
  assert (K : forall a n, a + (a - 1) / 3 <= n <-> 3 * (n + 1) - 3 * a > a - 1 \/ a = 0).
  { intros a n. pose proof (Nat.div_mod (a - 1) 3 ltac:(lia)) as Q. pose proof (Nat.mod_upper_bound (a - 1) 3 ltac:(lia)). 
    set (q := (a - 1) / 3) in *. set (r := (a - 1) mod 3) in *. lia. }
  rewrite !thousands_short by lia. rewrite !K.
  pose proof (dec_length_iff m 4 ltac:(lia)) as D1. pose proof (dec_length_iff (l_thread e) 5 Th) as D2. pose proof (dec_length_iff (l_line e) 3 Li) as D3.
  change (10 ^ Z.of_nat 5)%Z with 100000%Z in D1. change (10 ^ Z.of_nat 6)%Z with 1000000%Z in D2. change (10 ^ Z.of_nat 4)%Z with 10000%Z in D3.
  assert (A1 : 3 * (6 + 1) - 3 * length (dec m) > length (dec m) - 1 \/ length (dec m) = 0 <-> (m < 100000)%Z) by (rewrite <- D1; lia).
  assert (A2 : 3 * (7 + 1) - 3 * length (dec (l_thread e)) > length (dec (l_thread e)) - 1 \/ length (dec (l_thread e)) = 0 <-> (l_thread e < 1000000)%Z) by (rewrite <- D2; lia).
  assert (A3 : 3 * (5 + 1) - 3 * length (dec (l_line e)) > length (dec (l_line e)) - 1 \/ length (dec (l_line e)) = 0 <-> (l_line e < 10000)%Z) by (rewrite <- D3; lia).
  tauto.
Qed.
