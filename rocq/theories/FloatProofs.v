(** IEEE 754 numbers as integers: order and rounding. *)
From Coq Require Import List Bool ZArith Floats.SpecFloat Lia.
From Verif Require Import Base AlgoModel AlgoProofs FloatModel FloatSpec.
Import ListNotations.
Local Open Scope Z_scope.

Lemma digits_size p : digits2_pos p = Pos.size p.
Proof. induction p as [p IH|p IH|]; cbn; rewrite ?IH; reflexivity. Qed.
Lemma digits_log2 p : Zpos (digits2_pos p) = Z.log2 (Zpos p) + 1.
Proof. rewrite digits_size. destruct p as [p|p|]; cbn [Z.log2 Pos.size]; lia. Qed.
Lemma pow2_pos k : 0 <= k -> 0 < 2 ^ k.
Proof. intros H. apply Z.pow_pos_nonneg; lia. Qed.
Lemma pow2_le a b : a <= b -> 2 ^ a <= 2 ^ b.
Proof. intros H. apply Z.pow_le_mono_r; lia. Qed.
Lemma pow2_lt a b : 0 <= b -> a < b -> 2 ^ a < 2 ^ b.
Proof. intros H H'. apply Z.pow_lt_mono_r; lia. Qed.
Lemma pow2_add a b : 0 <= a -> 0 <= b -> 2 ^ (a + b) = 2 ^ a * 2 ^ b.
Proof. intros. apply Z.pow_add_r; assumption. Qed.
Lemma shift_pos_mul d m : Zpos (shift_pos d m) = Zpos m * 2 ^ Zpos d.
Proof. rewrite shift_pos_correct. rewrite Z.pow_pos_fold. lia. Qed.

Lemma neg_compare a b : (-1 * a ?= -1 * b) = CompOpp (a ?= b).
Proof. destruct (Z.compare_spec a b); [apply Z.compare_eq_iff|apply Z.compare_gt_iff|apply Z.compare_lt_iff]; lia. Qed.

Section Format.
Variables prec emax : Z.
Hypothesis F : a_format prec emax.
Notation emin := (emin prec emax).
Notation fexp := (fexp prec emax).
Notation units := (units prec emax).
Notation number := (number prec emax).

Lemma emin_neg : emin < 0.
Proof. unfold emin, SpecFloat.emin. destruct F. lia. Qed.
Lemma emin_small : emin <= emax - prec.
Proof. unfold emin, SpecFloat.emin. destruct F. lia. Qed.
Lemma finite_valid s m e : number (S754_finite s m e) <-> e = Z.max (Z.log2 (Zpos m) + 1 + e - prec) emin /\ e <= emax - prec.
Proof.
  unfold number, FloatSpec.number. cbn. unfold bounded, canonical_mantissa, SpecFloat.fexp. rewrite andb_true_iff, digits_log2, Z.leb_le.
  split; intros [A B]; (split; [|exact B]).
  - apply Zeq_bool_eq in A. symmetry. exact A.
  - apply Zeq_is_eq_bool. symmetry. exact A.
Qed.
Lemma finite_bounds s m e : number (S754_finite s m e) ->
  emin <= e <= emax - prec /\ Zpos m < 2 ^ prec /\ (e = emin \/ 2 ^ (prec - 1) <= Zpos m).
Proof.
  intros H. apply finite_valid in H. destruct H as [A B]. destruct F as [P Q]. pose proof (Z.log2_nonneg (Zpos m)) as L.
  split; [lia|]. split.
  - apply Z.log2_lt_pow2; lia.
  - destruct (Z.eq_dec e emin) as [->|N]; [left; reflexivity|right]. apply Z.log2_le_pow2; lia.
Qed.

(** ** the order *)
(** a number as an integer; the infinities are larger than all others *)
Definition rank (x : spec_float) : Z :=
  match x with S754_infinity s => (if s then -1 else 1) * 2 ^ (emax - emin) | _ => units x end.
Lemma magnitude s m e : number (S754_finite s m e) -> 0 < Zpos m * 2 ^ (e - emin) < 2 ^ (emax - emin).
Proof.
  intros H. destruct (finite_bounds s m e H) as (A & B & _). pose proof (pow2_pos (e - emin) ltac:(lia)) as P. destruct F as [F1 F2]. split; [nia|].
  apply Z.lt_le_trans with (2 ^ prec * 2 ^ (e - emin)); [nia|]. rewrite <- pow2_add by lia. apply pow2_le. lia.
Qed.
Lemma magnitude_order s1 m1 e1 s2 m2 e2 : number (S754_finite s1 m1 e1) -> number (S754_finite s2 m2 e2) -> e1 < e2 ->
  Zpos m1 * 2 ^ (e1 - emin) < Zpos m2 * 2 ^ (e2 - emin).
Proof.
  intros H1 H2 L. destruct (finite_bounds _ _ _ H1) as (A1 & B1 & _). destruct (finite_bounds _ _ _ H2) as (A2 & B2 & [C|C]); [lia|].
  destruct F as [F1 F2]. pose proof (pow2_pos (e1 - emin) ltac:(lia)) as P1. pose proof (pow2_pos (e2 - emin) ltac:(lia)) as P2.
  apply Z.lt_le_trans with (2 ^ prec * 2 ^ (e1 - emin)); [nia|]. apply Z.le_trans with (2 ^ (prec - 1) * 2 ^ (e2 - emin)); [|nia].
  rewrite <- !pow2_add by lia. apply pow2_le. lia.
Qed.
Lemma magnitude_compare s1 m1 e1 s2 m2 e2 : number (S754_finite s1 m1 e1) -> number (S754_finite s2 m2 e2) ->
  match Z.compare e1 e2 with Lt => Lt | Gt => Gt | Eq => Pcompare m1 m2 Eq end = Z.compare (Zpos m1 * 2 ^ (e1 - emin)) (Zpos m2 * 2 ^ (e2 - emin)).
Proof.
  intros H1 H2. destruct (Z.compare_spec e1 e2) as [->|L|L].
  - pose proof (pow2_pos (e2 - emin) ltac:(destruct (finite_bounds _ _ _ H2); lia)) as P.
    rewrite <- Zmult_compare_compat_r by lia. reflexivity.
  - symmetry. apply Z.compare_lt_iff. exact (magnitude_order _ _ _ _ _ _ H1 H2 L).
  - symmetry. apply Z.compare_gt_iff. exact (magnitude_order _ _ _ _ _ _ H2 H1 L).
Qed.
Lemma compare_rank x y : number x -> number y -> is_nan x = false -> is_nan y = false -> SFcompare x y = Some (Z.compare (rank x) (rank y)).
Proof.
  intros Nx Ny Hx Hy. assert (P : 0 < 2 ^ (emax - emin)) by (apply pow2_pos; pose proof emin_small; destruct F; lia).
  destruct x as [s1|s1| |s1 m1 e1]; try discriminate; destruct y as [s2|s2| |s2 m2 e2]; try discriminate; cbn [SFcompare rank units FloatSpec.units].
  - reflexivity.
  - f_equal. symmetry. destruct s2; [apply Z.compare_gt_iff|apply Z.compare_lt_iff]; lia.
  - f_equal. symmetry. pose proof (magnitude _ _ _ Ny). destruct s2; [apply Z.compare_gt_iff|apply Z.compare_lt_iff]; lia.
  - f_equal. symmetry. destruct s1; [apply Z.compare_lt_iff|apply Z.compare_gt_iff]; lia.
  - f_equal. symmetry. destruct s1, s2; [apply Z.compare_eq_iff|apply Z.compare_lt_iff|apply Z.compare_gt_iff|apply Z.compare_eq_iff]; lia.
  - f_equal. symmetry. pose proof (magnitude _ _ _ Ny). destruct s1, s2; [apply Z.compare_lt_iff|apply Z.compare_lt_iff|apply Z.compare_gt_iff|apply Z.compare_gt_iff]; lia.
  - f_equal. symmetry. pose proof (magnitude _ _ _ Nx). destruct s1; [apply Z.compare_lt_iff|apply Z.compare_gt_iff]; lia.
  - f_equal. symmetry. pose proof (magnitude _ _ _ Nx). destruct s1, s2; [apply Z.compare_gt_iff|apply Z.compare_lt_iff|apply Z.compare_gt_iff|apply Z.compare_lt_iff]; lia.
  - f_equal. pose proof (magnitude _ _ _ Nx). pose proof (magnitude _ _ _ Ny). pose proof (magnitude_compare _ _ _ _ _ _ Nx Ny) as C. destruct s1, s2.
    + rewrite neg_compare, <- C. destruct (e1 ?= e2); reflexivity.
    + symmetry. apply Z.compare_lt_iff. lia.
    + symmetry. apply Z.compare_gt_iff. lia.
    + rewrite !Z.mul_1_l. exact C.
Qed.
Lemma nan_less_l y : SFltb S754_nan y = false.
Proof. reflexivity. Qed.
Lemma nan_less_r x : SFltb x S754_nan = false.
Proof. destruct x; reflexivity. Qed.
Lemma nan_eq_l y : SFeqb S754_nan y = false.
Proof. reflexivity. Qed.
Lemma nan_eq_r x : SFeqb x S754_nan = false.
Proof. destruct x; reflexivity. Qed.
Lemma less_rank x y : number x -> number y -> is_nan x = false -> is_nan y = false -> SFltb x y = (rank x <? rank y).
Proof. intros. unfold SFltb, Z.ltb. rewrite compare_rank by assumption. reflexivity. Qed.
Lemma eq_rank x y : number x -> number y -> is_nan x = false -> is_nan y = false -> SFeqb x y = (rank x =? rank y).
Proof. intros. unfold SFeqb. rewrite compare_rank by assumption. destruct (Z.compare_spec (rank x) (rank y)); symmetry; [apply Z.eqb_eq|apply Z.eqb_neq..]; lia. Qed.
Lemma below_rank x y : number x -> number y -> below prec emax x y <-> is_nan x = false /\ is_nan y = false /\ rank x < rank y.
Proof.
  intros Nx Ny. assert (P : 0 < 2 ^ (emax - emin)) by (apply pow2_pos; pose proof emin_small; destruct F; lia).
  assert (K : forall s m e, number (S754_finite s m e) -> - 2 ^ (emax - emin) < units (S754_finite s m e) < 2 ^ (emax - emin)).
  { intros s m e H. pose proof (magnitude s m e H). cbn [units FloatSpec.units]. destruct s; lia. }
  destruct x as [s1|[]| |s1 m1 e1]; destruct y as [s2|[]| |s2 m2 e2]; cbn [below is_nan rank]; try pose proof (K _ _ _ Nx); try pose proof (K _ _ _ Ny); cbn [units FloatSpec.units] in *; intuition (try discriminate; try lia).
Qed.
Lemma less_below x y : number x -> number y -> SFltb x y = true <-> below prec emax x y.
Proof.
  intros Nx Ny. rewrite below_rank by assumption. destruct (is_nan x) eqn:Hx; [destruct x; try discriminate; split; [discriminate|intros [H _]; discriminate]|].
  destruct (is_nan y) eqn:Hy; [destruct y; try discriminate; rewrite nan_less_r; split; [discriminate|intros (_ & H & _); discriminate]|].
  rewrite less_rank by assumption. rewrite Z.ltb_lt. tauto.
Qed.

(** ** rounding *)
(** the spacing of the numbers of the size of [a], in units *)
Definition spacing_of (a : Z) : Z := 2 ^ Z.max 0 (Z.log2 a + 1 - prec).
Definition rounded (z : Z) : Z := Z.sgn z * nearest_even (Z.abs z) (spacing_of (Z.abs z)).
(** the quotient of [nearest_even] *)
Definition quotient (a d : Z) : Z :=
  let q := a / d in let r := a mod d in if 2 * r <? d then q else if d <? 2 * r then q + 1 else if Z.even q then q else q + 1.
Lemma nearest_quotient a d : nearest_even a d = d * quotient a d.
Proof. reflexivity. Qed.

(** shifting right by [k] places keeps track of the remainder *)
Definition tracks (m k : Z) (r : shr_record) : Prop :=
  0 <= m /\ 0 <= k /\ shr_m r = m / 2 ^ k /\
  let rem := m mod 2 ^ k in
  (shr_r r = (2 ^ k <=? 2 * rem) /\ shr_s r = negb ((rem =? 0) || (2 * rem =? 2 ^ k))).
Lemma tracks_start m : 0 <= m -> tracks m 0 {| shr_m := m; shr_r := false; shr_s := false |}.
Proof. intros H. unfold tracks. cbn. rewrite Z.div_1_r, Z.mod_1_r. repeat split; auto with zarith. Qed.
Lemma shr_1_half r : 0 <= shr_m r -> shr_m (shr_1 r) = shr_m r / 2 /\ shr_r (shr_1 r) = Z.odd (shr_m r) /\ shr_s (shr_1 r) = (shr_r r || shr_s r).
Proof.
  destruct r as [m r s]. cbn. intros H. destruct m as [|[p|p|]|p]; cbn [shr_1 shr_m shr_r shr_s Z.odd]; try lia; repeat split.
  - replace (Zpos p~1) with (1 + Zpos p * 2) by lia. rewrite Z.div_add by lia. reflexivity.
  - replace (Zpos p~0) with (Zpos p * 2) by lia. rewrite Z.div_mul by lia. reflexivity.
Qed.
Lemma tracks_step m k r : tracks m k r -> tracks m (k + 1) (shr_1 r).
Proof.
  intros (M & K & D & R & S). pose proof (pow2_pos k K) as P. set (d := 2 ^ k) in *.
  assert (Q : 0 <= m / d) by (apply Z.div_pos; lia).
  destruct (shr_1_half r) as (A & B & C); [rewrite D; exact Q|]. rewrite D in A, B.
  assert (X : 2 ^ (k + 1) = d * 2) by (rewrite pow2_add by lia; reflexivity).
  unfold tracks. rewrite X, A, B, C, R, S. split; [exact M|]. split; [lia|]. split; [rewrite Z.div_div by lia; reflexivity|].
  assert (Y : m mod (d * 2) = m mod d + d * (m / d mod 2)) by (rewrite Z.rem_mul_r by lia; lia).
  rewrite Y. pose proof (Z.mod_pos_bound m d P) as Bd. rewrite Zmod_odd. destruct (Z.odd (m / d)).
  - split.
    + symmetry. apply Z.leb_le. lia.
    + destruct (Z.leb_spec d (2 * (m mod d))), (Z.eqb_spec (m mod d) 0), (Z.eqb_spec (2 * (m mod d)) d), (Z.eqb_spec (m mod d + d * 1) 0), (Z.eqb_spec (2 * (m mod d + d * 1)) (d * 2)); cbn; try reflexivity; lia.
  - split.
    + symmetry. apply Z.leb_gt. lia.
    + destruct (Z.leb_spec d (2 * (m mod d))), (Z.eqb_spec (m mod d) 0), (Z.eqb_spec (2 * (m mod d)) d), (Z.eqb_spec (m mod d + d * 0) 0), (Z.eqb_spec (2 * (m mod d + d * 0)) (d * 2)); cbn; try reflexivity; lia.
Qed.
Lemma tracks_iter m n : forall k r, tracks m k r -> tracks m (k + Zpos n) (iter_pos shr_1 n r).
Proof.
  induction n as [n IH|n IH|]; intros k r T; cbn [iter_pos].
  - replace (k + Zpos n~1) with (k + 1 + Zpos n + Zpos n) by lia. apply IH, IH, tracks_step, T.
  - replace (k + Zpos n~0) with (k + Zpos n + Zpos n) by lia. apply IH, IH, T.
  - apply tracks_step, T.
Qed.
Lemma tracks_round m k r : tracks m k r -> round_nearest_even (shr_m r) (loc_of_shr_record r) = quotient m (2 ^ k).
Proof.
  intros (M & K & D & R & S). pose proof (pow2_pos k K) as P. pose proof (Z.mod_pos_bound m (2 ^ k) P) as B. destruct r as [q b s]. cbn [shr_m shr_r shr_s] in *. subst b s q. unfold quotient. cbn zeta.
  destruct (Z.leb_spec (2 ^ k) (2 * (m mod 2 ^ k))), (Z.eqb_spec (m mod 2 ^ k) 0), (Z.eqb_spec (2 * (m mod 2 ^ k)) (2 ^ k)), (Z.ltb_spec (2 * (m mod 2 ^ k)) (2 ^ k)), (Z.ltb_spec (2 ^ k) (2 * (m mod 2 ^ k))); cbn [negb orb loc_of_shr_record round_nearest_even]; try reflexivity; try lia.
Qed.
Lemma shr_shift m e k : 0 <= m -> 0 <= k -> exists r, shr {| shr_m := m; shr_r := false; shr_s := false |} e k = (r, e + k) /\ tracks m k r.
Proof.
  intros M K. destruct k as [|p|p]; [|exists (iter_pos shr_1 p {| shr_m := m; shr_r := false; shr_s := false |})|lia].
  - eexists. cbn. rewrite Z.add_0_r. split; [reflexivity|apply tracks_start, M].
  - split; [reflexivity|]. apply (tracks_iter m p 0), tracks_start, M.
Qed.
Lemma shr_none m e k : k <= 0 -> shr {| shr_m := m; shr_r := false; shr_s := false |} e k = ({| shr_m := m; shr_r := false; shr_s := false |}, e).
Proof. intros K. destruct k; [reflexivity|lia|reflexivity]. Qed.

(** the second shift of [binary_round_aux]: only if the quotient has grown to 2^prec *)
Lemma finish s q e : emin <= e -> 0 < q <= 2 ^ prec -> (e = emin \/ 2 ^ (prec - 1) <= q) ->
  exists m e', (let '(mrs, e') := shr_fexp prec emax q e loc_Exact in
    match shr_m mrs with Z0 => S754_zero s | Zpos m => if Zle_bool e' (emax - prec) then S754_finite s m e' else S754_infinity s | _ => S754_nan end)
  = (if Zle_bool e' (emax - prec) then S754_finite s m e' else S754_infinity s) /\
  Zpos m * 2 ^ (e' - emin) = q * 2 ^ (e - emin) /\ (e' <= emax - prec -> number (S754_finite s m e')) /\ (emax - prec < e' -> 2 ^ (emax - emin) <= q * 2 ^ (e - emin)).
Proof.
  intros He Hq Hc. destruct F as [F1 F2]. destruct q as [|m|m]; [lia| |lia]. unfold shr_fexp. cbn [shr_record_of_loc Zdigits2]. unfold SpecFloat.fexp. rewrite digits_log2.
  assert (L : Z.log2 (Zpos m) <= prec) by (destruct Hq as [_ Hq]; apply Z.log2_le_mono in Hq; rewrite Z.log2_pow2 in Hq by lia; exact Hq).
  destruct (Z.eq_dec (Zpos m) (2 ^ prec)) as [Eq|Ne].
  - rewrite Eq, Z.log2_pow2 by lia. replace (Z.max (prec + 1 + e - prec) emin - e) with 1 by lia.
    replace (2 ^ prec) with (2 * 2 ^ (prec - 1)) by (rewrite <- (Z.pow_succ_r 2 (prec - 1)) by lia; f_equal; lia).
    pose proof (pow2_pos (prec - 1) ltac:(lia)) as P. destruct (2 ^ (prec - 1)) as [|p|p] eqn:Pp; [lia| |lia].
    change (2 * Zpos p) with (Zpos p~0). exists p, (e + 1). cbn [shr iter_pos shr_1 shr_m]. split; [reflexivity|]. split.
    + replace (e + 1 - emin) with (1 + (e - emin)) by lia. rewrite pow2_add by lia. change (2 ^ 1) with 2. change (Zpos p~0) with (2 * Zpos p). ring.
    + split.
      * intros H. apply finite_valid. rewrite <- Pp, Z.log2_pow2 by lia. lia.
      * intros H. change (Zpos p~0) with (2 * Zpos p). rewrite <- Pp, <- (Z.pow_succ_r 2 (prec - 1)), <- pow2_add by lia. apply pow2_le. lia.
  - assert (Lt : Zpos m < 2 ^ prec) by lia. assert (L' : Z.log2 (Zpos m) < prec) by (apply Z.log2_lt_pow2; lia).
    assert (E : Z.max (Z.log2 (Zpos m) + 1 + e - prec) emin = e).
    { destruct Hc as [->|C]; [lia|]. assert (prec - 1 <= Z.log2 (Zpos m)) by (apply Z.log2_le_pow2; lia). lia. }
    rewrite shr_none by lia. exists m, e. cbn [shr_m]. split; [reflexivity|]. split; [reflexivity|]. split.
    + intros H. apply finite_valid. lia.
    + intros H. destruct Hc as [->|C]; [pose proof emin_small; lia|]. apply Z.le_trans with (2 ^ (prec - 1) * 2 ^ (e - emin)).
      * rewrite <- pow2_add by lia. apply pow2_le. lia.
      * pose proof (pow2_pos (e - emin) ltac:(lia)). nia.
Qed.
Lemma quotient_scale a d k : 0 < d -> 0 < k -> quotient (a * k) (d * k) = quotient a d.
Proof.
  intros D K. unfold quotient. rewrite Z.div_mul_cancel_r by lia. rewrite Z.mul_mod_distr_r by lia. cbn zeta.
  replace (2 * (a mod d * k)) with ((2 * (a mod d)) * k) by lia.
  replace (2 * (a mod d) * k <? d * k) with (2 * (a mod d) <? d) by (destruct (Z.ltb_spec (2 * (a mod d)) d), (Z.ltb_spec (2 * (a mod d) * k) (d * k)); auto; nia).
  replace (d * k <? 2 * (a mod d) * k) with (d <? 2 * (a mod d)) by (destruct (Z.ltb_spec d (2 * (a mod d))), (Z.ltb_spec (d * k) (2 * (a mod d) * k)); auto; nia).
  reflexivity.
Qed.
Lemma quotient_exact a d : 0 < d -> quotient (a * d) d = a.
Proof. intros D. unfold quotient. rewrite Z.div_mul, Z.mod_mul by lia. cbn zeta. destruct (Z.ltb_spec (2 * 0) d); [reflexivity|lia]. Qed.
Lemma quotient_bounds a d lo hi : 0 < d -> lo * d <= a < hi * d -> lo <= quotient a d <= hi.
Proof.
  intros D [L H]. assert (A : lo <= a / d) by (apply Z.div_le_lower_bound; lia). assert (B : a / d < hi) by (apply Z.div_lt_upper_bound; lia).
  unfold quotient. cbn zeta. destruct (2 * (a mod d) <? d); [lia|]. destruct (d <? 2 * (a mod d)); [lia|]. destruct (Z.even (a / d)); lia.
Qed.
Lemma spacing_pos a : 0 < spacing_of a.
Proof. apply pow2_pos. lia. Qed.
(** the quotient of a positive integer by its spacing *)
Lemma rounded_quotient a : 0 < a -> 0 < quotient a (spacing_of a) <= 2 ^ prec /\ (spacing_of a = 1 \/ 2 ^ (prec - 1) <= quotient a (spacing_of a)).
Proof.
  intros A. destruct F as [F1 F2]. pose proof (Z.log2_spec a A) as [L H]. pose proof (Z.log2_nonneg a) as N. rewrite <- Z.add_1_r in H.
  unfold spacing_of. destruct (Z.max_spec 0 (Z.log2 a + 1 - prec)) as [[C ->]|[C ->]].
  - assert (B : 2 ^ (prec - 1) <= quotient a (2 ^ (Z.log2 a + 1 - prec)) <= 2 ^ prec).
    { apply quotient_bounds; [apply pow2_pos; lia|]. rewrite <- !pow2_add by lia. replace (prec - 1 + (Z.log2 a + 1 - prec)) with (Z.log2 a) by lia. replace (prec + (Z.log2 a + 1 - prec)) with (Z.log2 a + 1) by lia. lia. }
    pose proof (pow2_pos (prec - 1) ltac:(lia)). lia.
  - change (2 ^ 0) with 1. rewrite <- (Z.mul_1_r a), quotient_exact by lia. split; [|left; reflexivity]. split; [lia|]. apply Z.lt_le_incl, Z.lt_le_trans with (1 := H), pow2_le. lia.
Qed.
Lemma round_spec (s : bool) m e : emin <= e -> let z := (if s then -1 else 1) * (Zpos m * 2 ^ (e - emin)) in
  number (binary_round prec emax s m e) /\
  (binary_round prec emax s m e = S754_infinity s /\ 2 ^ (emax - emin) <= Z.abs (rounded z) \/
   is_finite (binary_round prec emax s m e) = true /\ sign (binary_round prec emax s m e) = s /\ units (binary_round prec emax s m e) = rounded z /\ rounded z <> 0).
Proof.
  intros He z. destruct F as [F1 F2]. set (a := Zpos m * 2 ^ (e - emin)) in *. assert (Pe : 0 < 2 ^ (e - emin)) by (apply pow2_pos; lia).
  assert (Pa : 0 < a) by (unfold a; nia). assert (Az : Z.abs z = a) by (unfold z; destruct s; lia). assert (Sz : Z.sgn z = if s then -1 else 1) by (unfold z; destruct s; lia).
  assert (La : Z.log2 a = Z.log2 (Zpos m) + (e - emin)) by (unfold a; rewrite Z.log2_mul_pow2 by lia; lia).
  pose proof (rounded_quotient a Pa) as (Q1 & Q2). set (q := quotient a (spacing_of a)) in *. set (e' := fexp (Zpos (digits2_pos m) + e)).
  assert (E' : e' = emin + Z.max 0 (Z.log2 a + 1 - prec)) by (unfold e', SpecFloat.fexp; rewrite digits_log2; lia).
  assert (Sp : spacing_of a = 2 ^ (e' - emin)) by (unfold spacing_of; f_equal; lia).
  assert (Rz : rounded z = (if s then -1 else 1) * (q * 2 ^ (e' - emin))) by (unfold rounded; rewrite Az, Sz, nearest_quotient; fold q; rewrite Sp; lia).
  assert (Pq : 0 < q * 2 ^ (e' - emin)) by (pose proof (pow2_pos (e' - emin) ltac:(lia)); nia).
  assert (He' : emin <= e') by lia.
  assert (Hc : e' = emin \/ 2 ^ (prec - 1) <= q).
  { destruct Q2 as [Q2|Q2]; [left|right; exact Q2]. rewrite Sp in Q2. destruct (Z.eq_dec e' emin) as [X|X]; [exact X|]. pose proof (pow2_lt 0 (e' - emin)). change (2 ^ 0) with 1 in *. lia. }
  assert (B : binary_round prec emax s m e =
    (let '(mrs, e2) := shr_fexp prec emax q e' loc_Exact in
     match shr_m mrs with Z0 => S754_zero s | Zpos m => if Zle_bool e2 (emax - prec) then S754_finite s m e2 else S754_infinity s | _ => S754_nan end)).
  { unfold binary_round. fold e'. unfold shl_align. destruct (e' - e) as [|d|d] eqn:De.
    - (* nothing to do *) unfold binary_round_aux. unfold shr_fexp at 1. cbn [shr_record_of_loc Zdigits2]. fold e'. rewrite De. cbn [shr shr_m loc_of_shr_record round_nearest_even].
      assert (X : q = Zpos m) by (unfold q; rewrite Sp; unfold a; replace (e' - emin) with (e - emin) by lia; apply quotient_exact, Pe). rewrite X. replace e with e' by lia. reflexivity.
    - (* bits are dropped *) unfold binary_round_aux. unfold shr_fexp at 1. cbn [shr_record_of_loc Zdigits2]. fold e'. rewrite De. destruct (shr_shift (Zpos m) e (Zpos d)) as (r & Sh & T); [lia..|]. rewrite Sh.
      rewrite (tracks_round _ _ _ T). replace (e + Zpos d) with e' by lia.
      assert (X : quotient (Zpos m) (2 ^ Zpos d) = q).
      { unfold q. rewrite Sp. unfold a. replace (e' - emin) with (Zpos d + (e - emin)) by lia. rewrite pow2_add by lia. symmetry. apply quotient_scale; [apply pow2_pos; lia|exact Pe]. }
      rewrite X. reflexivity.
    - (* zeros are appended *) unfold binary_round_aux. unfold shr_fexp at 1. cbn [shr_record_of_loc Zdigits2].
      assert (X : Zpos (shift_pos d m) = q).
      { rewrite shift_pos_mul. unfold q. rewrite Sp. unfold a. replace (e - emin) with (Zpos d + (e' - emin)) by lia. rewrite pow2_add, Z.mul_assoc by lia. symmetry. apply quotient_exact, pow2_pos. lia. }
      assert (Y : fexp (Zpos (digits2_pos (shift_pos d m)) + e') = e').
      { unfold SpecFloat.fexp. rewrite digits_log2, shift_pos_mul, Z.log2_mul_pow2 by lia. unfold e', SpecFloat.fexp. rewrite digits_log2. unfold e', SpecFloat.fexp in De. rewrite digits_log2 in De. lia. }
      rewrite Y, Z.sub_diag. cbn [shr shr_m loc_of_shr_record round_nearest_even]. rewrite X. reflexivity. }
  rewrite B. destruct (finish s q e' He' Q1 Hc) as (m2 & e2 & -> & V & N1 & N2). change Zle_bool with Z.leb.
  destruct (Z.leb_spec e2 (emax - prec)) as [C|C].
  - split; [apply N1, C|]. right. split; [reflexivity|]. split; [reflexivity|]. cbn [units FloatSpec.units]. rewrite V, Rz. split; [reflexivity|destruct s; lia].
  - split; [reflexivity|]. left. split; [reflexivity|]. rewrite Rz. apply N2 in C. destruct s; lia.
Qed.
End Format.
