(** Rounding is to the nearest number; addition and sums of floating-point numbers. *)
From Coq Require Import List Bool ZArith Floats.SpecFloat Lia Permutation.
From Verif Require Import Base SeqModel AlgoModel AlgoProofs FloatModel FloatSpec FloatProofs.
Import ListNotations.
Local Open Scope Z_scope.

Section Format.
Variables prec emax : Z.
Hypothesis F : a_format prec emax.
Notation emin := (emin prec emax).
Notation units := (units prec emax).
Notation number := (number prec emax).
Notation rounded := (rounded prec).
Notation spacing_of := (spacing_of prec).
Notation representable := (representable prec emax).
Notation top := (2 ^ (emax - emin)).

Lemma top_pos : 0 < top.
Proof. apply pow2_pos. pose proof (emin_small _ _ F). destruct F. lia. Qed.
Lemma fewer_digits m k : 0 <= k -> Z.abs m < 2 ^ prec -> m <> 0 -> Z.log2 (Z.abs (m * 2 ^ k)) < prec + k.
Proof.
  intros K M N. destruct F as [F1 F2]. pose proof (pow2_pos k K). apply Z.log2_lt_pow2; [rewrite Z.abs_mul; lia|]. rewrite Z.abs_mul, (Z.abs_eq (2 ^ k)), pow2_add by lia. nia.
Qed.
Lemma rounded_representable z : representable z -> rounded z = z.
Proof.
  intros ((m & k & -> & K & M) & _). destruct (Z.eq_dec m 0) as [->|N]; [reflexivity|]. unfold FloatProofs.rounded.
  rewrite nearest_even_multiple; [rewrite Z.mul_comm; apply Z.abs_sgn|apply spacing_pos|].
  apply Z.divide_abs_r, Z.divide_mul_r. pose proof (fewer_digits m k K M N) as L. unfold FloatProofs.spacing_of.
  exists (2 ^ (k - Z.max 0 (Z.log2 (Z.abs (m * 2 ^ k)) + 1 - prec))). rewrite <- pow2_add by lia. f_equal. lia.
Qed.
Lemma units_representable x : number x -> representable (units x).
Proof.
  intros N. pose proof top_pos. destruct x as [s|s| |s m e]; cbn [FloatSpec.units];
    try (split; [exists 0, 0; repeat split; try lia; apply pow2_pos; destruct F; lia|cbn; lia]).
  destruct (finite_bounds _ _ F s m e N) as (A & B & _). pose proof (magnitude _ _ F s m e N). split; [|destruct s; lia].
  exists ((if s then -1 else 1) * Zpos m), (e - emin). split; [ring|]. split; [lia|]. destruct s; lia.
Qed.
Lemma rounded_units x : number x -> rounded (units x) = units x.
Proof. intros N. apply rounded_representable, units_representable, N. Qed.
Lemma units_bound x : number x -> Z.abs (units x) < top.
Proof. intros N. apply units_representable, N. Qed.

(** ** [rounded] is the nearest representable number *)
Lemma rounded_sign z : Z.abs (rounded z - z) = Z.abs (nearest_even (Z.abs z) (spacing_of (Z.abs z)) - Z.abs z).
Proof. unfold FloatProofs.rounded. destruct (Z.abs_spec z) as [(P & ->)|(P & ->)]; [destruct (Z.eq_dec z 0) as [->|N]; [rewrite nearest_even_multiple; [reflexivity|apply spacing_pos|apply Z.divide_0_r]|rewrite Z.sgn_pos by lia; f_equal; lia]|rewrite Z.sgn_neg by lia; lia]. Qed.
Lemma rounded_error z : 2 * Z.abs (rounded z - z) <= spacing_of (Z.abs z).
Proof. rewrite rounded_sign. apply nearest_even_error, spacing_pos. Qed.
Lemma rounded_relative z : 2 ^ prec * Z.abs (rounded z - z) <= Z.abs z.
Proof.
  destruct F as [F1 F2]. destruct (Z.eq_dec z 0) as [->|N]; [cbn; lia|]. pose proof (Z.log2_spec (Z.abs z) ltac:(lia)) as [L _]. pose proof (rounded_error z) as E. unfold FloatProofs.spacing_of in E.
  destruct (Z.max_spec 0 (Z.log2 (Z.abs z) + 1 - prec)) as [[C X]|[C X]]; rewrite X in E.
  - apply Z.le_trans with (2 ^ Z.log2 (Z.abs z)); [|exact L]. replace (Z.log2 (Z.abs z)) with (prec - 1 + (Z.log2 (Z.abs z) + 1 - prec)) by lia. rewrite pow2_add by lia.
    replace (2 ^ prec) with (2 ^ (prec - 1) * 2) by (rewrite Z.mul_comm, <- Z.pow_succ_r by lia; f_equal; lia). pose proof (pow2_pos (prec - 1) ltac:(lia)). nia.
  - change (2 ^ 0) with 1 in E. assert (Y : Z.abs (rounded z - z) = 0) by lia. rewrite Y. lia.
Qed.
Lemma rounded_multiple z : (spacing_of (Z.abs z) | rounded z).
Proof. unfold FloatProofs.rounded. rewrite nearest_quotient. apply Z.divide_mul_r, Z.divide_factor_l. Qed.
(** a representable number that is not a multiple of the spacing is farther away than the power of two below [z] *)
Lemma finer z r' : representable r' -> z <> 0 -> (spacing_of (Z.abs z) | r') \/ 2 * Z.abs (r' - z) > spacing_of (Z.abs z) \/ Z.abs (rounded z - z) < Z.abs (r' - z).
Proof.
  intros ((m & k & -> & K & M) & _) N. destruct F as [F1 F2]. unfold FloatProofs.spacing_of. set (a := Z.abs z). assert (Pa : 0 < a) by (unfold a; lia).
  destruct (Z.le_gt_cases (Z.max 0 (Z.log2 a + 1 - prec)) k) as [L|L].
  - left. apply Z.divide_mul_r. exists (2 ^ (k - Z.max 0 (Z.log2 a + 1 - prec))). rewrite <- pow2_add by lia. f_equal. lia.
  - right. assert (G : 0 < Z.log2 a + 1 - prec) by lia. rewrite Z.max_r in * by lia.
    (* the quotient of the power of two *)
    pose proof (Z.log2_spec a Pa) as [B _]. set (p := 2 ^ Z.log2 a) in *.
    assert (R : Z.abs (m * 2 ^ k) < p).
    { rewrite Z.abs_mul, (Z.abs_eq (2 ^ k)) by (apply Z.lt_le_incl, pow2_pos, K). pose proof (pow2_pos k K). apply Z.lt_le_trans with (2 ^ prec * 2 ^ k); [nia|]. unfold p. rewrite <- pow2_add by lia. apply pow2_le. lia. }
    right. rewrite rounded_sign. fold a. unfold FloatProofs.spacing_of. rewrite Z.max_r by lia. set (d := 2 ^ (Z.log2 a + 1 - prec)) in *. assert (D : 0 < d) by (apply pow2_pos; lia).
    assert (Pd : p = 2 ^ (prec - 1) * d) by (unfold p, d; rewrite <- pow2_add by lia; f_equal; lia).
    assert (X : Z.abs (nearest_even a d - a) <= a - p).
    { rewrite nearest_quotient. unfold quotient. cbn zeta. pose proof (Z.div_mod a d ltac:(lia)) as Dm. pose proof (Z.mod_pos_bound a d D) as Bd.
      assert (Ge : 2 ^ (prec - 1) <= a / d) by (apply Z.div_le_lower_bound; lia).
      destruct (Z.ltb_spec (2 * (a mod d)) d); [nia|]. destruct (Z.ltb_spec d (2 * (a mod d))); [nia|]. destruct (Z.even (a / d)); nia. }
    apply Z.le_lt_trans with (1 := X). unfold a in *. lia.
Qed.
Lemma multiples_far d a b : 0 < d -> (d | a) -> (d | b) -> a <> b -> d <= Z.abs (a - b).
Proof. intros D (x & ->) (y & ->) N. replace (x * d - y * d) with ((x - y) * d) by ring. rewrite Z.abs_mul. assert (x <> y) by congruence. nia. Qed.
Lemma rounded_nearest z : Z.abs (rounded z) < top -> nearest prec emax z (rounded z).
Proof.
  intros T. destruct F as [F1 F2]. destruct (Z.eq_dec z 0) as [->|N].
  { change (rounded 0) with 0. split; [apply (units_representable (S754_zero false)); reflexivity|]. split; [cbn; lia|]. intros r' _ Nr Eq. exfalso. lia. }
  set (a := Z.abs z). assert (Pa : 0 < a) by (unfold a; lia). destruct (rounded_quotient _ _ F a Pa) as (Q1 & Q2). set (q := quotient a (spacing_of a)) in *.
  assert (Sp : spacing_of a = 2 ^ Z.max 0 (Z.log2 a + 1 - prec)) by reflexivity. set (k := Z.max 0 (Z.log2 a + 1 - prec)) in *. assert (Pk : 0 <= k) by lia. pose proof (spacing_pos prec a) as Ps.
  assert (Rz : rounded z = Z.sgn z * q * 2 ^ k) by (unfold FloatProofs.rounded; rewrite nearest_quotient; fold a; fold q; rewrite Sp; ring).
  assert (Sg : Z.abs (Z.sgn z) = 1) by lia. split; [|split].
  - split; [|exact T]. destruct (Z.eq_dec q (2 ^ prec)) as [Eq|Ne].
    + exists (Z.sgn z * 2 ^ (prec - 1)), (k + 1). split; [|split; [lia|]].
      * rewrite Rz, Eq, pow2_add by lia. replace (2 ^ prec) with (2 * 2 ^ (prec - 1)) by (rewrite <- Z.pow_succ_r by lia; f_equal; lia). change (2 ^ 1) with 2. ring.
      * rewrite Z.abs_mul, Sg, Z.mul_1_l, Z.abs_eq by (apply Z.lt_le_incl, pow2_pos; lia). apply pow2_lt; lia.
    + exists (Z.sgn z * q), k. split; [exact Rz|]. split; [lia|]. rewrite Z.abs_mul, Sg. lia.
  - intros r' R. pose proof (rounded_error z) as E. fold a in E. destruct (finer z r' R N) as [D|[G|G]]; [|fold a in G; lia|lia].
    destruct (Z.eq_dec r' (rounded z)) as [->|Nr]; [lia|]. pose proof (multiples_far _ _ _ Ps D (rounded_multiple z) Nr). lia.
  - intros r' R Nr Eq. pose proof (rounded_error z) as E. fold a in E. destruct (finer z r' R N) as [D|[G|G]]; [|fold a in G; lia|lia]. fold a in D.
    pose proof (multiples_far _ _ _ Ps D (rounded_multiple z) Nr) as Far. fold a in Far.
    assert (Tie : 2 * Z.abs (rounded z - z) = spacing_of a) by lia. assert (Gap : Z.abs (r' - rounded z) = spacing_of a) by lia.
    assert (Ev : Z.even q = true).
    { rewrite rounded_sign in Tie. fold a in Tie. rewrite nearest_quotient in Tie. unfold q. unfold quotient in Tie |- *. cbn zeta in Tie |- *. pose proof (Z.div_mod a (spacing_of a) ltac:(lia)) as Dm. pose proof (Z.mod_pos_bound a _ Ps) as Bd.
      destruct (Z.ltb_spec (2 * (a mod spacing_of a)) (spacing_of a)); [nia|]. destruct (Z.ltb_spec (spacing_of a) (2 * (a mod spacing_of a))); [nia|].
      destruct (Z.even (a / spacing_of a)) eqn:Ev; [exact Ev|]. rewrite Z.even_add, Ev. reflexivity. }
    apply Z.even_spec in Ev. destruct Ev as (h & Eh). exists (Z.sgn z * h), k. split; [rewrite Rz, Eh; ring|]. split; [exact Pk|]. split; [rewrite Z.abs_mul, Sg; lia|]. rewrite Gap. exact Sp.
Qed.

Lemma nearest_unique z r1 r2 : nearest prec emax z r1 -> nearest prec emax z r2 -> r1 = r2.
Proof.
  intros (R1 & L1 & T1) (R2 & L2 & T2). destruct (Z.eq_dec r1 r2) as [E|N]; [exact E|exfalso]. pose proof (L1 r2 R2). pose proof (L2 r1 R1). assert (Eq : Z.abs (r1 - z) = Z.abs (r2 - z)) by lia.
  destruct (T1 r2 R2 (not_eq_sym N) Eq) as (m1 & k1 & E1 & K1 & _ & G1). destruct (T2 r1 R1 N (eq_sym Eq)) as (m2 & k2 & E2 & K2 & _ & G2).
  assert (G : 2 ^ k1 = 2 ^ k2) by lia. rewrite <- G in E2. pose proof (pow2_pos k1 K1) as P. rewrite E1, E2 in G2. replace (2 * m1 * 2 ^ k1 - 2 * m2 * 2 ^ k1) with (2 * (m1 - m2) * 2 ^ k1) in G2 by ring.
  rewrite <- G, Z.abs_mul, (Z.abs_eq (2 ^ k1)) in G2 by lia. assert (Z.abs (2 * (m1 - m2)) = 1) by nia. lia.
Qed.

(** ** addition *)
(** an operation with the exact result [z] *)
Definition computes (r : spec_float) (z : Z) : Prop :=
  number r /\ (is_finite r = true /\ units r = rounded z \/ r = S754_infinity (z <? 0) /\ top <= Z.abs (rounded z)).
Lemma computes_exact r : number r -> is_finite r = true -> computes r (units r).
Proof. intros N Fi. split; [exact N|]. left. split; [exact Fi|]. symmetry. apply rounded_units, N. Qed.
Lemma round_computes (s : bool) m e : emin <= e -> computes (binary_round prec emax s m e) ((if s then -1 else 1) * (Zpos m * 2 ^ (e - emin))).
Proof.
  intros H. destruct (round_spec _ _ F s m e H) as (N & [(E & O)|(Fi & _ & U & _)]); (split; [exact N|]); [right|left; auto]. split; [|exact O]. rewrite E. f_equal. pose proof (pow2_pos (e - emin) ltac:(lia)). symmetry. destruct s; [apply Z.ltb_lt|apply Z.ltb_ge]; lia.
Qed.
Lemma normalize_computes z e s : emin <= e -> computes (binary_normalize prec emax z e s) (z * 2 ^ (e - emin)).
Proof.
  intros H. destruct z as [|m|m]; cbn [binary_normalize].
  - exact (computes_exact (S754_zero s) eq_refl eq_refl).
  - replace (Zpos m * 2 ^ (e - emin)) with (1 * (Zpos m * 2 ^ (e - emin))) by lia. exact (round_computes false m e H).
  - replace (Zneg m * 2 ^ (e - emin)) with (-1 * (Zpos m * 2 ^ (e - emin))) by lia. exact (round_computes true m e H).
Qed.
Lemma align_mul m e e' : e' <= e -> Zpos (fst (shl_align m e e')) * 2 ^ e' = Zpos m * 2 ^ (e - e') * 2 ^ e'.
Proof.
  intros H. unfold shl_align. destruct (e' - e) as [|d|d] eqn:D; cbn [fst]; [|lia|].
  - replace (e - e') with 0 by lia. ring.
  - rewrite shift_pos_mul. replace (e - e') with (Zpos d) by lia. ring.
Qed.
Lemma align_exact m e e' : e' <= e -> Zpos (fst (shl_align m e e')) = Zpos m * 2 ^ (e - e').
Proof.
  intros H. unfold shl_align. destruct (e' - e) as [|d|d] eqn:D; cbn [fst]; [|lia|].
  - replace (e - e') with 0 by lia. lia.
  - rewrite shift_pos_mul. replace (e - e') with (Zpos d) by lia. reflexivity.
Qed.
Lemma add_computes x y : number x -> number y -> is_finite x = true -> is_finite y = true -> computes (SFadd prec emax x y) (units x + units y).
Proof.
  intros Nx Ny Fx Fy. destruct x as [s1|s1| |s1 m1 e1]; try discriminate; destruct y as [s2|s2| |s2 m2 e2]; try discriminate; cbn [SFadd].
  - destruct (Bool.eqb s1 s2); [exact (computes_exact (S754_zero s1) eq_refl eq_refl)|exact (computes_exact (S754_zero false) eq_refl eq_refl)].
  - exact (computes_exact _ Ny Fy).
  - replace (units (S754_finite s1 m1 e1) + units (S754_zero s2)) with (units (S754_finite s1 m1 e1)) by (cbn; lia). exact (computes_exact _ Nx Fx).
  - destruct (finite_bounds _ _ F _ _ _ Nx) as (A1 & _). destruct (finite_bounds _ _ F _ _ _ Ny) as (A2 & _). set (ez := Z.min e1 e2).
    replace (units (S754_finite s1 m1 e1) + units (S754_finite s2 m2 e2))
      with ((cond_Zopp s1 (Zpos (fst (shl_align m1 e1 ez))) + cond_Zopp s2 (Zpos (fst (shl_align m2 e2 ez)))) * 2 ^ (ez - emin)).
    + apply normalize_computes. lia.
    + rewrite !align_exact by lia. cbn [FloatSpec.units]. replace (2 ^ (e1 - emin)) with (2 ^ (e1 - ez) * 2 ^ (ez - emin)) by (rewrite <- pow2_add by lia; f_equal; lia).
      replace (2 ^ (e2 - emin)) with (2 ^ (e2 - ez) * 2 ^ (ez - emin)) by (rewrite <- pow2_add by lia; f_equal; lia). unfold cond_Zopp. destruct s1, s2; ring.
Qed.
(** what overflows is farther from zero than every number *)
Lemma overflow z r : top <= Z.abs (rounded z) -> representable r -> Z.abs r < Z.abs z.
Proof.
  intros O R. destruct (Z.lt_ge_cases (Z.abs r) (Z.abs z)) as [L|L]; [exact L|exfalso]. pose proof top_pos as T.
  assert (N : z <> 0) by (intros ->; cbn in O; lia). set (r' := Z.sgn z * Z.abs r).
  assert (R' : representable r').
  { destruct R as ((m & k & E & K & M) & B). split; [|unfold r'; destruct (Z.sgn_spec z) as [[_ ->]|[[_ ->]|[_ ->]]]; lia].
    exists (Z.sgn z * Z.abs m), k. split; [unfold r'; rewrite E, Z.abs_mul, (Z.abs_eq (2 ^ k)) by (apply Z.lt_le_incl, pow2_pos, K); ring|]. split; [exact K|]. destruct (Z.sgn_spec z) as [[_ ->]|[[_ ->]|[_ ->]]]; lia. }
  assert (B : Z.abs r < top) by apply R. pose proof (rounded_error z) as E. assert (D : Z.abs (r' - z) = Z.abs r - Z.abs z) by (unfold r'; destruct (Z.sgn_spec z) as [[? ->]|[[? ->]|[? ->]]]; lia).
  destruct (finer z r' R' N) as [G|[G|G]]; [|lia|lia].
  assert (Ne : r' <> rounded z) by (intros Q; rewrite <- Q in O; destruct R' as [_ R']; lia).
  pose proof (multiples_far _ _ _ (spacing_pos prec (Z.abs z)) G (rounded_multiple z) Ne). lia.
Qed.
Lemma overflow_iff z : top <= Z.abs (rounded z) <-> too_large prec emax z.
Proof.
  destruct F as [F1 F2]. pose proof (emin_neg _ _ F) as En. unfold too_large. set (n := emax - emin) in *. assert (Hn : prec + 1 <= n) by (unfold n; lia). set (h := 2 ^ (n - prec - 1)).
  assert (Ph : 0 < h) by (apply pow2_pos; lia). assert (Th : 2 ^ n = 2 ^ prec * (2 * h)) by (unfold h; rewrite <- Z.pow_succ_r, <- pow2_add by lia; f_equal; lia).
  pose proof (pow2_pos prec ltac:(lia)) as Pp. assert (Pe : 2 ^ prec = 2 * 2 ^ (prec - 1)) by (rewrite <- Z.pow_succ_r by lia; f_equal; lia). pose proof (pow2_pos (prec - 1) ltac:(lia)) as Pq.
  destruct (Z.eq_dec z 0) as [->|N]; [change (rounded 0) with 0; cbn [Z.abs]; split; intros; nia|]. set (a := Z.abs z). assert (Pa : 0 < a) by (unfold a; lia). pose proof (Z.log2_spec a Pa) as [L1 L2]. rewrite Z.pow_succ_r in L2 by apply Z.log2_nonneg.
  assert (Ab : Z.abs (rounded z) = nearest_even a (spacing_of a)).
  { unfold FloatProofs.rounded. fold a. rewrite nearest_quotient. destruct (rounded_quotient _ _ F a Pa) as (Q & _). pose proof (spacing_pos prec a). rewrite Z.abs_mul. assert (E : Z.abs (Z.sgn z) = 1) by lia. rewrite E, Z.mul_1_l. apply Z.abs_eq. nia. }
  split; intros H.
  - destruct (Z.le_gt_cases (2 ^ n - h) a) as [C|C]; [exact C|exfalso]. pose proof (rounded_error z) as E. fold a in E.
    assert (S : spacing_of a <= 2 * h).
    { unfold FloatProofs.spacing_of, h. rewrite <- Z.pow_succ_r by lia. apply pow2_le. assert (Z.log2 a < n) by (apply Z.log2_lt_pow2; lia). lia. }
    unfold a in *. lia.
  - rewrite Ab. destruct (Z.le_gt_cases (2 ^ n) a) as [C|C].
    + assert (Ln : n <= Z.log2 a) by (apply Z.log2_le_pow2; lia). apply Z.le_trans with (2 ^ Z.log2 a); [apply pow2_le; lia|].
      rewrite nearest_quotient. unfold FloatProofs.spacing_of. rewrite Z.max_r by lia. set (d := 2 ^ (Z.log2 a + 1 - prec)). assert (D : 0 < d) by (apply pow2_pos; lia).
      assert (E : 2 ^ Z.log2 a = d * 2 ^ (prec - 1)) by (unfold d; rewrite <- pow2_add by lia; f_equal; lia). rewrite E. apply Z.mul_le_mono_nonneg_l; [lia|]. apply (quotient_bounds a d _ (a / d + 1)); [exact D|].
      pose proof (Z.div_mod a d ltac:(lia)). pose proof (Z.mod_pos_bound a d D). split; [lia|nia].
    + assert (Pn : 2 ^ n = 2 * 2 ^ (n - 1)) by (rewrite <- Z.pow_succ_r by lia; f_equal; lia).
      assert (Ln : Z.log2 a = n - 1) by (apply Z.log2_unique; [lia|]; rewrite Z.pow_succ_r by lia; nia).
      assert (S : spacing_of a = 2 * h) by (unfold FloatProofs.spacing_of, h; rewrite <- Z.pow_succ_r by lia; f_equal; lia). rewrite nearest_quotient, S, Th, (Z.mul_comm (2 ^ prec)). apply Z.mul_le_mono_nonneg_l; [lia|].
      unfold quotient. cbn zeta. assert (Q : a / (2 * h) = 2 ^ prec - 1) by (symmetry; apply Z.div_unique with (a - (2 ^ prec - 1) * (2 * h)); [left; nia|ring]).
      rewrite Q. pose proof (Z.div_mod a (2 * h) ltac:(lia)) as Dm. rewrite Q in Dm. assert (M : h <= a mod (2 * h)) by nia.
      destruct (Z.ltb_spec (2 * (a mod (2 * h))) (2 * h)); [lia|]. destruct (2 * h <? 2 * (a mod (2 * h))); [lia|]. replace (Z.even (2 ^ prec - 1)) with false; [lia|]. symmetry. rewrite Pe, Z.even_sub, Z.even_mul. reflexivity.
Qed.
Lemma add_nearest x y : number x -> number y -> is_finite x = true -> is_finite y = true -> let z := units x + units y in let r := SFadd prec emax x y in
  number r /\ (too_large prec emax z -> r = S754_infinity (z <? 0)) /\ (~ too_large prec emax z -> is_finite r = true /\ nearest prec emax z (units r)).
Proof.
  intros Nx Ny Fx Fy. cbn zeta. destruct (add_computes x y Nx Ny Fx Fy) as (N & [(Fi & U)|(E & O)]); (split; [exact N|]); split; intros H.
  - exfalso. apply overflow_iff in H. rewrite <- U in H. pose proof (units_bound _ N). lia.
  - split; [exact Fi|]. rewrite U. apply rounded_nearest. rewrite <- U. apply units_bound, N.
  - exact E.
  - exfalso. apply H, overflow_iff, O.
Qed.
(** an operation is exact when its exact result is a number *)
Lemma computes_representable r z : computes r z -> representable z -> is_finite r = true /\ units r = z.
Proof.
  intros (N & [(Fi & U)|(E & O)]) R; rewrite (rounded_representable z R) in *; [auto|]. destruct R as [_ R]. lia.
Qed.
(** what is not finite stays so *)
Lemma add_finite x y : is_finite (SFadd prec emax x y) = true -> is_finite x = true /\ is_finite y = true.
Proof. destruct x as [s1|s1| |s1 m1 e1], y as [s2|s2| |s2 m2 e2]; cbn; try (intros; split; reflexivity); try discriminate. destruct (Bool.eqb s1 s2); discriminate. Qed.
Lemma add_number x y : number x -> number y -> number (SFadd prec emax x y).
Proof.
  intros Nx Ny. destruct (is_finite x) eqn:Fx, (is_finite y) eqn:Fy; [apply (add_computes x y Nx Ny Fx Fy)|..];
    destruct x as [s1|s1| |s1 m1 e1], y as [s2|s2| |s2 m2 e2]; try discriminate; cbn [SFadd]; try reflexivity; try assumption; destruct (Bool.eqb s1 s2); reflexivity.
Qed.

(** ** sums *)
Lemma sum_number c : forall v, number v -> Forall number c -> number (sum_f prec emax c v).
Proof. induction c as [|x c IH]; intros v Nv Nc; [exact Nv|]. inversion Nc; subst. cbn. apply IH; [apply add_number|]; assumption. Qed.
Lemma sum_finite c : forall v, is_finite (sum_f prec emax c v) = true -> is_finite v = true /\ Forall (fun x => is_finite x = true) c.
Proof.
  induction c as [|x c IH]; intros v H; [auto|]. cbn in H. destruct (IH _ H) as [A B]. apply add_finite in A. destruct A. auto.
Qed.
Lemma sum_nan c : forall v, is_nan v = true \/ Exists (fun x => is_nan x = true) c -> sum_f prec emax c v = S754_nan.
Proof.
  induction c as [|x c IH]; intros v [H|H]; cbn.
  - destruct v; try discriminate. reflexivity.
  - inversion H.
  - apply IH. left. destruct v; try discriminate. reflexivity.
  - inversion H as [y l E|y l E]; subst; apply IH; [left|right; exact E]. destruct x; try discriminate. destruct v; reflexivity.
Qed.
(** every partial sum is a number: the sum is exact *)
Lemma sum_exact c : forall v, number v -> is_finite v = true -> Forall number c -> Forall (fun x => is_finite x = true) c ->
  (forall k, (k <= length c)%nat -> representable (units v + total (map units (firstn k c)))) ->
  is_finite (sum_f prec emax c v) = true /\ units (sum_f prec emax c v) = units v + total (map units c).
Proof.
  induction c as [|x c IH]; intros v Nv Fv Nc Fc R; [cbn; split; [exact Fv|lia]|]. inversion Nc as [|a b Nx Nc']; subst. inversion Fc as [|a b Fx Fc']; subst. cbn [sum_f].
  pose proof (add_computes v x Nv Nx Fv Fx) as C. assert (R1 : representable (units v + units x)) by (specialize (R 1%nat); cbn in R; rewrite Z.add_0_r in R; apply R; lia).
  destruct (computes_representable _ _ C R1) as (Fi & U). destruct (IH (SFadd prec emax v x)) as (A & B); [apply C|exact Fi|exact Nc'|exact Fc'| |].
  - intros k L. specialize (R (S k)). cbn in R. rewrite U. rewrite <- Z.add_assoc. apply R. lia.
  - split; [exact A|]. rewrite B, U. change (total (map units (x :: c))) with (units x + total (map units c)). lia.
Qed.
(** multiples of 2^g with a small sum of absolute values *)
Lemma small_representable g z : 0 <= g -> prec + g < emax - emin -> (2 ^ g | z) -> Z.abs z <= 2 ^ (prec + g) -> representable z.
Proof.
  intros G H (m & ->) B. destruct F as [F1 F2]. pose proof (pow2_pos g G) as P. rewrite Z.abs_mul, (Z.abs_eq (2 ^ g)), pow2_add in B by lia.
  assert (Bm : Z.abs m <= 2 ^ prec) by nia. split.
  - destruct (Z.eq_dec (Z.abs m) (2 ^ prec)) as [Eq|Ne]; [|exists m, g; repeat split; lia].
    exists (Z.sgn m * 2 ^ (prec - 1)), (g + 1). split; [|split; [lia|]].
    + rewrite pow2_add by lia. rewrite <- (Z.abs_sgn m) at 1. rewrite Eq. replace (2 ^ prec) with (2 * 2 ^ (prec - 1)) by (rewrite <- Z.pow_succ_r by lia; f_equal; lia). change (2 ^ 1) with 2. ring.
    + pose proof (pow2_lt (prec - 1) prec ltac:(lia) ltac:(lia)). pose proof (pow2_pos (prec - 1) ltac:(lia)). nia.
  - rewrite Z.abs_mul, (Z.abs_eq (2 ^ g)) by lia. apply Z.le_lt_trans with (2 ^ prec * 2 ^ g); [nia|]. rewrite <- pow2_add by lia. apply pow2_lt; lia.
Qed.
Lemma total_cons x l : total (x :: l) = x + total l.
Proof. reflexivity. Qed.
Lemma total_app l l' : total (l ++ l') = total l + total l'.
Proof. induction l as [|x l IH]; [reflexivity|]. cbn [app]. rewrite !total_cons, IH. lia. Qed.
Lemma total_abs l : Z.abs (total l) <= total (map Z.abs l).
Proof. induction l as [|x l IH]; [reflexivity|]. cbn [map]. rewrite ?total_cons in *. lia. Qed.
Lemma total_nonneg l : 0 <= total (map Z.abs l).
Proof. induction l as [|x l IH]; [reflexivity|]. cbn [map]. rewrite ?total_cons in *. lia. Qed.
Lemma total_divide d l : (forall x, In x l -> (d | x)) -> (d | total l).
Proof. induction l as [|x l IH]; intros H; [apply Z.divide_0_r|]. rewrite total_cons. apply Z.divide_add_r; [apply H; left; reflexivity|apply IH; intros; apply H; right; assumption]. Qed.
Lemma total_perm l l' : Permutation l l' -> total l = total l'.
Proof. induction 1; rewrite ?total_cons; lia. Qed.
Lemma sum_of_multiples g c v : 0 <= g -> prec + g < emax - emin -> number v -> is_finite v = true -> Forall number c -> Forall (fun x => is_finite x = true) c ->
  (2 ^ g | units v) -> Forall (fun x => (2 ^ g | units x)) c -> Z.abs (units v) + total (map (fun x => Z.abs (units x)) c) <= 2 ^ (prec + g) ->
  is_finite (sum_f prec emax c v) = true /\ units (sum_f prec emax c v) = units v + total (map units c).
Proof.
  intros G H Nv Fv Nc Fc Dv Dc B. apply sum_exact; try assumption. intros k L. apply (small_representable g); [exact G|exact H|..].
  - apply Z.divide_add_r; [exact Dv|]. apply total_divide. intros x I. apply in_map_iff in I. destruct I as (y & <- & I). rewrite Forall_forall in Dc. apply Dc. rewrite <- (firstn_skipn k c). apply in_or_app. left. exact I.
  - apply Z.le_trans with (2 := B). rewrite <- (firstn_skipn k c) at 2. rewrite map_app, total_app. pose proof (total_abs (map units (firstn k c))) as X. rewrite map_map in X.
    pose proof (total_nonneg (map units (skipn k c))) as Y. rewrite map_map in Y. lia.
Qed.
Lemma sum_any_order g c c' v : 0 <= g -> prec + g < emax - emin -> number v -> is_finite v = true -> Forall number c -> Forall (fun x => is_finite x = true) c ->
  (2 ^ g | units v) -> Forall (fun x => (2 ^ g | units x)) c -> Z.abs (units v) + total (map (fun x => Z.abs (units x)) c) <= 2 ^ (prec + g) ->
  Permutation c c' -> units (sum_f prec emax c' v) = units (sum_f prec emax c v).
Proof.
  intros G H Nv Fv Nc Fc Dv Dc B Pm. destruct (sum_of_multiples g c v) as [_ ->]; try assumption.
  rewrite (proj2 (sum_of_multiples g c' v G H Nv Fv (Permutation_Forall Pm Nc) (Permutation_Forall Pm Fc) Dv (Permutation_Forall Pm Dc)
    ltac:(rewrite <- (total_perm _ _ (Permutation_map (fun x => Z.abs (units x)) Pm)); exact B))).
  rewrite (total_perm _ _ (Permutation_map units Pm)). reflexivity.
Qed.
(** ** the error of a sum *)
Definition grow (n : nat) : Z := (2 ^ prec + 1) ^ Z.of_nat n.
Definition scale (n : nat) : Z := (2 ^ prec) ^ Z.of_nat n.
Lemma grow_S n : grow (S n) = (2 ^ prec + 1) * grow n.
Proof. unfold grow. rewrite Nat2Z.inj_succ, Z.pow_succ_r by lia. reflexivity. Qed.
Lemma scale_S n : scale (S n) = 2 ^ prec * scale n.
Proof. unfold scale. rewrite Nat2Z.inj_succ, Z.pow_succ_r by lia. reflexivity. Qed.
Lemma prec_pos : 0 < 2 ^ prec.
Proof. apply pow2_pos. destruct F. lia. Qed.
Lemma scale_pos n : 0 < scale n.
Proof. apply Z.pow_pos_nonneg; [apply prec_pos|lia]. Qed.
Lemma grow_ge n : scale n <= grow n.
Proof. pose proof prec_pos. apply Z.pow_le_mono_l. lia. Qed.
(** [v] approximates [s], a sum with the sum of absolute values [w], after [n] additions *)
Definition approximates (n : nat) (v s w : Z) : Prop := scale n * Z.abs (v - s) <= (grow n - scale n) * w /\ Z.abs s <= w.
Lemma approximates_step n v s w x r : approximates n v s w -> 2 ^ prec * Z.abs (r - (v + x)) <= Z.abs (v + x) -> approximates (S n) r (s + x) (w + Z.abs x).
Proof.
  intros [A B] H. split; [|lia]. rewrite grow_S, scale_S. pose proof prec_pos as P. pose proof (scale_pos n) as Q. pose proof (grow_ge n) as G. set (u := 2 ^ prec) in *. set (sc := scale n) in *. set (g := grow n) in *.
  assert (W : 0 <= w) by lia.
  (* |v + x| <= |s + x| + |v - s| *)
  assert (V : sc * Z.abs (v + x) <= g * (w + Z.abs x)).
  { assert (T : Z.abs (v + x) <= w + Z.abs x + Z.abs (v - s)) by lia. apply Z.le_trans with (sc * (w + Z.abs x + Z.abs (v - s))); [nia|]. nia. }
  assert (E1 : u * sc * Z.abs (r - (s + x)) <= u * sc * Z.abs (r - (v + x)) + u * sc * Z.abs (v - s)).
  { assert (T : Z.abs (r - (s + x)) <= Z.abs (r - (v + x)) + Z.abs (v - s)) by lia. assert (0 < u * sc) by nia. nia. }
  assert (E2 : u * sc * Z.abs (r - (v + x)) <= g * (w + Z.abs x)) by nia.
  assert (E3 : u * sc * Z.abs (v - s) <= u * ((g - sc) * (w + Z.abs x))).
  { rewrite <- Z.mul_assoc. apply Z.mul_le_mono_nonneg_l; [lia|]. apply Z.le_trans with (1 := A). apply Z.mul_le_mono_nonneg_l; lia. }
  nia.
Qed.
Lemma sum_approximates c : forall n v s w, number v -> Forall number c -> is_finite (sum_f prec emax c v) = true -> approximates n (units v) s w ->
  approximates (n + length c) (units (sum_f prec emax c v)) (s + total (map units c)) (w + total (map (fun x => Z.abs (units x)) c)).
Proof.
  induction c as [|x c IH]; intros n v s w Nv Nc Fi A; cbn [sum_f map total fold_right length] in *.
  - rewrite Nat.add_0_r, !Z.add_0_r. exact A.
  - inversion Nc as [|a b Nx Nc']; subst. destruct (sum_finite _ _ Fi) as [Fa _]. destruct (add_finite _ _ Fa) as [Fv Fx].
    destruct (add_computes v x Nv Nx Fv Fx) as (Na & [(_ & U)|(E & _)]); [|rewrite E in Fa; discriminate].
    assert (A1 : approximates (S n) (units (SFadd prec emax v x)) (s + units x) (w + Z.abs (units x))).
    { apply (approximates_step n (units v)); [exact A|]. rewrite U. apply rounded_relative. }
    specialize (IH (S n) _ _ _ Na Nc' Fi A1). fold (total (map units c)). fold (total (map (fun x => Z.abs (units x)) c)). rewrite !Z.add_assoc. rewrite <- plus_n_Sm. exact IH.
Qed.
Lemma sum_error c v : number v -> Forall number c -> is_finite (sum_f prec emax c v) = true ->
  (2 ^ prec) ^ Z.of_nat (length c) * Z.abs (units (sum_f prec emax c v) - (units v + total (map units c))) <=
  ((2 ^ prec + 1) ^ Z.of_nat (length c) - (2 ^ prec) ^ Z.of_nat (length c)) * (Z.abs (units v) + total (map (fun x => Z.abs (units x)) c)).
Proof.
  intros Nv Nc Fi. assert (A : approximates 0 (units v) (units v) (Z.abs (units v))) by (split; [unfold scale, grow; rewrite Z.sub_diag; cbn; lia|lia]).
  destruct (sum_approximates c 0 v _ _ Nv Nc Fi A) as [B _]. exact B.
Qed.
End Format.
