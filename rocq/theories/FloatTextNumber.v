(** Reading a decimal number gives the nearest floating-point number. *)
From Coq Require Import Ascii String List Bool ZArith QArith Qabs Qpower Lqa Floats.SpecFloat Lia.
From Verif Require Import Base LogTextModel LogTextProofs GroupProofs ConvModel AlgoModel AlgoProofs FloatModel FloatSpec FloatProofs FloatSum FloatUse FloatTextModel FloatTextSpec FloatTextRound.
Import ListNotations.
Local Open Scope Z_scope.

Section Format.
Variables prec emax : Z.
Hypothesis F : a_format prec emax.
Notation emin := (emin prec emax).
Notation units := (units prec emax).
Notation number := (number prec emax).
Notation rounded := (rounded prec).
Notation spacing_of := (spacing_of prec).
Notation representable := (representable prec emax).
Notation one := (one prec emax).
Notation value := (value prec emax).
Notation top := (2 ^ (emax - emin)).
Notation signed s z := ((if s then -1 else 1) * z).

(** * The nearest number to a / b, in units *)
Section Ratio.
Variables a b : Z.
Hypothesis A : 0 <= a.
Hypothesis B : 0 < b.
Let sp := spacing_of (a / b).
Let q := div_even a (b * sp).
Lemma ratio_round : round_ratio prec a b = sp * q.
Proof. reflexivity. Qed.
Lemma sp_pos : 0 < sp.
Proof. apply spacing_pos. Qed.
Lemma ratio_error : 2 * Z.abs (sp * q * b - a) <= sp * b /\ (2 * Z.abs (sp * q * b - a) = sp * b -> Z.even q = true).
Proof. pose proof sp_pos. destruct (div_even_Z a (b * sp)) as [E T]; [nia|]. fold q in E, T. replace (sp * q * b) with (q * (b * sp)) by ring. split; [lia|]. intros H'. apply T. lia. Qed.
Lemma ratio_size : (sp = 1 \/ 2 ^ (prec - 1) * sp * b <= a) /\ a < 2 ^ prec * sp * b.
Proof.
  destruct F as [F1 F2]. unfold sp, FloatProofs.spacing_of. pose proof (Z.log2_nonneg (a / b)) as L. pose proof (Z.mul_div_le a b B) as D1. pose proof (Z.mul_succ_div_gt a b B) as D2. assert (D0 : 0 <= a / b) by (apply Z.div_pos; lia).
  destruct (Z.eq_dec (a / b) 0) as [E|N].
  - rewrite E in *. change (Z.log2 0) with 0 in *. rewrite Z.max_l by lia. change (2 ^ 0) with 1. split; [left; reflexivity|]. pose proof (pow2_pos prec ltac:(lia)). nia.
  - pose proof (Z.log2_spec (a / b) ltac:(lia)) as [L1 L2]. rewrite <- Z.add_1_r in L2. destruct (Z.max_spec 0 (Z.log2 (a / b) + 1 - prec)) as [[C ->]|[C ->]].
    + rewrite <- !pow2_add by lia. replace (prec - 1 + (Z.log2 (a / b) + 1 - prec)) with (Z.log2 (a / b)) by lia. replace (prec + (Z.log2 (a / b) + 1 - prec)) with (Z.log2 (a / b) + 1) by lia. split; [right|]; nia.
    + change (2 ^ 0) with 1. split; [left; reflexivity|]. pose proof (pow2_le (Z.log2 (a / b) + 1) prec ltac:(lia)). nia.
Qed.
Lemma q_range : 0 <= q <= 2 ^ prec /\ (sp = 1 \/ 2 ^ (prec - 1) <= q).
Proof.
  destruct F as [F1 F2]. pose proof sp_pos as P. destruct ratio_size as [L H]. destruct (quotient_bounds a (b * sp) 0 (2 ^ prec)) as [Q1 Q2]; [nia|split; nia|]. change (quotient a (b * sp)) with q in Q1, Q2. split; [lia|].
  destruct L as [L|L]; [left; exact L|right]. apply (quotient_bounds a (b * sp) (2 ^ (prec - 1)) (2 ^ prec)); [nia|split; nia].
Qed.
Lemma ratio_form : exists m k, sp * q = m * 2 ^ k /\ 0 <= k /\ 0 <= m < 2 ^ prec.
Proof.
  destruct F as [F1 F2]. destruct q_range as [[Q0 Q1] _]. unfold sp, FloatProofs.spacing_of. set (k := Z.max 0 (Z.log2 (a / b) + 1 - prec)). destruct (Z.eq_dec q (2 ^ prec)) as [E|N].
  - exists (2 ^ (prec - 1)), (k + 1). rewrite E, <- !pow2_add by lia. split; [f_equal; lia|]. split; [lia|]. split; [apply Z.lt_le_incl, pow2_pos; lia|apply pow2_lt; lia].
  - exists q, k. split; [ring|]. split; lia.
Qed.
Lemma ratio_exact : rounded (sp * q) = sp * q.
Proof.
  destruct ratio_form as (m & k & E & K & M). rewrite E. destruct (Z.eq_dec m 0) as [->|N]; [reflexivity|]. unfold FloatProofs.rounded.
  rewrite nearest_even_multiple; [rewrite Z.mul_comm; apply Z.abs_sgn|apply spacing_pos|].
  apply Z.divide_abs_r, Z.divide_mul_r. pose proof (fewer_digits prec emax F m k K ltac:(lia) N) as L. unfold FloatProofs.spacing_of.
  exists (2 ^ (k - Z.max 0 (Z.log2 (Z.abs (m * 2 ^ k)) + 1 - prec))). rewrite <- pow2_add by lia. f_equal. lia.
Qed.
(** no number is nearer, and a tie is between neighbours of which the result is the even one *)
Lemma ratio_nearest u : representable u -> Z.abs (sp * q * b - a) <= Z.abs (u * b - a) /\
  (u <> sp * q -> Z.abs (sp * q * b - a) = Z.abs (u * b - a) -> Z.even q = true /\ Z.abs (u - sp * q) = sp).
Proof.
  intros ((m & k & -> & K & M) & _). destruct F as [F1 F2]. pose proof sp_pos as P. destruct ratio_error as [E T].
  assert (Mul : forall n, Z.abs (sp * q * b - a) <= Z.abs (sp * n * b - a) /\ (sp * n <> sp * q -> Z.abs (sp * q * b - a) = Z.abs (sp * n * b - a) -> Z.even q = true /\ Z.abs (sp * n - sp * q) = sp)).
  { intros n. destruct (Z.eq_dec n q) as [->|N]; [split; [lia|intros X; contradiction]|]. assert (G : sp * b <= Z.abs (sp * n * b - sp * q * b)).
    { replace (sp * n * b - sp * q * b) with ((n - q) * (sp * b)) by ring. rewrite Z.abs_mul, (Z.abs_eq (sp * b)) by nia. nia. }
    split; [lia|]. intros _ Eq. split; [apply T; lia|]. assert (G' : Z.abs (sp * n * b - sp * q * b) = sp * b) by lia.
    replace (sp * n * b - sp * q * b) with ((sp * n - sp * q) * b) in G' by ring. rewrite Z.abs_mul, (Z.abs_eq b) in G' by lia. nia. }
  assert (D : (sp | m * 2 ^ k) \/ (2 ^ (prec - 1) * sp * b <= a /\ m * 2 ^ k < 2 ^ (prec - 1) * sp)).
  { destruct (Z.le_gt_cases (Z.max 0 (Z.log2 (a / b) + 1 - prec)) k) as [L|L].
    - left. apply Z.divide_mul_r. exists (2 ^ (k - Z.max 0 (Z.log2 (a / b) + 1 - prec))). unfold sp, FloatProofs.spacing_of. rewrite <- pow2_add by lia. f_equal. lia.
    - right. destruct ratio_size as [[S|S] _].
      + exfalso. unfold sp, FloatProofs.spacing_of in S. pose proof (pow2_lt 0 (Z.max 0 (Z.log2 (a / b) + 1 - prec)) ltac:(lia) ltac:(lia)). change (2 ^ 0) with 1 in *. lia.
      + split; [exact S|]. pose proof (pow2_pos k K). apply Z.lt_le_trans with (2 ^ prec * 2 ^ k); [nia|]. unfold sp, FloatProofs.spacing_of. rewrite <- !pow2_add by lia. apply pow2_le. lia. }
  destruct D as [[n ->]|[D1 D2]]; [rewrite (Z.mul_comm n sp); apply Mul|].
  destruct (Mul (2 ^ (prec - 1))) as [G _]. assert (Z.abs (sp * q * b - a) < Z.abs (m * 2 ^ k * b - a)) by nia. split; [lia|]. intros _ Eq. lia.
Qed.
Lemma ratio_overflow : top <= sp * q <-> (top - 2 ^ (emax - emin - prec - 1)) * b <= a.
Proof.
  destruct F as [F1 F2]. pose proof (emin_neg _ _ F) as En. set (n := emax - emin) in *. assert (Hn : prec + 1 <= n) by (unfold n; lia). set (h := 2 ^ (n - prec - 1)). assert (Ph : 0 < h) by (apply pow2_pos; lia).
  assert (Th : 2 ^ n = 2 ^ prec * (2 * h)) by (unfold h; rewrite <- Z.pow_succ_r, <- pow2_add by lia; f_equal; lia). pose proof (pow2_pos prec ltac:(lia)) as Pp. assert (Pe : 2 ^ prec = 2 * 2 ^ (prec - 1)) by (rewrite <- Z.pow_succ_r by lia; f_equal; lia). pose proof (pow2_pos (prec - 1) ltac:(lia)) as Pq.
  pose proof sp_pos as P. destruct ratio_error as [E T]. destruct ratio_size as [S1 S2]. destruct q_range as [Q0 Q1].
  assert (D0 : 0 <= a / b) by (apply Z.div_pos; lia). pose proof (Z.mul_div_le a b B) as D1. pose proof (Z.mul_succ_div_gt a b B) as D2.
  split; intros H.
  - destruct (Z.le_gt_cases ((2 ^ n - h) * b) a) as [C|C]; [exact C|exfalso].
    assert (S : sp <= 2 * h).
    { unfold sp, FloatProofs.spacing_of, h. rewrite <- Z.pow_succ_r by lia. apply pow2_le. assert (L : a / b < 2 ^ n) by (apply Z.div_lt_upper_bound; nia).
      destruct (Z.eq_dec (a / b) 0) as [->|N]; [change (Z.log2 0) with 0; lia|]. assert (Z.log2 (a / b) < n) by (apply Z.log2_lt_pow2; lia). lia. }
    nia.
  - destruct (Z.le_gt_cases (2 ^ n) (a / b)) as [C|C].
    + assert (Ln : n <= Z.log2 (a / b)) by (apply Z.log2_le_pow2; lia). assert (S : sp * 2 ^ (prec - 1) = 2 ^ Z.log2 (a / b)) by (unfold sp, FloatProofs.spacing_of; rewrite Z.max_r, <- pow2_add by lia; f_equal; lia).
      pose proof (pow2_le n (Z.log2 (a / b)) Ln). destruct Q1 as [Q1|Q1]; [|nia]. exfalso. unfold sp, FloatProofs.spacing_of in Q1. rewrite Z.max_r in Q1 by lia. pose proof (pow2_lt 0 (Z.log2 (a / b) + 1 - prec) ltac:(lia) ltac:(lia)). change (2 ^ 0) with 1 in *. lia.
    + assert (Pn : 2 ^ n = 2 * 2 ^ (n - 1)) by (rewrite <- Z.pow_succ_r by lia; f_equal; lia). assert (C' : 2 ^ n - h <= a / b) by (apply Z.div_le_lower_bound; lia).
      assert (Ln : Z.log2 (a / b) = n - 1) by (apply Z.log2_unique; [lia|]; rewrite Z.pow_succ_r by lia; nia).
      assert (S : sp = 2 * h) by (unfold sp, FloatProofs.spacing_of, h; rewrite <- Z.pow_succ_r by lia; f_equal; lia). rewrite S in *. rewrite Th.
      destruct (Z.eq_dec q (2 ^ prec)) as [->|N]; [nia|exfalso]. assert (Eq : q = 2 ^ prec - 1) by nia. assert (Ev : Z.even q = true) by (apply T; nia).
      rewrite Eq, Pe, Z.even_sub, Z.even_mul in Ev. discriminate.
Qed.
(** the relative error, unless the result is subnormal *)
Lemma ratio_relative : 2 ^ (prec - 1) <= sp * q -> 2 ^ prec * Z.abs (sp * q * b - a) <= sp * q * b.
Proof.
  intros H. destruct F as [F1 F2]. pose proof sp_pos as P. destruct ratio_error as [E _]. destruct q_range as [_ [S|S]].
  - rewrite S in *. assert (Pe : 2 ^ prec = 2 * 2 ^ (prec - 1)) by (rewrite <- Z.pow_succ_r by lia; f_equal; lia). pose proof (pow2_pos (prec - 1) ltac:(lia)). nia.
  - assert (Pe : 2 ^ prec = 2 * 2 ^ (prec - 1)) by (rewrite <- Z.pow_succ_r by lia; f_equal; lia). pose proof (pow2_pos (prec - 1) ltac:(lia)). nia.
Qed.
End Ratio.

(** * The largest number *)
Lemma largest_number s : number (largest prec emax s).
Proof.
  destruct F as [F1 F2]. pose proof (emin_small _ _ F). pose proof (pow2_lt 1 prec ltac:(lia) F1) as G. change (2 ^ 1) with 2 in G. apply (finite_valid _ _ s). rewrite Z2Pos.id by lia.
  assert (E : Z.log2 (2 ^ prec - 1) = prec - 1) by (apply Z.log2_unique; [lia|]; replace (Z.succ (prec - 1)) with prec by lia; assert (Pe : 2 ^ prec = 2 * 2 ^ (prec - 1)) by (rewrite <- Z.pow_succ_r by lia; f_equal; lia); lia).
  rewrite E. lia.
Qed.
Lemma largest_units s : units (largest prec emax s) = signed s (top - 2 ^ (emax - emin - prec)).
Proof.
  destruct F as [F1 F2]. pose proof (emin_small _ _ F). pose proof (pow2_lt 1 prec ltac:(lia) F1) as G. change (2 ^ 1) with 2 in G. cbn [largest FloatSpec.units]. rewrite Z2Pos.id by lia.
  f_equal. replace (emax - prec - emin) with (emax - emin - prec) by lia. rewrite Z.mul_sub_distr_r, <- pow2_add by lia. f_equal; [f_equal|]; lia.
Qed.
Lemma below_largest u : representable u -> u <= top - 2 ^ (emax - emin - prec).
Proof.
  intros ((m & k & -> & K & M) & R). destruct F as [F1 F2]. pose proof (emin_neg _ _ F) as En. set (n := emax - emin) in *. assert (Hn : prec + 1 <= n) by (unfold n; lia). set (d := 2 ^ (n - prec)). assert (Pd : 0 < d) by (apply pow2_pos; lia).
  assert (Td : 2 ^ n = 2 ^ prec * d) by (unfold d; rewrite <- pow2_add by lia; f_equal; lia). pose proof (pow2_pos k K) as Pk. destruct (Z.le_gt_cases (n - prec) k) as [L|L].
  - assert (X : 2 ^ k = 2 ^ (k - (n - prec)) * d) by (unfold d; rewrite <- pow2_add by lia; f_equal; lia). rewrite X in *. pose proof (pow2_pos (k - (n - prec)) ltac:(lia)). 
    replace (m * (2 ^ (k - (n - prec)) * d)) with (m * 2 ^ (k - (n - prec)) * d) in * by ring. set (y := m * 2 ^ (k - (n - prec))) in *. assert (y < 2 ^ prec) by nia. nia.
  - assert (2 ^ k <= d) by (apply pow2_le; lia). assert (m * 2 ^ k <= (2 ^ prec - 1) * 2 ^ k) by nia. assert (1 < 2 ^ prec) by (change 1 with (2 ^ 0); apply pow2_lt; lia). nia.
Qed.
Lemma representable_opp u : representable u -> representable (- u).
Proof. intros ((m & k & -> & K & M) & R). split; [|lia]. exists (- m), k. split; [ring|]. lia. Qed.

(** * Distances *)
Lemma one_positive : 0 < one.
Proof. apply one_pos, F. Qed.
Lemma distance u c d : 0 < d -> (Qabs (ratio u one - ratio c (d * one)) == ratio (Z.abs (u * d - c)) (d * one))%Q.
Proof.
  intros D. pose proof one_positive as O. assert (P : 0 < d * one) by nia.
  assert (E : (ratio u one == ratio (u * d) (d * one))%Q) by (apply ratio_eq; [exact O|exact P|ring]). rewrite E.
  pose proof (ratio_mul (u * d) _ P) as R1. pose proof (ratio_mul c _ P) as R2. pose proof (ratio_mul (Z.abs (u * d - c)) _ P) as R3. pose proof P as P'. apply inj_lt in P'. change (inject_Z 0) with 0%Q in P'.
  apply Qmult_inj_r with (inject_Z (d * one)); [lra|]. rewrite R3. rewrite <- qabs_scale by exact P'. rewrite R1, R2. unfold Z.sub. 
  setoid_replace (inject_Z (u * d) - inject_Z c)%Q with (inject_Z (u * d + - c)) by (rewrite inject_Z_plus, inject_Z_opp; reflexivity). destruct (u * d + - c); reflexivity.
Qed.
Lemma value_ratio x : value x = ratio (units x) one.
Proof. reflexivity. Qed.
Lemma value_eq x y : (value x == value y)%Q <-> units x = units y.
Proof. pose proof one_positive. rewrite !value_ratio, ratio_eq by assumption. split; nia. Qed.
(** m * 10^e as a fraction *)
Notation num m e := (m * 10 ^ Z.max 0 e * one).
Notation den e := (10 ^ Z.max 0 (- e)).
Lemma den_pos e : 0 < den e.
Proof. apply Z.pow_pos_nonneg; lia. Qed.
Lemma decimal_ratio (s : bool) m e : (inject_Z (if s then -1 else 1) * decimal_value m e == ratio (signed s (num m e)) (den e * one))%Q.
Proof.
  pose proof one_positive as O. pose proof (den_pos e) as D. unfold decimal_value. rewrite p10_split. unfold ratio. rewrite !inject_Z_mult. apply inj_lt in O, D. change (inject_Z 0) with 0%Q in O, D. field. split; lra.
Qed.

(** * Reading *)
Definition read_value (s : bool) (m e : Z) : Q := (inject_Z (if s then -1 else 1) * decimal_value m e)%Q.
Lemma overflows_iff s m e : 0 <= m -> overflows prec emax (read_value s m e) <-> (top - 2 ^ (emax - emin - prec - 1)) * den e <= num m e.
Proof.
  intros M. pose proof one_positive as O. pose proof (den_pos e) as D. unfold overflows, read_value. set (t := top - 2 ^ (emax - emin - prec - 1)).
  assert (E : (Qabs (inject_Z (if s then -1 else 1) * decimal_value m e) == ratio (num m e) (den e * one))%Q).
  { rewrite decimal_ratio. pose proof (distance 0 (signed s (num m e)) (den e) D) as X. rewrite <- Qabs_opp. setoid_replace (- ratio (signed s (num m e)) (den e * one))%Q with (ratio 0 one - ratio (signed s (num m e)) (den e * one))%Q by (unfold ratio at 2; change (inject_Z 0) with 0%Q; unfold Qdiv; ring).
    rewrite X. apply ratio_eq; [nia..|]. f_equal. pose proof (Z.pow_nonneg 10 (Z.max 0 e)). destruct s; nia. }
  rewrite E. change (inject_Z t / inject_Z one)%Q with (ratio t one). rewrite ratio_ge by nia.
  assert (E2 : (ratio t one * inject_Z (den e * one) == inject_Z (t * den e))%Q) by (rewrite !inject_Z_mult; rewrite (Qmult_comm (inject_Z (den e))), Qmult_assoc, ratio_mul by exact O; reflexivity).
  rewrite E2, inj_le. reflexivity.
Qed.
Lemma to_float_cases s m e : 0 <= m -> let x := to_float prec emax s m e in let a := num m e in let b := den e in
  let r := spacing_of (a / b) * div_even a (b * spacing_of (a / b)) in
  number x /\ is_finite x = true /\ sign x = s /\
  (r < top /\ units x = signed s r \/ top <= r /\ x = largest prec emax s).
Proof.
  intros M. cbn zeta. unfold to_float. fold one. pose proof one_positive as O. pose proof (den_pos e) as D. pose proof (Z.pow_nonneg 10 (Z.max 0 e)) as P10.
  assert (A : 0 <= num m e) by nia. rewrite ratio_round. pose proof (sp_pos (num m e) (den e)) as SP. pose proof (q_range (num m e) (den e) A D) as [[Q0 _] _]. pose proof (ratio_exact (num m e) (den e) A D) as X.
  set (r := spacing_of (num m e / den e) * div_even (num m e) (den e * spacing_of (num m e / den e))) in *. assert (R : 0 <= r) by (unfold r; nia). pose proof (top_pos _ _ F) as T.
  destruct r as [|p|p] eqn:Er; [repeat split; try reflexivity; left; split; [lia|destruct s; reflexivity]| |lia].
  destruct (round_spec _ _ F s p emin (Z.le_refl _)) as (N & C). replace (Z.pos p * 2 ^ (emin - emin)) with (Z.pos p) in C by (rewrite Z.sub_diag; change (2 ^ 0) with 1; lia).
  assert (X' : rounded (signed s (Z.pos p)) = signed s (Z.pos p)).
  { unfold FloatProofs.rounded in *. destruct s; [|replace (1 * Z.pos p) with (Z.pos p) by lia; exact X]. replace (-1 * Z.pos p) with (Z.neg p) by lia. cbn [Z.abs Z.sgn] in *. lia. }
  rewrite X' in C. destruct C as [(E & C)|(Fi & Sg & U & _)].
  - rewrite E. repeat split; try apply largest_number. right. split; [destruct s; lia|reflexivity].
  - destruct (binary_round prec emax s p emin) as [s0|s0| |s0 m0 e0] eqn:Eb; try discriminate Fi; (split; [exact N|]; split; [exact Fi|]; split; [exact Sg|]); left; (split; [|exact U]); pose proof (units_bound _ _ F _ N) as Bd; rewrite U in Bd; destruct s; lia.
Qed.
(** the nearest number, also when the text is beyond the largest one *)
Lemma to_float_nearest s m e : 0 <= m -> nearest_number prec emax (read_value s m e) (to_float prec emax s m e).
Proof.
  intros M. destruct (to_float_cases s m e M) as (N & Fi & Sg & C). set (x := to_float prec emax s m e) in *. pose proof one_positive as O. pose proof (den_pos e) as D. pose proof (Z.pow_nonneg 10 (Z.max 0 e)) as P10. assert (A : 0 <= num m e) by nia.
  assert (Dist : forall y, (Qabs (value y - read_value s m e) == ratio (Z.abs (signed s (units y) * den e - num m e)) (den e * one))%Q).
  { intros y. unfold read_value. rewrite decimal_ratio, value_ratio, distance by exact D. apply ratio_eq; [nia..|]. f_equal. destruct s; lia. }
  assert (Le : forall u v, (ratio u (den e * one) <= ratio v (den e * one))%Q <-> u <= v).
  { intros u v. rewrite ratio_le by nia. rewrite ratio_mul by nia. apply inj_le. }
  assert (Eq : forall u v, (ratio u (den e * one) == ratio v (den e * one))%Q <-> u = v) by (intros u v; rewrite ratio_eq by nia; split; [intros X; apply Z.mul_reg_r in X; [exact X|nia]|intros ->; reflexivity]).
  assert (Rep : forall y, number y -> representable (signed s (units y))).
  { intros y Ny. pose proof (units_representable _ _ F y Ny) as R. destruct s; [replace (-1 * units y) with (- units y) by lia; apply representable_opp, R|replace (1 * units y) with (units y) by lia; exact R]. }
  assert (SS : forall z, signed s (signed s z) = z) by (intros z; destruct s; lia).
  split; [exact N|]. split; [exact Fi|]. destruct C as [(C & U)|(C & U)].
  - set (r := spacing_of (num m e / den e) * div_even (num m e) (den e * spacing_of (num m e / den e))) in *. split.
    + intros y Ny _. rewrite !Dist. apply Le. rewrite U, SS. apply (ratio_nearest _ _ A D), Rep, Ny.
    + intros y Ny _ Ne E. rewrite !Dist in E. apply (proj1 (Eq _ _)) in E. rewrite U, SS in E. destruct (ratio_nearest _ _ A D _ (Rep y Ny)) as [_ T].
      destruct T as [Ev Gap]; [intros Q; apply Ne, value_eq; rewrite U; fold r in Q; rewrite <- Q, SS; reflexivity|exact E|]. fold r in Gap.
      destruct (q_range _ _ A D) as [[Q0 Q1] _]. apply Z.even_spec in Ev. destruct Ev as (h & Eh). exists (signed s h), (Z.max 0 (Z.log2 (num m e / den e) + 1 - prec)).
      split; [rewrite U; unfold r; rewrite Eh; unfold FloatProofs.spacing_of; destruct s; ring|]. split; [lia|]. split; [destruct s; lia|]. rewrite U. fold (spacing_of (num m e / den e)). rewrite <- Gap. destruct s; lia.
  - apply (ratio_overflow _ _ A D) in C. assert (U' : signed s (units x) = top - 2 ^ (emax - emin - prec)) by (rewrite U, largest_units, SS; reflexivity).
    assert (H2 : 2 ^ (emax - emin - prec) = 2 * 2 ^ (emax - emin - prec - 1)) by (rewrite <- Z.pow_succ_r by (pose proof (emin_neg _ _ F); destruct F; lia); f_equal; lia).
    assert (Ph : 0 < 2 ^ (emax - emin - prec - 1)) by (apply pow2_pos; pose proof (emin_neg _ _ F); destruct F; lia). split.
    + intros y Ny _. rewrite !Dist. apply Le. rewrite U'. pose proof (below_largest _ (Rep y Ny)). nia.
    + intros y Ny _ Ne E. exfalso. rewrite !Dist in E. apply (proj1 (Eq _ _)) in E. rewrite U' in E. pose proof (below_largest _ (Rep y Ny)). apply Ne, value_eq. assert (signed s (units y) = signed s (units x)) by nia. rewrite <- (SS (units y)), H0. apply SS.
Qed.
(** two numbers are never the nearest ones *)
Lemma qabs_cases x : (Qabs x == x \/ Qabs x == - x)%Q.
Proof. apply Qabs_case; intros _; [left|right]; reflexivity. Qed.
Lemma nearest_number_unique v x y : nearest_number prec emax v x -> nearest_number prec emax v y -> units x = units y.
Proof.
  intros (Nx & Fx & Lx & Tx) (Ny & Fy & Ly & Ty). destruct (Z.eq_dec (units x) (units y)) as [E|N]; [exact E|exfalso]. assert (Eq : (Qabs (value x - v) == Qabs (value y - v))%Q) by (apply Qle_antisym; auto).
  destruct (Tx y Ny Fy) as (m1 & k1 & E1 & K1 & _ & G1); [intros Q; apply N; symmetry; apply value_eq, Q|exact Eq|]. destruct (Ty x Nx Fx) as (m2 & k2 & E2 & K2 & _ & G2); [intros Q; apply N, value_eq, Q|rewrite Eq; reflexivity|].
  assert (G : 2 ^ k1 = 2 ^ k2) by lia. rewrite <- G in E2. pose proof (pow2_pos k1 K1) as P. rewrite E1, E2 in G2. replace (2 * m1 * 2 ^ k1 - 2 * m2 * 2 ^ k1) with (2 * (m1 - m2) * 2 ^ k1) in G2 by ring.
  rewrite <- G, Z.abs_mul, (Z.abs_eq (2 ^ k1)) in G2 by lia. assert (Z.abs (2 * (m1 - m2)) = 1) by nia. lia.
Qed.
Lemma units_equal x y : number x -> number y -> is_finite x = true -> is_finite y = true -> sign x = sign y -> units x = units y -> x = y.
Proof.
  intros Nx Ny Fx Fy S U. destruct x as [s1|s1| |s1 m1 e1]; try discriminate; destruct y as [s2|s2| |s2 m2 e2]; try discriminate; cbn [sign] in S; subst s2.
  - reflexivity.
  - exfalso. pose proof (magnitude _ _ F _ _ _ Ny). cbn [FloatSpec.units] in U. destruct s1; lia.
  - exfalso. pose proof (magnitude _ _ F _ _ _ Nx). cbn [FloatSpec.units] in U. destruct s1; lia.
  - cbn [FloatSpec.units] in U. pose proof (magnitude_compare _ _ F _ _ _ _ _ _ Nx Ny) as C. assert (E : Z.pos m1 * 2 ^ (e1 - emin) = Z.pos m2 * 2 ^ (e2 - emin)) by (destruct s1; lia).
    rewrite E, Z.compare_refl in C. destruct (Z.compare_spec e1 e2) as [->|L|L]; try discriminate. apply Pos.compare_eq in C. subst. reflexivity.
Qed.
(** only the value of the text counts *)
Lemma to_float_value s m e x : 0 <= m -> sign x = s -> nearest_number prec emax (read_value s m e) x -> to_float prec emax s m e = x.
Proof.
  intros M S N. destruct (to_float_cases s m e M) as (Nx & Fx & Sx & _). pose proof (to_float_nearest s m e M) as T. apply units_equal; try assumption; try apply N; [congruence|]. exact (nearest_number_unique _ _ _ T N).
Qed.
Lemma nearest_number_ext v v' x : (v == v')%Q -> nearest_number prec emax v x -> nearest_number prec emax v' x.
Proof.
  intros E (N & Fi & L & T). split; [exact N|]. split; [exact Fi|]. split.
  - intros y Ny Fy. rewrite <- E. apply L; assumption.
  - intros y Ny Fy Ne Eq. rewrite <- !E in Eq. exact (T y Ny Fy Ne Eq).
Qed.
Lemma to_float_ext s m e m' e' : 0 <= m -> 0 <= m' -> (decimal_value m e == decimal_value m' e')%Q -> to_float prec emax s m e = to_float prec emax s m' e'.
Proof.
  intros M M' E. apply to_float_value; [exact M|apply (to_float_cases s m' e' M')|]. apply nearest_number_ext with (2 := to_float_nearest s m' e' M'). unfold read_value. rewrite E. reflexivity.
Qed.
End Format.
