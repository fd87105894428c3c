(** str and str_to of floating-point numbers. *)
From Coq Require Import Ascii String List Bool ZArith QArith Qabs Qpower Lqa Floats.SpecFloat Lia.
From Verif Require Import Base DigitsSpec DigitsProofs LogTextModel LogTextProofs ConvSpec GroupProofs ConvModel ConvProofs AlgoModel AlgoProofs FloatModel FloatSpec FloatProofs FloatSum FloatUse
  FloatTextModel FloatTextSpec FloatTextRound FloatTextNumber FloatTextProofs.
Import ListNotations.
Local Open Scope list_scope.
Local Open Scope Z_scope.

Lemma nearest_decimal_ext n v v' m e : (v == v')%Q -> nearest_decimal n v m e -> nearest_decimal n v' m e.
Proof.
  intros E (R & A & B). split; [exact R|]. split.
  - intros m' e' M. rewrite <- E. apply A, M.
  - intros m' e' M N T. rewrite <- !E in T. exact (B m' e' M N T).
Qed.
(** the error of six digits *)
Lemma six_error a b : 0 < a -> 0 < b -> let (d, k) := six_digits a b in (Qabs (decimal_value d (k - 5) - ratio a b) <= (1 # 200000) * ratio a b)%Q.
Proof.
  intros A B. destruct (six_near a b A B) as (N & L & H & R). unfold six_digits. cbn zeta. set (k := exponent10 a b) in *. set (q := div_even _ _) in *.
  assert (G : (Qabs (decimal_value q (k - 5) - ratio a b) <= (1 # 200000) * ratio a b)%Q).
  { set (w := (ratio a b * p10 (5 - k))%Q) in *. pose proof (p10_pos (k - 5)) as P. assert (V : (ratio a b == w * p10 (k - 5))%Q) by (unfold w; rewrite <- Qmult_assoc, <- p10_add; replace (5 - k + (k - 5)) with 0 by lia; change (p10 0) with 1%Q; ring).
    rewrite V. unfold decimal_value. rewrite qabs_scale by exact P. destruct N as [N _]. rewrite Qmult_assoc. apply Qmult_le_compat_r; [|lra]. change (inject_Z 100000) with (100000 # 1)%Q in L. lra. }
  destruct (Z.eqb_spec q 1000000) as [E|E]; [|exact G]. rewrite E in G. replace (k + 1 - 5) with (k - 5 + 1) by lia. assert (S : (decimal_value 100000 (k - 5 + 1) == decimal_value 1000000 (k - 5))%Q) by (rewrite decimal_shift by lia; reflexivity). rewrite S. exact G.
Qed.
(** six digits of a number with fewer *)
Lemma six_of m e : 0 < m < 10 ^ 6 -> exists d e', 100000 <= d < 1000000 /\ (decimal_value d e' == decimal_value m e)%Q.
Proof.
  intros M. destruct (dec_bounds m ltac:(lia)) as (L & B1 & B2). set (n := Z.of_nat (List.length (dec m))) in *. assert (N : n <= 6).
  { destruct (Z.le_gt_cases n 6) as [|C]; [assumption|exfalso]. pose proof (Z.pow_le_mono_r 10 6 (n - 1)). lia. }
  exists (m * 10 ^ (6 - n)), (e - (6 - n)). split.
  - pose proof (Z.pow_pos_nonneg 10 (6 - n)). assert (E1 : 10 ^ (n - 1) * 10 ^ (6 - n) = 100000) by (rewrite <- Z.pow_add_r by lia; replace (n - 1 + (6 - n)) with 5 by lia; reflexivity).
    assert (E2 : 10 ^ n * 10 ^ (6 - n) = 1000000) by (rewrite <- Z.pow_add_r by lia; replace (n + (6 - n)) with 6 by lia; reflexivity). nia.
  - rewrite <- decimal_shift by lia. replace (e - (6 - n) + (6 - n)) with e by lia. reflexivity.
Qed.
Lemma decimal_pos m e : 0 < m -> (0 < decimal_value m e)%Q.
Proof. intros M. apply inj_lt in M. change (inject_Z 0) with 0%Q in M. pose proof (p10_pos e). unfold decimal_value. apply Qmult_lt_0_compat; assumption. Qed.
Lemma fewer_digits_pos d k m e : 0 < d -> (decimal_value m e == decimal_value d k)%Q -> 0 < m.
Proof.
  intros D E. pose proof (decimal_pos d k D) as P. rewrite <- E in P. unfold decimal_value in P. pose proof (p10_pos e) as Pe. destruct (Z.le_gt_cases m 0) as [C|C]; [exfalso|exact C]. apply inj_le in C. change (inject_Z 0) with 0%Q in C.
  assert (inject_Z m * p10 e <= 0 * p10 e)%Q by (apply Qmult_le_compat_r; lra). lra.
Qed.
Lemma minus_sign s t : exists sg, minus s t = sg ++ t /\ sign_text s sg.
Proof. destruct s; [exists ["-"%char]|exists []]; (split; [reflexivity|cbn; auto]). Qed.

Section Format.
Variables prec emax : Z.
Hypothesis F : a_format prec emax.
Notation emin := (emin prec emax).
Notation units := (units prec emax).
Notation number := (number prec emax).
Notation one := (one prec emax).
Notation value := (value prec emax).
Notation top := (2 ^ (emax - emin)).
Notation signed s z := ((if s then -1 else 1) * z).
Notation str_float := (str_float prec emax).
Notation str_to_float := (str_to_float prec emax).
Notation to_float := (to_float prec emax).
Notation nearest_number := (nearest_number prec emax).

Lemma abs_value_ratio x : (Qabs (value x) == ratio (Z.abs (units x)) one)%Q.
Proof.
  pose proof (one_positive _ _ F) as O. rewrite value_ratio. pose proof (distance _ _ F 0 (- units x) 1 ltac:(lia)) as D. rewrite Z.mul_1_l in D.
  setoid_replace (ratio (units x) one) with (ratio 0 one - ratio (- units x) one)%Q by (unfold ratio; rewrite inject_Z_opp; change (inject_Z 0) with 0%Q; unfold Qdiv; ring). rewrite D. apply ratio_eq; [exact O..|]. f_equal. lia.
Qed.
Lemma signed_value x : (value x == inject_Z (if sign x then -1 else 1) * Qabs (value x))%Q.
Proof.
  pose proof (one_positive _ _ F) as O. rewrite abs_value_ratio, value_ratio. unfold ratio. rewrite Qmult_assoc || idtac. unfold Qdiv. rewrite Qmult_assoc. rewrite <- inject_Z_mult.
  assert (E : units x = (if sign x then -1 else 1) * Z.abs (units x)); [|rewrite <- E; reflexivity]. destruct x as [s|s| |s m e]; cbn [FloatSpec.units sign]; try (destruct s; reflexivity); try reflexivity.
  pose proof (Z.pow_nonneg 2 (e - emin)). destruct s; lia.
Qed.
Lemma units_finite s m e : Z.abs (units (S754_finite s m e)) = Zpos m * 2 ^ (e - emin).
Proof. cbn [FloatSpec.units]. pose proof (Z.pow_nonneg 2 (e - emin)). destruct s; lia. Qed.
(** the text of a finite number *)
Lemma str_finite s m e : number (S754_finite s m e) -> exists d k t m' e', str_float (S754_finite s m e) = minus s t /\ 100000 <= d < 1000000 /\
  nearest_decimal 6 (Qabs (value (S754_finite s m e))) d (k - 5) /\ (Qabs (decimal_value d (k - 5) - Qabs (value (S754_finite s m e))) <= (1 # 200000) * Qabs (value (S754_finite s m e)))%Q /\
  0 <= m' /\ number_text m' e' t /\ (decimal_value m' e' == decimal_value d (k - 5))%Q /\ form k t.
Proof.
  intros N. pose proof (one_positive _ _ F) as O. pose proof (magnitude _ _ F s m e N) as [P _]. set (x := S754_finite s m e) in *. pose proof (abs_value_ratio x) as V. unfold x in V at 2. rewrite units_finite in V.
  unfold str_float, FloatTextModel.str_float. cbn [x]. fold one. pose proof (six_digits_proof _ _ P O) as S. pose proof (six_error _ _ P O) as Er. destruct (six_digits (Z.pos m * 2 ^ (e - emin)) one) as [d k]. destruct S as [R S].
  destruct (fmt_value d k R) as (m' & e' & Pm & T & E & Fo). exists d, k, (fmt_g d k), m', e'. split; [reflexivity|]. split; [exact R|]. split; [apply nearest_decimal_ext with (2 := S); rewrite V; reflexivity|].
  split; [rewrite V; exact Er|]. repeat split; assumption.
Qed.
Lemma str_zero s : str_float (S754_zero s) = minus s (chars "0").
Proof. reflexivity. Qed.

(** * Reading *)
Lemma read_nearest ws s sg m e t rest : Forall blank ws -> sign_text s sg -> number_text m e t -> ends_number rest ->
  exists x, str_to_float (ws ++ sg ++ t ++ rest) = Ret x /\ sign x = s /\ nearest_number (inject_Z (if s then -1 else 1) * decimal_value m e) x /\
    (overflows prec emax (inject_Z (if s then -1 else 1) * decimal_value m e) -> x = largest prec emax s).
Proof.
  intros B S T Er. assert (M : 0 <= m). { destruct T as (i & p & f & ex & y & -> & _ & D & R & _). apply (DigitsProofs.read_nonneg 10 ltac:(lia) _ _ R). }
  exists (to_float s m e). split; [apply str_to_text; assumption|]. destruct (to_float_cases _ _ F s m e M) as (N & Fi & Sg & C). split; [exact Sg|]. split; [apply (to_float_nearest _ _ F s m e M)|].
  intros O. apply (overflows_iff _ _ F s m e M) in O. destruct C as [(C & _)|(_ & C)]; [exfalso|exact C].
  assert (A : 0 <= m * 10 ^ Z.max 0 e * one) by (pose proof (one_positive _ _ F); pose proof (Z.pow_nonneg 10 (Z.max 0 e)); nia).
  apply (ratio_overflow prec emax F _ _ A (den_pos e)) in O. lia.
Qed.

(** * Texts of six digits are read and written back *)
Hypothesis P6 : 2 * 10 ^ 6 < 2 ^ (prec - 1).
Lemma text_back s m e : 0 < m < 10 ^ 6 -> ~ overflows prec emax (read_value s m e) -> let x := to_float s m e in normal prec emax x ->
  exists d e', 100000 <= d < 1000000 /\ (decimal_value d e' == decimal_value m e)%Q /\ str_float x = minus s (fmt_g d (e' + 5)).
Proof.
  intros M NO x Nx. destruct (to_float_cases _ _ F s m e ltac:(lia)) as (N & Fi & Sg & C). fold x in N, Fi, Sg, C. pose proof (one_positive _ _ F) as O. pose proof (Z.pow_nonneg 10 (Z.max 0 e)) as P10. pose proof (den_pos e) as D.
  set (a := m * 10 ^ Z.max 0 e * one) in *. set (b := 10 ^ Z.max 0 (- e)) in *. assert (A : 0 <= a) by (unfold a; nia).
  set (r := FloatProofs.spacing_of prec (a / b) * div_even a (b * FloatProofs.spacing_of prec (a / b))) in *.
  destruct C as [(C & U)|(C & _)]; [|exfalso; apply NO, (overflows_iff _ _ F s m e); [lia|]; apply (ratio_overflow prec emax F a b A D) in C; exact C].
  assert (Ux : Z.abs (units x) = r). { rewrite U. destruct (q_range prec emax F a b A D) as [[Q0 _] _]. pose proof (sp_pos prec a b) as SP. assert (0 <= r) by (unfold r; nia). destruct s; lia. }
  unfold normal in Nx. rewrite Ux in Nx. pose proof (ratio_relative prec emax F a b A D Nx) as Rel. fold r in Rel. assert (Pr : 0 < r) by (pose proof (pow2_pos (prec - 1) ltac:(destruct F; lia)); lia).
  (* the relative error *)
  set (X := ratio r one). set (v := decimal_value m e). assert (Vv : (v == ratio a (b * one))%Q).
  { pose proof (decimal_ratio _ _ F false m e) as Q. change (inject_Z 1) with 1%Q in Q. rewrite Qmult_1_l, Z.mul_1_l in Q. exact Q. }
  assert (Dl : (inject_Z (2 ^ prec) * Qabs (X - v) <= X)%Q).
  { rewrite Vv. unfold X. rewrite (distance _ _ F r a b D). assert (Xe : (ratio r one == ratio (r * b) (b * one))%Q) by (apply ratio_eq; [exact O|nia|ring]). rewrite Xe.
    apply ratio_ge; [nia|]. rewrite <- Qmult_assoc, ratio_mul, <- inject_Z_mult by nia. apply inj_le. exact Rel. }
  assert (Big : (4000001 # 1 <= inject_Z (2 ^ prec))%Q).
  { change (4000001 # 1)%Q with (inject_Z 4000001). apply inj_le. replace prec with (Z.succ (prec - 1)) by lia. rewrite Z.pow_succ_r by (destruct F; lia). lia. }
  set (dl := Qabs (X - v)) in *. pose proof (Qabs_nonneg (X - v)) as Dn. fold dl in Dn. assert (X <= v + dl)%Q by (pose proof (Qle_Qabs (X - v)); unfold dl; lra).
  assert ((4000001 # 1) * dl <= inject_Z (2 ^ prec) * dl)%Q by (apply Qmult_le_compat_r; assumption). assert (Dv : ((4000000 # 1) * dl <= v)%Q) by lra.
  destruct (six_of m e M) as (d & e' & R & E). exists d, e'. split; [exact R|]. split; [exact E|]. fold v in E. pose proof (p10_pos e') as Pe.
  assert (Dd : (Qabs (decimal_value d e' - X) == dl)%Q) by (unfold dl; rewrite E, <- Qabs_opp; apply Qabs_wd; ring).
  assert (Sx : six_digits r one = (d, e' + 5)).
  { apply six_digits_of; [exact Pr|exact O|exact R| |]; fold X; rewrite Dd.
    - assert (v < inject_Z 1000000 * p10 e')%Q by (rewrite <- E; apply Qmult_lt_compat_r; [exact Pe|apply inj_lt; lia]). change (inject_Z 1000000) with (1000000 # 1)%Q in *. lra.
    - intros ->. unfold decimal_value in E. change (inject_Z 100000) with (100000 # 1)%Q in E. lra. }
  destruct x as [sx|sx| |sx mx ex] eqn:Ex; try (cbn [FloatSpec.units Z.abs] in Ux; lia). rewrite units_finite in Ux. cbn [FloatTextModel.str_float]. fold one. rewrite Ux, Sx. cbn [sign] in Sg. subst sx. reflexivity.
Qed.
(** a number that is the nearest one to a text of six digits survives *)
Lemma round_trip x m e : 0 < m < 10 ^ 6 -> normal prec emax x -> ~ overflows prec emax (inject_Z (if sign x then -1 else 1) * decimal_value m e) ->
  nearest_number (inject_Z (if sign x then -1 else 1) * decimal_value m e) x -> str_to_float (str_float x) = Ret x.
Proof.
  intros M N NO Ne. pose proof (to_float_value _ _ F (sign x) m e x ltac:(lia) eq_refl Ne) as E. pose proof (text_back (sign x) m e M NO) as T. cbn zeta in T. rewrite E in T. destruct (T N) as (d & e' & R & V & S). rewrite S.
  destruct (fmt_value d (e' + 5) R) as (m' & e2 & Pm & Nt & V' & _). destruct (minus_sign (sign x) (fmt_g d (e' + 5))) as (sg & -> & Sg). pose proof (str_to_text prec emax [] (sign x) sg m' e2 _ [] (Forall_nil _) Sg Nt I) as Q. rewrite app_nil_r in Q. cbn [app] in Q. rewrite Q. f_equal.
  etransitivity; [|exact E]. apply to_float_ext; [exact F|exact Pm|lia|]. rewrite V'. replace (e' + 5 - 5) with e' by lia. exact V.
Qed.
Lemma text_round_trip ws s sg m e t rest : Forall blank ws -> sign_text s sg -> number_text m e t -> ends_number rest -> 0 < m < 10 ^ 6 ->
  ~ overflows prec emax (inject_Z (if s then -1 else 1) * decimal_value m e) ->
  exists x, str_to_float (ws ++ sg ++ t ++ rest) = Ret x /\ (normal prec emax x -> exists m' e' t', str_float x = (if s then ["-"%char] else []) ++ t' /\ number_text m' e' t' /\ (decimal_value m' e' == decimal_value m e)%Q /\ str_to_float (str_float x) = Ret x).
Proof.
  intros B S T Er M NO. exists (to_float s m e). split; [apply str_to_text; assumption|]. intros Nx. destruct (text_back s m e M NO Nx) as (d & e' & R & V & Es). destruct (fmt_value d (e' + 5) R) as (m' & e2 & Pm & Nt & V' & _).
  exists m', e2, (fmt_g d (e' + 5)). split; [rewrite Es; destruct s; reflexivity|]. split; [exact Nt|]. split; [rewrite V'; replace (e' + 5 - 5) with e' by lia; exact V|].
  destruct (to_float_cases _ _ F s m e ltac:(lia)) as (_ & _ & Sg & _). apply (round_trip _ m e M Nx); rewrite Sg; [exact NO|apply (to_float_nearest _ _ F s m e); lia].
Qed.
(** * Any number *)
Lemma back x : number x -> is_finite x = true -> exists y d k, str_to_float (str_float x) = Ret y /\ sign y = sign x /\ 0 <= d < 1000000 /\ nearest_number (inject_Z (if sign x then -1 else 1) * decimal_value d k) y /\
  (Qabs (inject_Z (if sign x then -1 else 1) * decimal_value d k - value x) <= (1 # 200000) * Qabs (value x))%Q.
Proof.
  intros N Fi. destruct x as [s|s| |s m e]; try discriminate Fi.
  - exists (to_float s 0 0), 0, 0. cbn [sign FloatTextModel.str_float]. destruct (minus_sign s (chars "0")) as (sg & -> & Sg).
    assert (T : number_text 0 0 (chars "0")). { exists ["0"%char], [], [], [], 0. split; [reflexivity|]. split; [discriminate|]. split; [constructor; [left; reflexivity|constructor]|]. split; [reflexivity|]. split; [left; auto|]. split; [left; auto|reflexivity]. }
    split; [pose proof (str_to_text prec emax [] s sg 0 0 _ [] (Forall_nil _) Sg T I) as Q; rewrite app_nil_r in Q; exact Q|]. split; [apply (to_float_cases _ _ F s 0 0); lia|]. split; [lia|]. split; [apply (to_float_nearest _ _ F s 0 0); lia|].
    assert (Z0 : (value (S754_zero s) == 0)%Q) by reflexivity. rewrite Z0. destruct s; discriminate.
  - destruct (str_finite s m e N) as (d & k & t & m' & e' & Es & R & Nd & Er & Pm & Nt & V & _). exists (to_float s m' e'), d, (k - 5). rewrite Es. cbn [sign]. destruct (minus_sign s t) as (sg & -> & Sg).
    split; [pose proof (str_to_text prec emax [] s sg m' e' _ [] (Forall_nil _) Sg Nt I) as Q; rewrite app_nil_r in Q; exact Q|]. split; [apply (to_float_cases _ _ F s m' e'); lia|]. split; [lia|]. split.
    + apply nearest_number_ext with (2 := to_float_nearest _ _ F s m' e' Pm). unfold read_value. rewrite V. reflexivity.
    + pose proof (signed_value (S754_finite s m e)) as Sv. cbn [sign] in Sv. set (vx := value (S754_finite s m e)) in *. rewrite Sv at 1. setoid_replace (inject_Z (if s then -1 else 1) * decimal_value d (k - 5) - inject_Z (if s then -1 else 1) * Qabs vx)%Q with (inject_Z (if s then -1 else 1) * (decimal_value d (k - 5) - Qabs vx))%Q by ring.
      rewrite Qabs_Qmult. setoid_replace (Qabs (inject_Z (if s then -1 else 1))) with 1%Q by (destruct s; reflexivity). rewrite Qmult_1_l. exact Er.
Qed.
Lemma back_only x : number x -> is_finite x = true -> str_to_float (str_float x) = Ret x -> exists m e, 0 <= m < 10 ^ 6 /\ nearest_number (inject_Z (if sign x then -1 else 1) * decimal_value m e) x.
Proof. intros N Fi E. destruct (back x N Fi) as (y & d & k & Ey & _ & R & Ne & _). rewrite E in Ey. injection Ey as <-. exists d, k. split; [lia|exact Ne]. Qed.
Lemma back_error x : number x -> is_finite x = true -> exists y, str_to_float (str_float x) = Ret y /\ number y /\ is_finite y = true /\ sign y = sign x /\ (Qabs (value y - value x) <= (1 # 100000) * Qabs (value x))%Q.
Proof.
  intros N Fi. destruct (back x N Fi) as (y & d & k & Ey & Sy & R & (Ny & Fy & Ly & _) & Er). exists y. split; [exact Ey|]. split; [exact Ny|]. split; [exact Fy|]. split; [exact Sy|]. specialize (Ly x N Fi).
  set (v := (inject_Z (if sign x then -1 else 1) * decimal_value d k)%Q) in *. rewrite <- Qabs_opp in Er. setoid_replace (- (v - value x))%Q with (value x - v)%Q in Er by ring.
  setoid_replace (value y - value x)%Q with ((value y - v) + - (value x - v))%Q by ring. eapply Qle_trans; [apply Qabs_triangle|]. rewrite Qabs_opp. lra.
Qed.
(** the smallest numbers survive *)
Lemma back_small x : number x -> is_finite x = true -> Z.abs (units x) < 10 ^ 5 -> str_to_float (str_float x) = Ret x.
Proof.
  intros N Fi S. destruct (back_error x N Fi) as (y & Ey & Ny & Fy & Sy & Er). rewrite Ey. f_equal. apply (units_equal _ _ F); try assumption. pose proof (one_positive _ _ F) as O.
  rewrite abs_value_ratio, !value_ratio in Er. pose proof (distance _ _ F (units y) (units x) 1 ltac:(lia)) as D. rewrite Z.mul_1_l in D. rewrite D in Er. apply ratio_le in Er; [|exact O]. rewrite <- Qmult_assoc, ratio_mul in Er by exact O.
  destruct (Z.eq_dec (units y) (units x)) as [E|Ne]; [exact E|exfalso]. assert (G : 1 <= Z.abs (units y * 1 - units x)) by lia. apply inj_le in G. apply inj_lt in S. change (inject_Z 1) with 1%Q in G. change (inject_Z (10 ^ 5)) with (100000 # 1)%Q in S. lra.
Qed.
(** integers are written like integers *)
Lemma drop_all k : drop_zeros (repeat "0"%char k) = [].
Proof. induction k as [|k IH]; [reflexivity|exact IH]. Qed.
Lemma with_zeros i k : with_point i (repeat "0"%char k) = i.
Proof. unfold with_point. rewrite rev_zeros, drop_all. reflexivity. Qed.
Lemma str_integer x n : number x -> is_finite x = true -> units x = n * one -> n <> 0 -> Z.abs n < 10 ^ 6 -> str_float x = dec n /\ str_to_float (str_float x) = Ret x.
Proof.
  intros N Fi U Nz Sm. pose proof (one_positive _ _ F) as O. destruct x as [s|s| |s m e]; try discriminate Fi; [cbn [FloatSpec.units] in U; nia|]. set (x := S754_finite s m e) in *.
  assert (Sn : s = (n <? 0)) by (unfold x in U; cbn [FloatSpec.units] in U; pose proof (magnitude _ _ F s m e N); destruct s; symmetry; [apply Z.ltb_lt|apply Z.ltb_ge]; nia).
  assert (Ua : Zpos m * 2 ^ (e - emin) = Z.abs n * one) by (rewrite <- (units_finite s); fold x; rewrite U, Z.abs_mul, (Z.abs_eq one) by lia; reflexivity).
  assert (V : (ratio (Z.abs n * one) one == inject_Z (Z.abs n))%Q) by (unfold ratio; rewrite inject_Z_mult; apply inj_lt in O; change (inject_Z 0) with 0%Q in O; field; lra).
  split.
  - destruct (dec_digits_of (Z.abs n) ltac:(lia)) as [(Nd & Rd & Ld) Dd]. destruct (dec_bounds (Z.abs n) ltac:(lia)) as (L1 & B1 & B2). set (ds := dec (Z.abs n)) in *. set (l := Z.of_nat (List.length ds)) in *.
    assert (L6 : l <= 6). { destruct (Z.le_gt_cases l 6) as [|C]; [assumption|exfalso]. pose proof (Z.pow_le_mono_r 10 6 (l - 1)). lia. }
    set (d := Z.abs n * 10 ^ (6 - l)). assert (R : 100000 <= d < 1000000).
    { pose proof (Z.pow_pos_nonneg 10 (6 - l)). assert (E1 : 10 ^ (l - 1) * 10 ^ (6 - l) = 100000) by (rewrite <- Z.pow_add_r by lia; replace (l - 1 + (6 - l)) with 5 by lia; reflexivity).
      assert (E2 : 10 ^ l * 10 ^ (6 - l) = 1000000) by (rewrite <- Z.pow_add_r by lia; replace (l + (6 - l)) with 6 by lia; reflexivity). unfold d. nia. }
    assert (Dv : (decimal_value d (l - 6) == ratio (Z.abs n * one) one)%Q).
    { rewrite V. unfold d. rewrite <- decimal_shift by lia. replace (l - 6 + (6 - l)) with 0 by lia. unfold decimal_value. change (p10 0) with 1%Q. ring. }
    assert (Z0 : (Qabs (decimal_value d (l - 6) - ratio (Z.abs n * one) one) == 0)%Q) by (rewrite Dv; setoid_replace (ratio (Z.abs n * one) one - ratio (Z.abs n * one) one)%Q with 0%Q by ring; reflexivity).
    pose proof (p10_pos (l - 6)) as P. assert (Sx : six_digits (Z.abs n * one) one = (d, l - 6 + 5)).
    { apply six_digits_of; [nia|exact O|exact R| |intros _]; rewrite Z0; lra. }
    unfold x. cbn [FloatTextModel.str_float]. fold one. rewrite Ua, Sx. replace (l - 6 + 5) with (l - 1) by lia.
    assert (Ed : dec d = ds ++ repeat "0"%char (Z.to_nat (6 - l))).
    { apply (numeral_unique 10 ltac:(lia) _ d); [apply dec_six, R|]. split; [destruct ds; [congruence|discriminate]|]. split; [rewrite (read_zeros _ _ _ Rd); unfold d; f_equal; f_equal; f_equal; lia|].
      intros l' E. exfalso. destruct ds as [|c t]; [congruence|]. cbn in E. injection E as -> _. rewrite (Ld t eq_refl) in Rd. cbn in Rd. injection Rd as Rd. lia. }
    assert (Fm : fmt_g d (l - 1) = ds).
    { unfold fmt_g. rewrite Ed. destruct (Z.ltb_spec (l - 1) (-4)); [lia|]. destruct (Z.leb_spec 6 (l - 1)); [lia|]. cbn [orb]. destruct (Z.ltb_spec (l - 1) 0); [lia|].
      replace (Z.to_nat (l - 1 + 1)) with (List.length ds + 0)%nat by (unfold l; lia). rewrite firstn_app_2, firstn_O, app_nil_r, Nat.add_0_r, skipn_app, Nat.sub_diag, skipn_all. cbn [app skipn]. apply with_zeros. }
    rewrite Fm. unfold ds, dec. rewrite Sn. destruct (Z.ltb_spec (Z.abs n) 0); [lia|]. destruct (Z.ltb_spec n 0).
    + rewrite (Z.abs_neq n) by lia. reflexivity.
    + rewrite (Z.abs_eq n) by lia. reflexivity.
  - assert (Vx : (value x == inject_Z (if s then -1 else 1) * decimal_value (Z.abs n) 0)%Q).
    { rewrite signed_value, abs_value_ratio. unfold x. rewrite units_finite, Ua, V. unfold decimal_value. change (p10 0) with 1%Q. cbn [sign]. ring. }
    assert (E0 : forall q, (q == inject_Z (if s then -1 else 1) * decimal_value (Z.abs n) 0)%Q -> (Qabs (q - inject_Z (if s then -1 else 1) * decimal_value (Z.abs n) 0) == 0)%Q).
    { intros q E. rewrite E. setoid_replace (inject_Z (if s then -1 else 1) * decimal_value (Z.abs n) 0 - inject_Z (if s then -1 else 1) * decimal_value (Z.abs n) 0)%Q with 0%Q by ring. reflexivity. }
    assert (Eone : one = 2 ^ (emax + prec - 3)) by (unfold FloatSpec.one, SpecFloat.emin; f_equal; lia). destruct F as [F1 F2].
    apply (round_trip x (Z.abs n) 0); cbn [sign x].
    + lia.
    + unfold normal. unfold x. rewrite units_finite, Ua, Eone. apply Z.le_trans with (1 * 2 ^ (emax + prec - 3)); [rewrite Z.mul_1_l; apply pow2_le; lia|]. apply Z.mul_le_mono_nonneg_r; [apply Z.lt_le_incl, pow2_pos; lia|lia].
    + intros C. apply (overflows_iff _ _ F s (Z.abs n) 0 ltac:(lia)) in C. change (10 ^ Z.max 0 0) with 1 in C. change (10 ^ Z.max 0 (- 0)) with 1 in C. rewrite !Z.mul_1_r in C.
      assert (T : 2 ^ (emax - emin) = 2 * (2 ^ (emax - 1 - emin))) by (rewrite <- Z.pow_succ_r by (unfold SpecFloat.emin; lia); f_equal; lia).
      assert (H : 2 ^ (emax - emin - prec - 1) <= 2 ^ (emax - 1 - emin)) by (apply pow2_le; lia).
      assert (G : Z.abs n * one < 2 ^ (emax - 1 - emin)).
      { apply Z.lt_le_trans with (2 ^ (prec - 1) * one); [nia|]. unfold FloatSpec.one. rewrite <- pow2_add by (unfold SpecFloat.emin; lia). apply pow2_le. lia. }
      lia.
    + split; [exact N|]. split; [reflexivity|]. split.
      * intros y _ _. rewrite (E0 _ Vx). apply Qabs_nonneg.
      * intros y Ny Fy Ne Eq. exfalso. rewrite (E0 _ Vx) in Eq. apply Ne. rewrite Vx. set (w := (inject_Z (if s then -1 else 1) * decimal_value (Z.abs n) 0)%Q) in *. pose proof (Qle_Qabs (value y - w)). pose proof (Qle_Qabs (- (value y - w))) as G. rewrite Qabs_opp in G. lra.
Qed.
(** what is not finite is read as zero *)
Lemma back_not_finite x : is_finite x = false -> str_to_float (str_float x) = Ret (S754_zero false).
Proof. destruct x as [s|[]| |s m e]; intros H; try discriminate H; reflexivity. Qed.
End Format.

(** * The theorems *)
Section Theorems.
Variables prec emax : Z.
Hypothesis F : a_format prec emax.
Notation units := (units prec emax).
Notation number := (number prec emax).
Notation one := (one prec emax).
Notation value := (value prec emax).
Notation str_float := (str_float prec emax).
Notation str_to_float := (str_to_float prec emax).
Lemma minus_text s t : minus s t = (if s then ["-"%char] else []) ++ t.
Proof. destruct s; reflexivity. Qed.
Lemma six_digits_shown x : number x -> is_finite x = true -> units x <> 0 -> exists d k t m e, str_float x = (if sign x then ["-"%char] else []) ++ t /\ 100000 <= d < 1000000 /\
  nearest_decimal 6 (Qabs (value x)) d (k - 5) /\ number_text m e t /\ (decimal_value m e == decimal_value d (k - 5))%Q /\ form k t.
Proof.
  intros N Fi U. destruct x as [s|s| |s m e]; try discriminate Fi; [exfalso; apply U; reflexivity|]. destruct (str_finite prec emax F s m e N) as (d & k & t & m' & e' & E & R & Nd & _ & _ & T & V & Fo).
  exists d, k, t, m', e'. rewrite E, minus_text. split; [reflexivity|]. repeat split; try assumption; try apply R; apply Nd.
Qed.
Lemma shown_error x : number x -> is_finite x = true -> exists sg m e t, str_float x = sg ++ t /\ sign_text (sign x) sg /\ number_text m e t /\
  (Qabs (inject_Z (if sign x then -1 else 1) * decimal_value m e - value x) <= (1 # 200000) * Qabs (value x))%Q.
Proof.
  intros N Fi. destruct x as [s|s| |s m e]; try discriminate Fi.
  - destruct (minus_sign s (chars "0")) as (sg & E & Sg). exists sg, 0, 0, (chars "0"). split; [exact E|]. split; [exact Sg|]. split.
    + exists ["0"%char], [], [], [], 0. split; [reflexivity|]. split; [discriminate|]. split; [constructor; [left; reflexivity|constructor]|]. split; [reflexivity|]. split; [left; auto|]. split; [left; auto|reflexivity].
    + cbn [sign]. assert (Z0 : (value (S754_zero s) == 0)%Q) by reflexivity. rewrite Z0. destruct s; discriminate.
  - destruct (str_finite prec emax F s m e N) as (d & k & t & m' & e' & Es & R & _ & Er & _ & Nt & V & _). destruct (minus_sign s t) as (sg & E & Sg). exists sg, m', e', t. split; [rewrite Es; exact E|]. split; [exact Sg|]. split; [exact Nt|].
    pose proof (signed_value prec emax F (S754_finite s m e)) as Sv. cbn [sign] in Sv |- *. set (vx := value (S754_finite s m e)) in *. rewrite V. rewrite Sv at 1. setoid_replace (inject_Z (if s then -1 else 1) * decimal_value d (k - 5) - inject_Z (if s then -1 else 1) * Qabs vx)%Q with (inject_Z (if s then -1 else 1) * (decimal_value d (k - 5) - Qabs vx))%Q by ring.
    rewrite Qabs_Qmult. setoid_replace (Qabs (inject_Z (if s then -1 else 1))) with 1%Q by (destruct s; reflexivity). rewrite Qmult_1_l. exact Er.
Qed.
Lemma integer_shown x n : 2 * 10 ^ 6 < 2 ^ (prec - 1) -> number x -> is_finite x = true -> units x = n * one -> n <> 0 -> Z.abs n < 10 ^ 6 -> decimal n (str_float x) /\ str_to_float (str_float x) = Ret x.
Proof. intros P N Fi U Nz S. destruct (str_integer prec emax F P x n N Fi U Nz S) as [A B]. split; [|exact B]. rewrite A. exact (decimal_proof n). Qed.
Lemma other_shown : (forall s, str_float (S754_zero s) = chars (if s then "-0" else "0")) /\ (forall s, str_float (S754_infinity s) = chars (if s then "-inf" else "inf")) /\ str_float S754_nan = chars "nan".
Proof. repeat split; intros []; reflexivity. Qed.
Lemma read_nearest_proof ws s sg m e t rest : Forall blank ws -> sign_text s sg -> number_text m e t -> ends_number rest ->
  exists x, str_to_float (ws ++ sg ++ t ++ rest) = Ret x /\ sign x = s /\ nearest_number prec emax (inject_Z (if s then -1 else 1) * decimal_value m e) x.
Proof. intros B S T E. destruct (read_nearest prec emax F ws s sg m e t rest B S T E) as (x & A & Sg & N & _). eauto. Qed.
Lemma read_overflow_proof ws s sg m e t rest : Forall blank ws -> sign_text s sg -> number_text m e t -> ends_number rest -> overflows prec emax (inject_Z (if s then -1 else 1) * decimal_value m e) ->
  exists x, str_to_float (ws ++ sg ++ t ++ rest) = Ret x /\ sign x = s /\ number x /\ is_finite x = true /\ (forall y, number y -> is_finite y = true -> Z.abs (units y) <= Z.abs (units x)).
Proof.
  intros B S T E O. destruct (read_nearest prec emax F ws s sg m e t rest B S T E) as (x & A & Sg & N & L). exists x. split; [exact A|]. split; [exact Sg|]. split; [apply N|]. split; [apply N|]. intros y Ny _. rewrite (L O), (largest_units prec emax F).
  pose proof (units_representable _ _ F y Ny) as R. pose proof (below_largest prec emax F _ R). pose proof (below_largest prec emax F _ (representable_opp prec emax _ R)). destruct s; lia.
Qed.
End Theorems.
Local Open Scope string_scope.
Lemma read_inf_refuted_proof : exists x, number 53 1024 x /\ is_finite x = false /\ str_to_float 53 1024 (chars "inf") = Ret (S754_zero false) /\ str_float 53 1024 x = chars "inf".
Proof. exists (S754_infinity false). repeat split; vm_compute; reflexivity. Qed.
Lemma inverts_refuted_proof : exists x y, number 53 1024 x /\ is_finite x = true /\ units 53 1024 x = 1234567 * one 53 1024 /\ str_float 53 1024 x = chars "1.23457e+06" /\
  str_to_float 53 1024 (str_float 53 1024 x) = Ret y /\ units 53 1024 y = 1234570 * one 53 1024.
Proof. exists (of_int 53 1024 1234567), (of_int 53 1024 1234570). repeat split; vm_compute; reflexivity. Qed.
