(** Rounding of rational numbers: to six decimal digits and to floating-point numbers. *)
From Coq Require Import Ascii String List Bool ZArith QArith Qabs Qpower Lqa Floats.SpecFloat Lia.
From Verif Require Import Base LogTextModel LogTextProofs GroupProofs ConvModel AlgoModel FloatModel FloatSpec FloatProofs FloatSum FloatTextModel FloatTextSpec.
Import ListNotations.
Local Open Scope Z_scope.

(** * Rationals *)
Notation p10 := (Qpower (10 # 1)).
Lemma p10_pos e : (0 < p10 e)%Q.
Proof. apply Qpower_0_lt. reflexivity. Qed.
Lemma p10_add a b : (p10 (a + b) == p10 a * p10 b)%Q.
Proof. apply Qpower_plus. intros H. discriminate H. Qed.
Lemma p10_int n : 0 <= n -> (p10 n == inject_Z (10 ^ n))%Q.
Proof. intros H. rewrite Zpower_Qpower by exact H. reflexivity. Qed.
Lemma p10_opp n : (p10 (- n) * p10 n == 1)%Q.
Proof. rewrite <- p10_add. replace (- n + n) with 0 by lia. reflexivity. Qed.
Lemma inj_lt a b : (inject_Z a < inject_Z b)%Q <-> a < b.
Proof. rewrite Zlt_Qlt. reflexivity. Qed.
Lemma inj_le a b : (inject_Z a <= inject_Z b)%Q <-> a <= b.
Proof. rewrite Zle_Qle. reflexivity. Qed.
Lemma inj_eq a b : (inject_Z a == inject_Z b)%Q <-> a = b.
Proof. apply inject_Z_injective. Qed.
Definition ratio (a b : Z) : Q := (inject_Z a / inject_Z b)%Q.
Lemma ratio_mul a b : 0 < b -> (ratio a b * inject_Z b == inject_Z a)%Q.
Proof. intros H. unfold ratio. apply inj_lt in H. change (inject_Z 0) with 0%Q in H. field. lra. Qed.
Lemma ratio_le a b q : 0 < b -> (ratio a b <= q)%Q <-> (inject_Z a <= q * inject_Z b)%Q.
Proof.
  intros H. rewrite <- (ratio_mul a b H). apply inj_lt in H. change (inject_Z 0) with 0%Q in H. split; intros L.
  - apply Qmult_le_compat_r; lra.
  - apply Qmult_lt_0_le_reg_r in L; assumption.
Qed.
Lemma ratio_ge a b q : 0 < b -> (q <= ratio a b)%Q <-> (q * inject_Z b <= inject_Z a)%Q.
Proof.
  intros H. rewrite <- (ratio_mul a b H). apply inj_lt in H. change (inject_Z 0) with 0%Q in H. split; intros L.
  - apply Qmult_le_compat_r; lra.
  - apply Qmult_lt_0_le_reg_r in L; assumption.
Qed.
Lemma ratio_lt a b q : 0 < b -> (ratio a b < q)%Q <-> (inject_Z a < q * inject_Z b)%Q.
Proof. intros H. pose proof (ratio_ge a b q H) as G. split; intros L; apply Qnot_le_lt; intros C; apply G in C; lra. Qed.
Lemma ratio_pos a b : 0 < a -> 0 < b -> (0 < ratio a b)%Q.
Proof. intros A B. apply Qnot_le_lt. intros C. apply ratio_le in C; [|exact B]. apply inj_lt in A. change (inject_Z 0) with 0%Q in A. lra. Qed.
Lemma ratio_eq a b c d : 0 < b -> 0 < d -> (ratio a b == ratio c d)%Q <-> a * d = c * b.
Proof.
  intros B D. rewrite <- inj_eq, !inject_Z_mult. rewrite <- (ratio_mul a b B) at 1. rewrite <- (ratio_mul c d D) at 1.
  apply inj_lt in B, D. change (inject_Z 0) with 0%Q in B, D. split; intros H; [rewrite H; ring|].
  assert (E : (ratio a b * (inject_Z b * inject_Z d) == ratio c d * (inject_Z b * inject_Z d))%Q) by (rewrite Qmult_assoc, H; ring).
  apply Qmult_inj_r in E; [exact E|]. nra.
Qed.
Lemma p10_split e : (p10 e == ratio (10 ^ Z.max 0 e) (10 ^ Z.max 0 (- e)))%Q.
Proof.
  unfold ratio. rewrite <- !p10_int by lia. pose proof (p10_pos (Z.max 0 (- e))).
  apply Qmult_inj_r with (p10 (Z.max 0 (- e))); [lra|]. rewrite <- p10_add. setoid_replace (p10 (Z.max 0 e) / p10 (Z.max 0 (- e)) * p10 (Z.max 0 (- e)))%Q with (p10 (Z.max 0 e)) by (field; lra).
  replace (e + Z.max 0 (- e)) with (Z.max 0 e) by lia. reflexivity.
Qed.

(** * The nearest integer *)
Lemma div_even_quotient a b : div_even a b = quotient a b.
Proof. reflexivity. Qed.
Lemma div_even_Z a b : 0 < b -> 2 * Z.abs (div_even a b * b - a) <= b /\ (2 * Z.abs (div_even a b * b - a) = b -> Z.even (div_even a b) = true).
Proof.
  intros B. unfold div_even. cbn zeta. pose proof (Z.div_mod a b ltac:(lia)) as D. pose proof (Z.mod_pos_bound a b B) as M.
  destruct (Z.ltb_spec (2 * (a mod b)) b); [split; [nia|intros E; exfalso; nia]|]. destruct (Z.ltb_spec b (2 * (a mod b))); [split; [nia|intros E; exfalso; nia]|].
  destruct (Z.even (a / b)) eqn:E; (split; [nia|]); intros _; [exact E|]. rewrite Z.even_add, E. reflexivity.
Qed.
(** [q] is the integer nearest to [w] *)
Definition near (w : Q) (q : Z) : Prop := (Qabs (inject_Z q - w) <= 1 # 2)%Q /\ ((Qabs (inject_Z q - w) == 1 # 2)%Q -> Z.even q = true).
Lemma near_ext w w' q : (w == w')%Q -> near w q -> near w' q.
Proof. intros E [A B]. split; [rewrite <- E; exact A|intros C; apply B; rewrite E; exact C]. Qed.
Lemma abs_ratio q a b : 0 < b -> (Qabs (inject_Z q - ratio a b) == ratio (Z.abs (q * b - a)) b)%Q.
Proof.
  intros B. pose proof (ratio_mul a b B) as R. pose proof (ratio_mul (Z.abs (q * b - a)) b B) as R'. pose proof B as B'. apply inj_lt in B'. change (inject_Z 0) with 0%Q in B'.
  apply Qmult_inj_r with (inject_Z b); [lra|]. rewrite R'. transitivity (Qabs (inject_Z q - ratio a b) * Qabs (inject_Z b))%Q; [rewrite (Qabs_pos (inject_Z b)) by lra; reflexivity|]. rewrite <- Qabs_Qmult.
  setoid_replace ((inject_Z q - ratio a b) * inject_Z b)%Q with (inject_Z (q * b - a))%Q.
  - destruct (q * b - a) as [|p|p]; reflexivity.
  - unfold Z.sub. rewrite inject_Z_plus, inject_Z_opp, inject_Z_mult, <- R. ring.
Qed.
Lemma div_even_near a b : 0 < b -> near (ratio a b) (div_even a b).
Proof.
  intros B. destruct (div_even_Z a b B) as [L T]. split.
  - rewrite abs_ratio by exact B. apply ratio_le; [exact B|]. apply inj_le in L. rewrite inject_Z_mult in L. change (inject_Z 2) with 2%Q in L. lra.
  - intros E. apply T. rewrite abs_ratio in E by exact B. pose proof (ratio_mul (Z.abs (div_even a b * b - a)) b B) as R. rewrite E in R. apply inj_eq. rewrite inject_Z_mult, <- R. change (inject_Z 2) with 2%Q. ring.
Qed.
Lemma near_best w q n : near w q -> (Qabs (inject_Z q - w) <= Qabs (inject_Z n - w))%Q.
Proof.
  intros [A _]. destruct (Z.eq_dec n q) as [->|N]; [apply Qle_refl|]. apply Qle_trans with (1 := A).
  assert (C : n <= q - 1 \/ q + 1 <= n) by lia. apply Qabs_Qle_condition in A. destruct C as [C|C]; apply inj_le in C; unfold Z.sub in C; rewrite inject_Z_plus in C; change (inject_Z 1) with 1%Q in C; change (inject_Z (- (1))) with (- (1))%Q in C.
  - apply Qle_trans with (- (inject_Z n - w))%Q; [lra|]. rewrite <- Qabs_opp. apply Qle_Qabs.
  - apply Qle_trans with (inject_Z n - w)%Q; [lra|]. apply Qle_Qabs.
Qed.
Lemma near_tie w q n : near w q -> n <> q -> (Qabs (inject_Z q - w) == Qabs (inject_Z n - w))%Q -> Z.even q = true.
Proof.
  intros [A T] N E. apply T. assert (C : n <= q - 1 \/ q + 1 <= n) by lia. apply Qle_antisym; [exact A|]. pose proof (Qle_refl (Qabs (inject_Z n - w))) as B. rewrite <- E in B at 2. 
  apply Qabs_Qle_condition in A. destruct C as [C|C]; apply inj_le in C; unfold Z.sub in C; rewrite inject_Z_plus in C; change (inject_Z 1) with 1%Q in C; change (inject_Z (- (1))) with (- (1))%Q in C; rewrite E.
  - apply Qle_trans with (- (inject_Z n - w))%Q; [lra|]. rewrite <- Qabs_opp. apply Qle_Qabs.
  - apply Qle_trans with (inject_Z n - w)%Q; [lra|]. apply Qle_Qabs.
Qed.
Lemma near_unique w q n : near w q -> (Qabs (inject_Z n - w) < 1 # 2)%Q -> q = n.
Proof.
  intros [A _] B. destruct (Z.eq_dec q n) as [E|N]; [exact E|exfalso]. apply Qabs_Qle_condition in A. apply Qlt_le_weak in B as B'. apply Qabs_Qle_condition in B'.
  pose proof (Qle_Qabs (inject_Z n - w)) as U. pose proof (Qle_Qabs (- (inject_Z n - w))) as V. rewrite Qabs_opp in V.
  assert (C : q <= n - 1 \/ n + 1 <= q) by lia. destruct C as [C|C]; apply inj_le in C; unfold Z.sub in C; rewrite inject_Z_plus in C; change (inject_Z 1) with 1%Q in C; change (inject_Z (- (1))) with (- (1))%Q in C; lra.
Qed.
Lemma near_range w q lo hi : near w q -> (inject_Z lo <= w)%Q -> (w <= inject_Z hi)%Q -> lo <= q <= hi.
Proof.
  intros [A _] L H. apply Qabs_Qle_condition in A. split; apply Z.le_ngt; intros C; assert (C' : q <= lo - 1 \/ hi + 1 <= q) by lia.
  - assert (D : q + 1 <= lo) by lia. apply inj_le in D. rewrite inject_Z_plus in D. change (inject_Z 1) with 1%Q in D. lra.
  - assert (D : hi + 1 <= q) by lia. apply inj_le in D. rewrite inject_Z_plus in D. change (inject_Z 1) with 1%Q in D. lra.
Qed.

(** * The decimal exponent *)
Lemma dec_bounds n : 1 <= n -> 1 <= Z.of_nat (length (dec n)) /\ 10 ^ (Z.of_nat (length (dec n)) - 1) <= n < 10 ^ Z.of_nat (length (dec n)).
Proof.
  intros H. destruct (length (dec n)) as [|k] eqn:L.
  - exfalso. pose proof (dec_long n 0). change (10 ^ Z.of_nat 0) with 1 in *. lia.
  - split; [lia|]. split.
    + replace (Z.of_nat (S k) - 1) with (Z.of_nat k) by lia. destruct k as [|k]; [change (10 ^ Z.of_nat 0) with 1; lia|].
      apply Z.le_ngt. intros C. apply dec_length_iff in C; lia.
    + apply dec_length_iff; lia.
Qed.
Lemma exponent_proof a b : 0 < a -> 0 < b -> (p10 (exponent10 a b) <= ratio a b)%Q /\ (ratio a b < p10 (exponent10 a b + 1))%Q.
Proof.
  intros A B. unfold exponent10. destruct (Z.leb_spec b a) as [C|C].
  - destruct (dec_bounds (a / b)) as (L & D1 & D2); [apply Z.div_le_lower_bound; lia|]. set (n := Z.of_nat (length (dec (a / b)))) in *. split.
    + rewrite p10_int by lia. apply ratio_ge; [exact B|]. rewrite <- inject_Z_mult. apply inj_le. pose proof (Z.mul_div_le a b B). nia.
    + replace (n - 1 + 1) with n by lia. rewrite p10_int by lia. apply ratio_lt; [exact B|]. rewrite <- inject_Z_mult. apply inj_lt. pose proof (Z.mul_succ_div_gt a b B). nia.
  - destruct (dec_bounds ((b - 1) / a)) as (L & D1 & D2); [apply Z.div_le_lower_bound; lia|]. set (n := Z.of_nat (length (dec ((b - 1) / a)))) in *. split.
    + apply ratio_ge; [exact B|]. pose proof (p10_opp n) as E. pose proof (p10_pos n) as P. assert (I : (p10 n == inject_Z (10 ^ n))%Q) by (apply p10_int; lia). rewrite I in E, P.
      assert (G : b <= a * 10 ^ n) by (pose proof (Z.mul_succ_div_gt (b - 1) a A); nia). apply inj_le in G. rewrite inject_Z_mult in G.
      pose proof (p10_pos (- n)) as P'. setoid_replace (inject_Z a) with (p10 (- n) * (inject_Z a * inject_Z (10 ^ n)))%Q by (rewrite (Qmult_comm (inject_Z a)), Qmult_assoc, E; ring).
      apply Qmult_le_l; assumption.
    + apply ratio_lt; [exact B|]. pose proof (p10_opp (n - 1)) as E. replace (- n + 1) with (- (n - 1)) by lia. pose proof (p10_pos (- (n - 1))) as P'.
      assert (G : a * 10 ^ (n - 1) < b) by (pose proof (Z.mul_div_le (b - 1) a A); nia). apply inj_lt in G. assert (I : (p10 (n - 1) == inject_Z (10 ^ (n - 1)))%Q) by (apply p10_int; lia). rewrite inject_Z_mult, <- I in G.
      setoid_replace (inject_Z a) with (p10 (- (n - 1)) * (inject_Z a * p10 (n - 1)))%Q by (rewrite (Qmult_comm (inject_Z a)), Qmult_assoc, E; ring).
      apply Qmult_lt_l; assumption.
Qed.
Lemma p10_lt_inv a b : (p10 a < p10 b)%Q -> a < b.
Proof. intros H. eapply Qpower_lt_compat_l_inv; [exact H|reflexivity]. Qed.
Lemma exponent_unique a b k : 0 < a -> 0 < b -> (p10 k <= ratio a b)%Q -> (ratio a b < p10 (k + 1))%Q -> exponent10 a b = k.
Proof.
  intros A B L H. destruct (exponent_proof a b A B) as [L' H']. 
  assert (k < exponent10 a b + 1) by (apply p10_lt_inv; eapply Qle_lt_trans; eassumption). assert (exponent10 a b < k + 1) by (apply p10_lt_inv; eapply Qle_lt_trans; eassumption). lia.
Qed.

(** * Six digits *)
Lemma scaled a b e : 0 < b -> (ratio (a * 10 ^ Z.max 0 e) (b * 10 ^ Z.max 0 (- e)) == ratio a b * p10 e)%Q.
Proof.
  intros B. rewrite p10_split. unfold ratio. rewrite !inject_Z_mult. apply inj_lt in B. change (inject_Z 0) with 0%Q in B.
  pose proof (p10_pos (Z.max 0 (- e))) as P. assert (I : (p10 (Z.max 0 (- e)) == inject_Z (10 ^ Z.max 0 (- e)))%Q) by (apply p10_int; lia). rewrite I in P. field. split; lra.
Qed.
(** the number before the carry *)
Lemma six_near a b : 0 < a -> 0 < b -> let k := exponent10 a b in let q := div_even (a * 10 ^ Z.max 0 (5 - k)) (b * 10 ^ Z.max 0 (k - 5)) in
  near (ratio a b * p10 (5 - k)) q /\ (inject_Z 100000 <= ratio a b * p10 (5 - k))%Q /\ (ratio a b * p10 (5 - k) < inject_Z 1000000)%Q /\ 100000 <= q <= 1000000.
Proof.
  intros A B k q. destruct (exponent_proof a b A B) as [L H]. fold k in L, H. pose proof (p10_pos (5 - k)) as P.
  assert (N : near (ratio a b * p10 (5 - k)) q).
  { eapply near_ext; [apply scaled; exact B|]. unfold q. replace (k - 5) with (- (5 - k)) by lia. apply div_even_near. pose proof (Z.pow_pos_nonneg 10 (Z.max 0 (- (5 - k)))). nia. }
  assert (L' : (inject_Z 100000 <= ratio a b * p10 (5 - k))%Q).
  { change 100000 with (10 ^ 5). rewrite <- p10_int by lia. replace 5 with (k + (5 - k)) at 1 by lia. rewrite p10_add. apply Qmult_le_compat_r; lra. }
  assert (H' : (ratio a b * p10 (5 - k) < inject_Z 1000000)%Q).
  { change 1000000 with (10 ^ 6). rewrite <- p10_int by lia. replace 6 with ((k + 1) + (5 - k)) at 1 by lia. rewrite p10_add. apply Qmult_lt_compat_r; assumption. }
  repeat split; try assumption; try apply N. 
  - destruct (near_range _ _ 100000 1000000 N L'); [lra|assumption].
  - destruct (near_range _ _ 100000 1000000 N L'); [lra|assumption].
Qed.
Lemma qabs_scale x y p : (0 < p)%Q -> (Qabs (x * p - y * p) == Qabs (x - y) * p)%Q.
Proof. intros P. transitivity (Qabs (x - y) * Qabs p)%Q; [|rewrite (Qabs_pos p) by lra; reflexivity]. rewrite <- Qabs_Qmult. setoid_replace ((x - y) * p)%Q with (x * p - y * p)%Q by ring. reflexivity. Qed.
Lemma decimal_shift m e j : 0 <= j -> (decimal_value m (e + j) == decimal_value (m * 10 ^ j) e)%Q.
Proof. intros H. unfold decimal_value. rewrite p10_add, inject_Z_mult, <- p10_int by exact H. ring. Qed.
(** rounding on the grid 10^e, for values of at least 10^5 on it *)
Lemma grid_nearest v e q : near (v * p10 (- e)) q -> (inject_Z 100000 <= v * p10 (- e))%Q -> 
  (forall m' e', 0 <= m' < 10 ^ 6 -> (Qabs (decimal_value q e - v) <= Qabs (decimal_value m' e' - v))%Q) /\
  (forall m' e', 0 <= m' < 10 ^ 6 -> ~ (decimal_value m' e' == decimal_value q e)%Q -> (Qabs (decimal_value q e - v) == Qabs (decimal_value m' e' - v))%Q -> Z.even q = true).
Proof.
  intros N L. set (w := (v * p10 (- e))%Q) in *. pose proof (p10_pos e) as P.
  assert (V : (v == w * p10 e)%Q) by (unfold w; rewrite <- Qmult_assoc, p10_opp; ring).
  assert (K : forall n, (Qabs (decimal_value n e - v) == Qabs (inject_Z n - w) * p10 e)%Q) by (intros n; rewrite V; unfold decimal_value; apply qabs_scale, P).
  assert (Far : forall m' e', 0 <= m' < 10 ^ 6 -> e' < e -> (Qabs (inject_Z q - w) * p10 e < Qabs (decimal_value m' e' - v))%Q).
  { intros m' e' M E. pose proof (near_best _ _ 100000 N) as B. assert (Z1 : (decimal_value m' e' < inject_Z 100000 * p10 e)%Q).
    { apply Qlt_le_trans with (inject_Z (10 ^ 6) * p10 e')%Q; [apply Qmult_lt_compat_r; [apply p10_pos|apply inj_lt; lia]|].
      rewrite <- p10_int by lia. change 100000 with (10 ^ 5). rewrite <- p10_int by lia. rewrite <- !p10_add. apply Qpower_le_compat_l; [lia|discriminate]. }
    rewrite (Qabs_neg (inject_Z 100000 - w)) in B by lra. apply Qle_lt_trans with (- (inject_Z 100000 - w) * p10 e)%Q; [apply Qmult_le_compat_r; lra|].
    rewrite <- Qabs_opp. eapply Qlt_le_trans; [|apply Qle_Qabs]. rewrite V. lra. }
  split.
  - intros m' e' M. rewrite K. destruct (Z.le_gt_cases e e') as [E|E].
    + pose proof (decimal_shift m' e (e' - e) ltac:(lia)) as S. replace (e + (e' - e)) with e' in S by lia. rewrite S, (K (m' * 10 ^ (e' - e))). apply Qmult_le_compat_r; [apply near_best, N|lra].
    + apply Qlt_le_weak, Far; assumption.
  - intros m' e' M Ne Eq. rewrite K in Eq. destruct (Z.le_gt_cases e e') as [E|E].
    + pose proof (decimal_shift m' e (e' - e) ltac:(lia)) as S. replace (e + (e' - e)) with e' in S by lia. rewrite S, (K (m' * 10 ^ (e' - e))) in Eq. rewrite S in Ne. apply Qmult_inj_r in Eq; [|lra].
      eapply near_tie; [exact N| |exact Eq]. intros Q. apply Ne. rewrite Q. reflexivity.
    + pose proof (Far m' e' M E). lra.
Qed.
Lemma six_digits_proof a b : 0 < a -> 0 < b -> let (d, x) := six_digits a b in 100000 <= d < 1000000 /\ nearest_decimal 6 (ratio a b) d (x - 5).
Proof.
  intros A B. destruct (six_near a b A B) as (N & L & H & R). unfold six_digits. set (k := exponent10 a b) in *. cbn zeta.
  set (q := div_even (a * 10 ^ Z.max 0 (5 - k)) (b * 10 ^ Z.max 0 (k - 5))) in *. replace (5 - k) with (- (k - 5)) in N, L by lia.
  destruct (grid_nearest (ratio a b) (k - 5) q N L) as [G1 G2]. destruct (Z.eqb_spec q 1000000) as [E|E].
  - split; [lia|]. rewrite E in G1, G2. replace (k + 1 - 5) with (k - 5 + 1) by lia. assert (S : (decimal_value 100000 (k - 5 + 1) == decimal_value 1000000 (k - 5))%Q) by (rewrite decimal_shift by lia; reflexivity).
    split; [lia|]. split; [|reflexivity]. intros m' e' M. rewrite S. apply G1, M.
  - split; [lia|]. split; [lia|]. split; assumption.
Qed.
(** what is near a decimal number of six digits is rounded to it *)
Lemma six_digits_of a b d e : 0 < a -> 0 < b -> 100000 <= d < 1000000 -> (Qabs (decimal_value d e - ratio a b) < (1 # 2) * p10 e)%Q ->
  (d = 100000 -> (Qabs (decimal_value d e - ratio a b) < (1 # 20) * p10 e)%Q) -> six_digits a b = (d, e + 5).
Proof.
  intros A B D C C1. set (v := ratio a b) in *. pose proof (p10_pos e) as P. destruct (six_near a b A B) as (N & L & H & R). unfold six_digits. cbn zeta. fold v in N, L, H.
  pose proof (Qle_Qabs (decimal_value d e - v)) as U1. pose proof (Qle_Qabs (- (decimal_value d e - v))) as U2. rewrite Qabs_opp in U2.
  destruct (Qlt_le_dec v (inject_Z 100000 * p10 e)) as [S|S].
  - (* just below a power of ten *)
    assert (E : d = 100000).
    { destruct (Z.eq_dec d 100000) as [|Ne]; [assumption|exfalso]. assert (G : 100000 + 1 <= d) by lia. apply inj_le in G. rewrite inject_Z_plus in G. change (inject_Z 1) with 1%Q in G.
      unfold decimal_value in *. assert (inject_Z 100000 * p10 e + p10 e <= inject_Z d * p10 e)%Q by (apply Qle_trans with ((inject_Z 100000 + 1) * p10 e)%Q; [lra|apply Qmult_le_compat_r; lra]). lra. }
    specialize (C1 E). subst d. unfold decimal_value in *. assert (P1 : (p10 e == (10 # 1) * p10 (e - 1))%Q) by (replace e with (1 + (e - 1)) at 1 by lia; rewrite p10_add; reflexivity). pose proof (p10_pos (e - 1)) as P2.
    assert (X : exponent10 a b = e + 4).
    { apply exponent_unique; [assumption..| |]; fold v.
      - rewrite p10_add. change (p10 4) with (inject_Z 10000). change (inject_Z 100000) with (100000 # 1)%Q in *. change (inject_Z 10000) with (10000 # 1)%Q. lra.
      - replace (e + 4 + 1) with (5 + e) by lia. rewrite p10_add. change (p10 5) with (inject_Z 100000). exact S. }
    rewrite X in *. assert (Q : div_even (a * 10 ^ Z.max 0 (5 - (e + 4))) (b * 10 ^ Z.max 0 (e + 4 - 5)) = 1000000).
    { apply (near_unique _ _ _ N). set (w := (v * p10 (5 - (e + 4)))%Q) in *. assert (V : (v == w * p10 (e - 1))%Q) by (unfold w; rewrite <- Qmult_assoc, <- p10_add; replace (5 - (e + 4) + (e - 1)) with 0 by lia; change (p10 0) with 1%Q; ring).
      apply Qmult_lt_r with (p10 (e - 1)); [exact P2|]. rewrite <- qabs_scale by exact P2. rewrite <- V.
      setoid_replace (inject_Z 1000000 * p10 (e - 1))%Q with (inject_Z 100000 * p10 e)%Q by (rewrite P1; change (inject_Z 1000000) with (inject_Z 100000 * (10 # 1))%Q; ring). rewrite P1 in C1 at 2. lra. }
    rewrite Q. cbn [Z.eqb Pos.eqb]. f_equal. lia.
  - assert (X : exponent10 a b = e + 5).
    { apply exponent_unique; [assumption..| |]; fold v.
      - rewrite p10_add, Qmult_comm. exact S.
      - replace (e + 5 + 1) with (6 + e) by lia. rewrite p10_add. change (p10 6) with (inject_Z 1000000). unfold decimal_value in *.
        assert (G : d + 1 <= 1000000) by lia. apply inj_le in G. rewrite inject_Z_plus in G. change (inject_Z 1) with 1%Q in G.
        assert (inject_Z d * p10 e + p10 e <= inject_Z 1000000 * p10 e)%Q by (apply Qle_trans with ((inject_Z d + 1) * p10 e)%Q; [lra|apply Qmult_le_compat_r; lra]). lra. }
    rewrite X in *. assert (Q : div_even (a * 10 ^ Z.max 0 (5 - (e + 5))) (b * 10 ^ Z.max 0 (e + 5 - 5)) = d).
    { apply (near_unique _ _ _ N). set (w := (v * p10 (5 - (e + 5)))%Q) in *. assert (V : (v == w * p10 e)%Q) by (unfold w; rewrite <- Qmult_assoc, <- p10_add; replace (5 - (e + 5) + e) with 0 by lia; change (p10 0) with 1%Q; ring).
      apply Qmult_lt_r with (p10 e); [exact P|]. rewrite <- qabs_scale by exact P. rewrite <- V. exact C. }
    rewrite Q. destruct (Z.eqb_spec d 1000000); [lia|]. f_equal.
Qed.
