(** pow of integers. *)
From Coq Require Import ZArith Znumtheory Zpow_facts Bool Lia.
From Verif Require Import AlgoModel AlgoSpec AlgoProofs.
Local Open Scope Z_scope.

Definition dbl (z : Z) : Prop := exists k e, 0 <= e /\ Z.abs k < 2 ^ 53 /\ z = k * 2 ^ e.
Lemma p53 : 2 ^ 53 = 9007199254740992. Proof. reflexivity. Qed.

Lemma dbl_iff z : dbl z <-> to_double z = z.
Proof.
  rewrite to_double_exact. split.
  - intros (k & e & He & Hk & ->). destruct (Z.lt_ge_cases (Z.abs (k * 2 ^ e)) (2 ^ 53)) as [L|L]; [left; exact L|right].
    assert (P : 0 < 2 ^ e) by (apply Z.pow_pos_nonneg; lia).
    assert (U : Z.abs (k * 2 ^ e) < 2 ^ (53 + e)).
    { rewrite Z.abs_mul, (Z.abs_eq (2 ^ e)), Z.pow_add_r by lia. apply Z.mul_lt_mono_pos_r; assumption. }
    apply Z.log2_lt_pow2 in U; [|rewrite p53 in L; lia].
    apply Z.divide_mul_r. exists (2 ^ (e - (Z.log2 (Z.abs (k * 2 ^ e)) - 52))).
    assert (53 <= Z.log2 (Z.abs (k * 2 ^ e))). { apply Z.log2_le_mono in L. rewrite Z.log2_pow2 in L; lia. }
    rewrite <- Z.pow_add_r by lia. f_equal. lia.
  - intros H. destruct (Z.lt_ge_cases (Z.abs z) (2 ^ 53)) as [L|L].
    + exists z, 0. rewrite Z.pow_0_r. split; [lia|]. split; [exact L|lia].
    + destruct H as [H|(k & H)]; [lia|]. destruct (spacing z L) as (P & _).
      assert (B : 53 <= Z.log2 (Z.abs z)). { apply Z.log2_le_mono in L. rewrite Z.log2_pow2 in L; lia. }
      set (l := Z.log2 (Z.abs z)) in *. exists k, (l - 52). split; [lia|]. split; [|exact H].
      assert (U : Z.abs z < 2 ^ Z.succ l). { apply Z.log2_spec. rewrite p53 in L; lia. }
      replace (Z.succ l) with (53 + (l - 52)) in U by lia. rewrite Z.pow_add_r in U by lia.
      rewrite H in U at 1. rewrite Z.abs_mul, (Z.abs_eq (2 ^ (l - 52))) in U by lia.
      apply Z.mul_lt_mono_pos_r in U; assumption.
Qed.

(** what the conversion gives is a double, and an even number beyond 2^53 *)
Lemma to_double_shape n : 2 ^ 53 <= Z.abs n -> exists k e, 1 <= e /\ Z.abs k <= 2 ^ 53 /\ to_double n = k * 2 ^ e.
Proof.
  intros L. unfold to_double. destruct (Z.ltb_spec (Z.abs n) (2 ^ 53)) as [L'|_]; [lia|].
  destruct (spacing n L) as (P & _).
  assert (B : 53 <= Z.log2 (Z.abs n)). { apply Z.log2_le_mono in L. rewrite Z.log2_pow2 in L; lia. }
  set (l := Z.log2 (Z.abs n)) in *.
  assert (U : Z.abs n < 2 ^ Z.succ l). { apply Z.log2_spec. rewrite p53 in L; lia. }
  replace (Z.succ l) with ((l - 52) + 53) in U by lia. rewrite Z.pow_add_r in U by lia.
  set (d := 2 ^ (l - 52)) in *. set (a := Z.abs n) in *.
  assert (Q : a / d < 2 ^ 53) by (apply Z.div_lt_upper_bound; lia).
  assert (Q0 : 0 <= a / d) by (apply Z.div_pos; lia).
  unfold nearest_even.
  set (q := if 2 * (a mod d) <? d then a / d else if d <? 2 * (a mod d) then a / d + 1 else if Z.even (a / d) then a / d else a / d + 1).
  assert (Hq : 0 <= q <= 2 ^ 53).
  { unfold q. destruct (2 * (a mod d) <? d); [lia|]. destruct (d <? 2 * (a mod d)); [lia|]. destruct (Z.even (a / d)); lia. }
  exists (Z.sgn n * q), (l - 52). split; [lia|]. split; [|fold d; ring].
  rewrite Z.abs_mul. assert (Z.abs (Z.sgn n) = 1) by (rewrite p53 in L; destruct n; [cbn in L; lia|reflexivity|reflexivity]). lia.
Qed.
Lemma to_double_dbl n : dbl (to_double n).
Proof.
  destruct (Z.lt_ge_cases (Z.abs n) (2 ^ 53)) as [L|L].
  - assert (E : to_double n = n) by (apply to_double_small; lia). rewrite E. exists n, 0. rewrite Z.pow_0_r. split; [lia|]. split; [exact L|lia].
  - destruct (to_double_shape n L) as (k & e & He & Hk & ->). destruct (Z.eq_dec (Z.abs k) (2 ^ 53)) as [E|E].
    + exists (Z.sgn k * 2 ^ 52), (e + 1). split; [lia|]. split.
      * rewrite Z.abs_mul. assert (Z.abs (Z.sgn k) <= 1) by (destruct k; cbn; lia). change (Z.abs (2 ^ 52)) with (2 ^ 52). change (2 ^ 53) with (2 * 2 ^ 52). nia.
      * assert (K : k = Z.sgn k * 2 ^ 53) by (rewrite <- E, Z.mul_comm; symmetry; apply Z.abs_sgn).
        rewrite K at 1. rewrite Z.pow_add_r by lia. change (2 ^ 53) with (2 ^ 52 * 2). change (2 ^ 1) with 2. ring.
    + exists k, e. split; [lia|]. split; [lia|reflexivity].
Qed.
Lemma to_double_even n : 2 ^ 53 <= Z.abs n -> Z.odd (to_double n) = false.
Proof.
  intros L. destruct (to_double_shape n L) as (k & e & He & _ & ->). replace e with (1 + (e - 1)) by lia.
  rewrite Z.pow_add_r by lia. change (2 ^ 1) with 2. replace (k * (2 * 2 ^ (e - 1))) with (2 * (k * 2 ^ (e - 1))) by ring.
  rewrite Z.odd_mul. reflexivity.
Qed.
Lemma to_double_positive n : 0 < n -> 0 < to_double n.
Proof. intros H. pose proof (to_double_error n) as E. rewrite p53 in E. lia. Qed.
Lemma to_double_bound n : Z.abs n < 2 ^ 64 -> Z.abs (to_double n) < 2 ^ 1024.
Proof.
  intros H. pose proof (to_double_error n) as E. rewrite p53 in E. apply Z.lt_trans with (2 ^ 65); [|reflexivity].
  change (2 ^ 65) with (2 * 2 ^ 64). lia.
Qed.

(** the odd part *)
Lemma odd_part_pos p : exists q a, 0 <= a /\ Z.odd q = true /\ Z.pos p = q * 2 ^ a.
Proof.
  induction p as [p IH|p IH|].
  - exists (Z.pos p~1), 0. split; [lia|]. split; [reflexivity|]. rewrite Z.pow_0_r. lia.
  - destruct IH as (q & a & Ha & Hq & E). exists q, (a + 1). split; [lia|]. split; [exact Hq|].
    rewrite Z.pow_add_r by lia. change (2 ^ 1) with 2. rewrite Z.mul_assoc, <- E. lia.
  - exists 1, 0. auto with zarith.
Qed.
Lemma odd_part n : n <> 0 -> exists q a, 0 <= a /\ Z.odd q = true /\ n = q * 2 ^ a.
Proof.
  destruct n as [|p|p]; [congruence| |]; intros _; destruct (odd_part_pos p) as (q & a & Ha & Hq & E).
  - exists q, a. auto.
  - exists (- q), a. split; [exact Ha|]. split; [rewrite Z.odd_opp; exact Hq|]. rewrite Z.mul_opp_l, <- E. reflexivity.
Qed.
Lemma odd_pow q m : 0 <= m -> Z.odd q = true -> Z.odd (q ^ m) = true.
Proof.
  intros Hm Hq. pattern m. apply natlike_ind; [reflexivity| |exact Hm].
  intros x Hx IH. rewrite Z.pow_succ_r, Z.odd_mul, IH, Hq by exact Hx. reflexivity.
Qed.
Lemma odd_coprime q e : 0 <= e -> Z.odd q = true -> rel_prime q (2 ^ e).
Proof.
  intros He Hq. apply rel_prime_Zpower_r; [exact He|]. apply rel_prime_sym, prime_rel_prime; [exact prime_2|].
  intros (x & ->). rewrite Z.odd_mul, andb_false_r in Hq. discriminate.
Qed.
(** an integer with a power that is a double is one *)
Lemma root_dbl n m : 1 <= m -> dbl (n ^ m) -> dbl n.
Proof.
  intros Hm (k & e & He & Hk & E). destruct (Z.eq_dec n 0) as [->|N]; [exists 0, 0; cbn; lia|].
  destruct (odd_part n N) as (q & a & Ha & Hq & ->). exists q, a. split; [exact Ha|]. split; [|reflexivity].
  assert (D : (q ^ m | k)).
  { apply Gauss with (2 ^ e).
    - rewrite Z.mul_comm, <- E, Z.pow_mul_l. apply Z.divide_factor_l.
    - apply odd_coprime; [exact He|]. apply odd_pow; [lia|exact Hq]. }
  assert (Q : q <> 0) by (intros ->; discriminate).
  assert (K : k <> 0).
  { intros ->. cbn in E. assert (q * 2 ^ a = 0); [|congruence]. apply (Z.pow_eq_0 _ m); [lia|exact E]. }
  apply Z.divide_abs_l, Z.divide_abs_r in D. apply Z.divide_pos_le in D; [|lia]. rewrite Z.abs_pow in D.
  assert (Z.abs q <= Z.abs q ^ m); [|lia].
  rewrite <- (Z.pow_1_r (Z.abs q)) at 1. apply Z.pow_le_mono_r; lia.
Qed.

Lemma one_pow m : (-1) ^ m = if m <? 0 then 0 else if Z.odd m then -1 else 1.
Proof.
  destruct (Z.ltb_spec m 0) as [L|L]; [apply Z.pow_neg_r; exact L|].
  destruct (Z.odd m) eqn:O.
  - change (-1) with (- (1)) at 1. rewrite Z.pow_opp_odd; [rewrite Z.pow_1_l by lia; reflexivity|].
    apply Z.odd_spec. exact O.
  - change (-1) with (- (1)). rewrite Z.pow_opp_even; [apply Z.pow_1_l; lia|]. apply Z.even_spec. rewrite <- Z.negb_odd, O. reflexivity.
Qed.

Lemma double_iff z : double_integer z <-> to_double z = z /\ Z.abs z < 2 ^ 1024.
Proof. unfold double_integer. fold (dbl z). rewrite dbl_iff. tauto. Qed.

Theorem pow_exact cpow n m : faithful_pow cpow -> Z.abs n < 2 ^ 64 -> 0 <= m < 2 ^ 64 ->
  (AlgoModel.pow cpow n m = Some (n ^ m) <-> double_integer (n ^ m) /\ ~ (n = -1 /\ Z.odd m = true /\ 2 ^ 53 < m)).
Proof.
  intros (F1 & F2) Hn Hm. unfold AlgoModel.pow.
  assert (Dm : double_integer (to_double m)).
  { split; [apply to_double_dbl|]. apply to_double_bound. lia. }
  assert (Dn : double_integer (to_double n)) by (split; [apply to_double_dbl|apply to_double_bound; exact Hn]).
  assert (D1 : double_integer 1) by (apply double_iff; split; reflexivity).
  assert (D1' : double_integer (-1)) by (apply double_iff; split; reflexivity).
  assert (D0 : double_integer 0) by (apply double_iff; split; reflexivity).
  assert (T1 : to_double (-1) = -1) by reflexivity.
  split.
  - intros E. split; [exact (F1 _ _ _ E)|]. intros (-> & O & L).
    assert (Ev : Z.odd (to_double m) = false) by (apply to_double_even; lia).
    assert (P : 0 < to_double m) by (apply to_double_positive; lia).
    rewrite T1 in E. rewrite F2 in E; [|exact D1'|exact Dm|lia|].
    + rewrite !one_pow, O, Ev in E. destruct (Z.ltb_spec (to_double m) 0); [lia|]. destruct (Z.ltb_spec m 0); [lia|]. discriminate.
    + rewrite one_pow, Ev. destruct (Z.ltb_spec (to_double m) 0); [lia|exact D1].
  - intros (D & X). destruct (Z.eq_dec m 0) as [->|M].
    { change (to_double 0) with 0. rewrite F2; [rewrite !Z.pow_0_r; reflexivity|exact Dn|exact D0|lia|rewrite Z.pow_0_r; exact D1]. }
    assert (En : to_double n = n) by (apply dbl_iff, (root_dbl n m); [lia|apply D]). rewrite En in *.
    destruct (Z.le_gt_cases m (2 ^ 53)) as [L|L].
    { rewrite (to_double_small m) in * by lia. apply F2; auto. lia. }
    assert (P : 0 < to_double m) by (apply to_double_positive; lia).
    assert (Ev : Z.odd (to_double m) = false) by (apply to_double_even; lia).
    assert (N1 : Z.abs n <= 1).
    { apply Z.nlt_ge. intros N2. destruct D as (_ & D). rewrite Z.abs_pow in D.
      apply (Z.lt_irrefl (2 ^ 1024)). eapply Z.le_lt_trans; [|exact D].
      apply Z.le_trans with (2 ^ m); [apply Z.pow_le_mono_r; rewrite ?p53 in L; lia|]. apply Z.pow_le_mono_l. lia. }
    assert (C : n = 0 \/ n = 1 \/ n = -1) by lia. destruct C as [-> | [-> | ->]].
    + rewrite F2; rewrite ?Z.pow_0_l by lia; auto. lia.
    + rewrite F2; rewrite ?Z.pow_1_l by lia; auto. lia.
    + assert (O : Z.odd m = false) by (destruct (Z.odd m) eqn:O; [exfalso; apply X; auto|reflexivity]).
      assert (E1 : (-1) ^ to_double m = 1) by (rewrite one_pow, Ev; destruct (Z.ltb_spec (to_double m) 0); [lia|reflexivity]).
      assert (E2 : (-1) ^ m = 1) by (rewrite one_pow, O; destruct (Z.ltb_spec m 0); [lia|reflexivity]).
      rewrite E2. rewrite F2; [rewrite E1; reflexivity|exact D1'|exact Dm|lia|rewrite E1; exact D1].
Qed.

(** a function like that *)
Definition some_pow (a b : Z) : option Z :=
  if (0 <=? b) && (to_double (a ^ b) =? a ^ b) && (Z.abs (a ^ b) <? 2 ^ 1024) then Some (a ^ b) else None.
Lemma some_pow_faithful : faithful_pow some_pow.
Proof.
  unfold some_pow. split.
  - intros a b r. destruct (0 <=? b); [|discriminate]. destruct (Z.eqb_spec (to_double (a ^ b)) (a ^ b)) as [E|E]; [|discriminate].
    cbn [andb]. destruct (Z.ltb_spec (Z.abs (a ^ b)) (2 ^ 1024)) as [L|L]; [|discriminate]. intros Q. injection Q as <-. apply double_iff. auto.
  - intros a b _ _ Hb D. apply double_iff in D. destruct D as (E & L). rewrite E, Z.eqb_refl.
    rewrite (proj2 (Z.leb_le 0 b) Hb), (proj2 (Z.ltb_lt _ _) L). reflexivity.
Qed.
Lemma pow_cases : AlgoModel.pow some_pow 3 5 = Some 243 /\ AlgoModel.pow some_pow (-2) 63 = Some (- 2 ^ 63) /\
  AlgoModel.pow some_pow 3 34 = None /\ AlgoModel.pow some_pow (2 ^ 53 + 1) 1 = Some (2 ^ 53) /\
  ~ double_integer (3 ^ 34).
Proof.
  assert (E : to_double (3 ^ 34) <> 3 ^ 34) by (vm_compute; discriminate).
  split; [vm_compute; reflexivity|]. split; [vm_compute; reflexivity|]. split; [vm_compute; reflexivity|].
  split; [vm_compute; reflexivity|]. intros D. apply double_iff in D. tauto.
Qed.
Lemma pow_minus_one cpow : faithful_pow cpow -> AlgoModel.pow cpow (-1) (2 ^ 53 + 1) = Some 1.
Proof.
  intros (_ & F2). unfold AlgoModel.pow. change (to_double (-1)) with (-1).
  replace (to_double (2 ^ 53 + 1)) with (2 ^ 53) by (vm_compute; reflexivity).
  assert (D : double_integer (2 ^ 53)) by (apply double_iff; split; vm_compute; reflexivity).
  assert (P : 0 <= 2 ^ 53) by (vm_compute; discriminate). assert (O : Z.odd (2 ^ 53) = false) by (vm_compute; reflexivity).
  generalize dependent (2 ^ 53). intros m D P O.
  assert (E : (-1) ^ m = 1) by (rewrite one_pow, O; destruct (Z.ltb_spec m 0); [lia|reflexivity]).
  assert (D1 : double_integer 1) by (apply double_iff; split; vm_compute; reflexivity).
  assert (D2 : double_integer (-1)) by (apply double_iff; split; vm_compute; reflexivity).
  rewrite <- E. apply F2; [exact D2|exact D|exact P|rewrite E; exact D1].
Qed.
