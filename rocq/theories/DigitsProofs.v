From Coq Require Import ZArith List Bool Ascii String Lia.
From Verif Require Import Base DigitsModel DigitsSpec.
Import ListNotations.
Open Scope Z_scope.

(** what the loops maintain: nothing printed yet while the number read so far is 0 *)
Definition inv (base : Z) (prefix : list ascii) (x : Z) (result : list ascii) : Prop :=
  (result = [] /\ x = 0) \/
  (0 < x /\ exists d ds, result = prefix ++ d :: ds /\ d <> "0"%char /\ read base (d :: ds) = Some x).

Definition step (prefix : list ascii) (c : ascii) (d : Z) (result : list ascii) : list ascii :=
  match result with
  | _ :: _ => result ++ [c]
  | [] => if negb (d =? 0) then prefix ++ [c] else result
  end.

Lemma inv_step base prefix x result d c : 1 < base -> prefix <> [] ->
  inv base prefix x result -> 0 <= d < base -> digit_of c = Some d ->
  inv base prefix (x * base + d) (step prefix c d result).
Proof.
  intros Hb Hp I Hd Hc. destruct I as [[-> ->]|(Hx & c0 & ds & -> & Hc0 & R)].
  - simpl. destruct (Z.eqb_spec d 0) as [->|D]; [left; split; reflexivity|].
    right. split; [lia|]. exists c, []. split; [reflexivity|]. split.
    + intros ->. injection Hc as <-. lia.
    + unfold read. simpl. rewrite Hc, (proj2 (Z.ltb_lt _ _)) by lia. reflexivity.
  - right. split; [nia|]. exists c0, (ds ++ [c]). split; [|split; [exact Hc0|]].
    + destruct prefix; [congruence|]. simpl. rewrite <- app_assoc. reflexivity.
    + unfold read in *. change (c0 :: ds ++ [c]) with ((c0 :: ds) ++ [c]).
      rewrite fold_left_app, R. simpl. rewrite Hc, (proj2 (Z.ltb_lt _ _)) by lia. reflexivity.
Qed.

Lemma inv_end base prefix x result : 1 < base -> inv base prefix x result ->
  exists ds, match result with [] => prefix ++ ["0"%char] | _ => result end = prefix ++ ds /\
    numeral base x ds.
Proof.
  intros Hb [[-> ->]|(Hx & d & ds & -> & Hd & R)].
  - exists ["0"%char]. split; [reflexivity|]. split; [discriminate|]. split.
    + unfold read. cbn. rewrite (proj2 (Z.ltb_lt _ _)) by lia. f_equal. 
    + intros ds' E. injection E as <-. reflexivity.
  - exists (d :: ds). split.
    + destruct prefix; reflexivity.
    + split; [discriminate|]. split; [exact R|]. intros ds' E. injection E as -> _. congruence.
Qed.

Lemma land_ones_mod a k : 0 <= k -> Z.land a (2 ^ k - 1) = a mod 2 ^ k.
Proof. intros. rewrite <- Z.land_ones by assumption. rewrite Z.ones_equiv. reflexivity. Qed.

Lemma div_step u p k : 0 <= p -> 0 <= k -> 0 <= u ->
  u / 2 ^ p = (u / 2 ^ (p + k)) * 2 ^ k + (u / 2 ^ p) mod 2 ^ k.
Proof.
  intros. rewrite Z.pow_add_r by lia. rewrite <- Z.div_div by (apply Z.pow_nonzero || apply Z.pow_pos_nonneg; lia).
  rewrite (Z.mul_comm (_ / _ / _)). apply Z.div_mod. apply Z.pow_nonzero; lia.
Qed.

Lemma mod_low v w p k : 0 <= p -> 0 <= k -> p + k <= w ->
  (v / 2 ^ p) mod 2 ^ k = ((v mod 2 ^ w) / 2 ^ p) mod 2 ^ k.
Proof.
  intros. rewrite <- !Z.shiftr_div_pow2, <- !Z.land_ones by lia.
  apply Z.bits_inj'. intros i Hi. rewrite !Z.land_spec, !Z.shiftr_spec by lia.
  destruct (Z.testbit (Z.ones k) i) eqn:T; [|rewrite !andb_false_r; reflexivity].
  rewrite Z.testbit_ones_nonneg in T by lia. apply Z.ltb_lt in T.
  rewrite Z.land_spec, Z.testbit_ones_nonneg by lia.
  rewrite (proj2 (Z.ltb_lt (i + p) w)) by lia. rewrite !andb_true_r. reflexivity.
Qed.

Lemma mod_top v w p : 0 <= p <= w -> (v / 2 ^ p) mod 2 ^ (w - p) = (v mod 2 ^ w) / 2 ^ p.
Proof.
  intros. rewrite (mod_low v w) by lia. apply Z.mod_small.
  assert (0 <= v mod 2 ^ w < 2 ^ w) by (apply Z.mod_pos_bound; apply Z.pow_pos_nonneg; lia).
  assert (0 < 2 ^ p) by (apply Z.pow_pos_nonneg; lia).
  split; [apply Z.div_pos; lia|]. apply Z.div_lt_upper_bound; [lia|].
  rewrite <- Z.pow_add_r by lia. replace (p + (w - p)) with w by lia. lia.
Qed.

Lemma shr_ok n v k : 0 <= k < bits n -> shr n v k = Ret (v / 2 ^ k).
Proof.
  intros. unfold shr. rewrite (proj2 (Z.leb_le _ _)), (proj2 (Z.ltb_lt _ _)) by lia. simpl.
  rewrite Z.shiftr_div_pow2 by lia. reflexivity.
Qed.

Definition unsigned (n : nat) (v : Z) : Z := v mod 2 ^ bits n.

Lemma unsigned_range n v : 0 <= unsigned n v < 2 ^ bits n.
Proof. unfold unsigned, bits. apply Z.mod_pos_bound. apply Z.pow_pos_nonneg; lia. Qed.

Lemma top_zero n v : 0 = unsigned n v / 2 ^ bits n.
Proof. symmetry. apply Z.div_small. apply unsigned_range. Qed.

(** * bin *)
Lemma bin_loop_ok n v : forall i result, Z.of_nat i <= bits n ->
  inv 2 (text "0b") (unsigned n v / 2 ^ Z.of_nat i) result ->
  exists r, bin_loop n v i result = Ret r /\ inv 2 (text "0b") (unsigned n v) r.
Proof.
  induction i as [|i IH]; intros result Hi I.
  - exists result. split; [reflexivity|]. rewrite Z.div_1_r in I. exact I.
  - cbn [bin_loop]. rewrite shr_ok by lia. cbn [obind].
    change 1 with (2 ^ 1 - 1). rewrite land_ones_mod by lia.
    rewrite (mod_low v (bits n)) by lia. fold (unsigned n v).
    set (d := (unsigned n v / 2 ^ Z.of_nat i) mod 2 ^ 1).
    assert (Hd : 0 <= d < 2) by (apply Z.mod_pos_bound; lia).
    set (c := if d =? 0 then "0"%char else "1"%char).
    assert (Hc : digit_of c = Some d).
    { unfold c. assert (D : d = 0 \/ d = 1) by lia. destruct D as [-> | ->]; reflexivity. }
    assert (I' : inv 2 (text "0b") (unsigned n v / 2 ^ Z.of_nat i) (step (text "0b") c d result)).
    { rewrite (div_step _ _ 1) by (try apply unsigned_range; lia).
      replace (Z.of_nat i + 1) with (Z.of_nat (S i)) by lia.
      apply inv_step; try discriminate; auto; lia. }
    destruct (IH _ ltac:(lia) I') as (r & E & R). exists r. split; [|exact R].
    rewrite <- E. unfold step. destruct result; [|reflexivity].
    destruct (d =? 0) eqn:D; cbn [negb]; [reflexivity|].
    unfold c. rewrite ?D. reflexivity.
Qed.

Theorem bin_ok n v : exists ds, bin n v = Ret (text "0b" ++ ds) /\ numeral 2 (v mod 2 ^ bits n) ds.
Proof.
  destruct (bin_loop_ok n v (n * 8) []) as (r & E & I).
  { unfold bits. lia. }
  { left. split; [reflexivity|]. replace (Z.of_nat (n * 8)) with (bits n) by (unfold bits; lia).
    symmetry. apply top_zero. }
  destruct (inv_end 2 _ _ _ ltac:(lia) I) as (ds & Er & N). exists ds. split; [|exact N].
  unfold bin. rewrite E. cbn [obind]. f_equal. rewrite <- Er. destruct r; reflexivity.
Qed.

(** * characters *)
Lemma char_at_hex d : 0 <= d < 16 ->
  exists c, char_at "0123456789abcdef" d = Ret c /\ digit_of c = Some d.
Proof.
  intros H. rewrite <- (Z2Nat.id d) by lia.
  assert (L : (Z.to_nat d < 16)%nat) by lia. revert L. generalize (Z.to_nat d) as k. clear.
  intros k L. do 16 (destruct k as [|k]; [eexists; split; reflexivity|]). lia.
Qed.

Lemma char_at_oct d : 0 <= d < 8 ->
  exists c, char_at "01234567" d = Ret c /\ digit_of c = Some d.
Proof.
  intros H. rewrite <- (Z2Nat.id d) by lia.
  assert (L : (Z.to_nat d < 8)%nat) by lia. revert L. generalize (Z.to_nat d) as k. clear.
  intros k L. do 8 (destruct k as [|k]; [eexists; split; reflexivity|]). lia.
Qed.

(** * hex *)
Lemma hex_loop_ok n v : forall i result, Z.of_nat i * 4 <= bits n ->
  inv 16 (text "0x") (unsigned n v / 2 ^ (Z.of_nat i * 4)) result ->
  exists r, hex_loop n v i (Z.of_nat i * 4) result = Ret r /\ inv 16 (text "0x") (unsigned n v) r.
Proof.
  induction i as [|i IH]; intros result Hi I.
  - exists result. split; [reflexivity|]. rewrite Z.div_1_r in I. exact I.
  - cbn [hex_loop]. replace (Z.of_nat (S i) * 4 - 4) with (Z.of_nat i * 4) by lia.
    rewrite shr_ok by lia. cbn [obind].
    change 15 with (2 ^ 4 - 1). rewrite land_ones_mod by lia.
    rewrite (mod_low v (bits n)) by lia. fold (unsigned n v).
    set (d := (unsigned n v / 2 ^ (Z.of_nat i * 4)) mod 2 ^ 4).
    assert (Hd : 0 <= d < 16) by (apply Z.mod_pos_bound; lia).
    destruct (char_at_hex d Hd) as (c & Ec & Hc). rewrite Ec. cbn [obind].
    assert (I' : inv 16 (text "0x") (unsigned n v / 2 ^ (Z.of_nat i * 4)) (step (text "0x") c d result)).
    { rewrite (div_step _ _ 4) by (try apply unsigned_range; lia).
      replace (Z.of_nat i * 4 + 4) with (Z.of_nat (S i) * 4) by lia.
      apply (inv_step 16); try discriminate; auto; lia. }
    destruct (IH _ ltac:(lia) I') as (r & E & R). exists r. split; [|exact R].
    rewrite <- E. unfold step. destruct result; [|reflexivity].
    destruct (d =? 0) eqn:D; reflexivity.
Qed.

Theorem hex_ok n v : exists ds, hex n v = Ret (text "0x" ++ ds) /\ numeral 16 (v mod 2 ^ bits n) ds.
Proof.
  assert (B : Z.of_nat (n * 2) * 4 = bits n) by (unfold bits; lia).
  destruct (hex_loop_ok n v (n * 2) []) as (r & E & I).
  { lia. }
  { left. split; [reflexivity|]. rewrite B. symmetry. apply top_zero. }
  destruct (inv_end 16 _ _ _ ltac:(lia) I) as (ds & Er & N). exists ds. split; [|exact N].
  unfold hex. rewrite E. cbn [obind]. f_equal. rewrite <- Er. destruct r; reflexivity.
Qed.

(** * oct *)
Lemma oct_max_bounds n : (0 < n)%nat ->
  0 < oct_max n /\ bits n <= oct_max n * 3 < bits n + 3 /\
  last_bits (remainder n) = 2 ^ (bits n - (oct_max n * 3 - 3)) - 1.
Proof.
  intros Hn. unfold oct_max, remainder.
  assert (B : 0 < bits n) by (unfold bits; lia).
  pose proof (Z.mod_pos_bound (bits n) 3 ltac:(lia)) as M.
  pose proof (Z.div_mod (bits n) 3 ltac:(lia)) as DM.
  assert (R : bits n mod 3 = 0 \/ bits n mod 3 = 1 \/ bits n mod 3 = 2) by lia.
  destruct R as [R|[R|R]]; rewrite R in *; cbn [Z.eqb].
  - replace (bits n + 0) with ((bits n / 3) * 3) by lia. rewrite Z.div_mul by lia.
    repeat split; try lia. replace (bits n - (bits n / 3 * 3 - 3)) with 3 by lia. reflexivity.
  - change (1 =? 0) with false. cbv iota.
    replace (bits n + (3 - 1)) with ((bits n / 3 + 1) * 3) by lia. rewrite Z.div_mul by lia.
    repeat split; try lia. replace (bits n - ((bits n / 3 + 1) * 3 - 3)) with 1 by lia. reflexivity.
  - change (2 =? 0) with false. cbv iota.
    replace (bits n + (3 - 2)) with ((bits n / 3 + 1) * 3) by lia. rewrite Z.div_mul by lia.
    repeat split; try lia. replace (bits n - ((bits n / 3 + 1) * 3 - 3)) with 2 by lia. reflexivity.
Qed.

Lemma oct_loop_ok n v : (0 < n)%nat -> forall i result, Z.of_nat i <= oct_max n ->
  inv 8 (text "0o") (unsigned n v / 2 ^ (Z.of_nat i * 3)) result ->
  exists r, oct_loop n v i (Z.of_nat i * 3) result = Ret r /\ inv 8 (text "0o") (unsigned n v) r.
Proof.
  intros Hn. destruct (oct_max_bounds n Hn) as (M0 & [M1 M2] & ML).
  induction i as [|i IH]; intros result Hi I.
  - exists result. split; [reflexivity|]. rewrite Z.div_1_r in I. exact I.
  - cbn [oct_loop]. replace (Z.of_nat (S i) * 3 - 3) with (Z.of_nat i * 3) by lia.
    rewrite shr_ok by lia. cbn [obind].
    set (d := (unsigned n v / 2 ^ (Z.of_nat i * 3)) mod 2 ^ 3).
    assert (Ed : Z.land (v / 2 ^ (Z.of_nat i * 3))
       (if Z.of_nat (S i) =? oct_max n then last_bits (remainder n) else 7) = d).
    { destruct (Z.eqb_spec (Z.of_nat (S i)) (oct_max n)) as [T|T].
      - rewrite ML, land_ones_mod by lia.
        replace (oct_max n * 3 - 3) with (Z.of_nat i * 3) by lia.
        rewrite mod_top by lia. fold (unsigned n v). unfold d.
        symmetry. apply Z.mod_small. pose proof (unsigned_range n v).
        assert (0 < 2 ^ (Z.of_nat i * 3)) by (apply Z.pow_pos_nonneg; lia).
        split; [apply Z.div_pos; lia|]. apply Z.div_lt_upper_bound; [lia|].
        rewrite <- Z.pow_add_r by lia.
        assert (2 ^ bits n <= 2 ^ (Z.of_nat i * 3 + 3)) by (apply Z.pow_le_mono_r; lia). lia.
      - change 7 with (2 ^ 3 - 1). rewrite land_ones_mod by lia.
        rewrite (mod_low v (bits n)) by lia. reflexivity. }
    rewrite Ed.
    assert (Hd : 0 <= d < 8) by (apply Z.mod_pos_bound; lia).
    destruct (char_at_oct d Hd) as (c & Ec & Hc). rewrite Ec. cbn [obind].
    assert (I' : inv 8 (text "0o") (unsigned n v / 2 ^ (Z.of_nat i * 3)) (step (text "0o") c d result)).
    { rewrite (div_step _ _ 3) by (try apply unsigned_range; lia).
      replace (Z.of_nat i * 3 + 3) with (Z.of_nat (S i) * 3) by lia.
      apply (inv_step 8); try discriminate; auto; lia. }
    destruct (IH _ ltac:(lia) I') as (r & E & R). exists r. split; [|exact R].
    rewrite <- E. unfold step. destruct result; [|reflexivity].
    destruct (d =? 0) eqn:D; reflexivity.
Qed.

Theorem oct_ok n v : (0 < n)%nat ->
  exists ds, oct n v = Ret (text "0o" ++ ds) /\ numeral 8 (v mod 2 ^ bits n) ds.
Proof.
  intros Hn. destruct (oct_max_bounds n Hn) as (M0 & M1 & _).
  destruct (oct_loop_ok n v Hn (Z.to_nat (oct_max n)) []) as (r & E & I).
  { lia. }
  { left. split; [reflexivity|]. rewrite Z2Nat.id by lia. apply Z.div_small.
    pose proof (unsigned_range n v).
    assert (2 ^ bits n <= 2 ^ (oct_max n * 3)) by (apply Z.pow_le_mono_r; lia). lia. }
  rewrite Z2Nat.id in E by lia.
  destruct (inv_end 8 _ _ _ ltac:(lia) I) as (ds & Er & N). exists ds. split; [|exact N].
  unfold oct. rewrite E. cbn [obind]. f_equal. rewrite <- Er. destruct r; reflexivity.
Qed.

(** * a number has one numeral *)
Lemma digit_of_range c d : digit_of c = Some d -> 0 <= d < 16.
Proof.
  unfold digit_of. set (m := Z.of_N (N_of_ascii c)).
  destruct ((48 <=? m) && (m <=? 57)) eqn:A.
  - apply andb_prop in A. rewrite !Z.leb_le in A. intros E; injection E as <-. lia.
  - destruct ((97 <=? m) && (m <=? 102)) eqn:B; [|discriminate].
    apply andb_prop in B. rewrite !Z.leb_le in B. intros E; injection E as <-. lia.
Qed.

Lemma digit_of_inj c c' d : digit_of c = Some d -> digit_of c' = Some d -> c = c'.
Proof.
  unfold digit_of. set (m := Z.of_N (N_of_ascii c)). set (m' := Z.of_N (N_of_ascii c')).
  assert (K : m = m' -> c = c').
  { intros E. apply N2Z.inj in E. rewrite <- (ascii_N_embedding c), <- (ascii_N_embedding c'). congruence. }
  intros E E'. apply K.
  destruct ((48 <=? m) && (m <=? 57)) eqn:A; destruct ((48 <=? m') && (m' <=? 57)) eqn:A';
  try (destruct ((97 <=? m) && (m <=? 102)) eqn:B; try discriminate);
  try (destruct ((97 <=? m') && (m' <=? 102)) eqn:B'; try discriminate);
  repeat match goal with H : (_ && _) = true |- _ => apply andb_prop in H; rewrite !Z.leb_le in H end;
  injection E as E; injection E' as E'; lia.
Qed.

Lemma read_snoc base ds c : read base (ds ++ [c]) = read_digit base (read base ds) c.
Proof. unfold read. rewrite fold_left_app. reflexivity. Qed.

Lemma read_nonneg base : 1 < base -> forall ds v, read base ds = Some v -> 0 <= v.
Proof.
  intros Hb. induction ds as [|c ds IH] using rev_ind; intros v E.
  - injection E as <-. lia.
  - rewrite read_snoc in E. destruct (read base ds) as [a|]; [|discriminate]. simpl in E.
    destruct (digit_of c) as [d|] eqn:Hc; [|discriminate]. apply digit_of_range in Hc.
    destruct (d <? base); [|discriminate]. injection E as <-. specialize (IH a eq_refl). nia.
Qed.

(** a numeral of zero or of something positive, by its last digit *)
Lemma numeral_snoc base v ds c : 1 < base -> ds <> [] -> numeral base v (ds ++ [c]) ->
  exists q d, digit_of c = Some d /\ 0 <= d < base /\ v = q * base + d /\ 0 < q /\ numeral base q ds.
Proof.
  intros Hb Hds (_ & R & Z0). rewrite read_snoc in R.
  destruct (read base ds) as [q|] eqn:Eq; [|discriminate]. simpl in R.
  destruct (digit_of c) as [d|] eqn:Hc; [|discriminate].
  destruct (Z.ltb_spec d base) as [L|L]; [|discriminate]. injection R as <-.
  pose proof (digit_of_range _ _ Hc). exists q, d. split; [reflexivity|]. split; [lia|]. split; [reflexivity|].
  assert (NZ : forall ds', ds <> "0"%char :: ds').
  { intros ds' ->. specialize (Z0 (ds' ++ [c]) eq_refl). destruct ds'; discriminate. }
  split.
  - clear Z0 L H. revert q Eq NZ Hds. clear - Hb.
    induction ds as [|x ds IH] using rev_ind; intros q Eq NZ Hds; [congruence|].
    rewrite read_snoc in Eq. destruct (read base ds) as [a|] eqn:Ea; [|discriminate]. simpl in Eq.
    destruct (digit_of x) as [d|] eqn:Hx; [|discriminate].
    destruct (d <? base); [|discriminate]. injection Eq as <-. pose proof (digit_of_range _ _ Hx).
    destruct ds as [|y ds].
    + injection Ea as <-. assert (d <> 0).
      { intros ->. apply (NZ []). simpl. f_equal. eapply digit_of_inj; [exact Hx|reflexivity]. }
      lia.
    + assert (0 < a). { apply IH; [reflexivity| |discriminate]. intros ds' E. apply (NZ (ds' ++ [x])). rewrite E. reflexivity. }
      nia.
  - split; [exact Hds|]. split; [exact Eq|]. intros ds' E. exfalso. exact (NZ _ E).
Qed.

Lemma numeral_single base v c : numeral base v [c] -> exists d, digit_of c = Some d /\ d < base /\ v = d /\ 0 <= d.
Proof.
  intros (_ & R & _). unfold read in R. simpl in R. destruct (digit_of c) as [d|] eqn:Hc; [|discriminate].
  destruct (Z.ltb_spec d base); [|discriminate]. injection R as <-. pose proof (digit_of_range _ _ Hc).
  exists d. repeat split; auto; lia.
Qed.

Theorem numeral_unique base : 1 < base -> forall ds v ds', numeral base v ds -> numeral base v ds' -> ds = ds'.
Proof.
  intros Hb. induction ds as [|c ds IH] using rev_ind; intros v ds' N N'.
  - destruct N as [N _]. congruence.
  - destruct ds' as [|c' ds' _] using rev_ind; [destruct N' as [N' _]; congruence|].
    destruct ds as [|x ds]; destruct ds' as [|x' ds'].
    + apply numeral_single in N, N'. destruct N as (d & Hd & _ & -> & _). destruct N' as (d' & Hd' & _ & -> & _).
      simpl. f_equal. eapply digit_of_inj; eauto.
    + exfalso. apply numeral_single in N. destruct N as (d & Hd & L & -> & _).
      apply numeral_snoc in N'; [|lia|discriminate]. destruct N' as (q & d' & _ & Hd' & E & Q & _). nia.
    + exfalso. apply numeral_single in N'. destruct N' as (d & Hd & L & -> & _).
      apply numeral_snoc in N; [|lia|discriminate]. destruct N as (q & d' & _ & Hd' & E & Q & _). nia.
    + apply numeral_snoc in N; [|lia|discriminate]. apply numeral_snoc in N'; [|lia|discriminate].
      destruct N as (q & d & Hc & Hd & E & _ & Nq). destruct N' as (q' & d' & Hc' & Hd' & E' & _ & Nq').
      assert (q = q' /\ d = d').
      { assert (q = q') by nia. subst. split; lia. }
      destruct H as [<- <-]. f_equal; [eapply IH; eauto|]. f_equal. eapply digit_of_inj; eauto.
Qed.
