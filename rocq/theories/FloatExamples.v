(** Concrete numbers for FloatProps.v. *)
From Coq Require Import List Bool ZArith Floats.SpecFloat Lia Permutation.
From Verif Require Import Base SeqModel AlgoModel FloatModel FloatSpec FloatProofs FloatSum FloatUse.
Import ListNotations.
Local Open Scope Z_scope.

(** the double m * 2^e *)
Definition dbl (m e : Z) : spec_float := binary_normalize 53 1024 m e false.
Definition nan : spec_float := S754_nan.
Definition infinity : spec_float := S754_infinity false.
(** the literal 0.1 and the largest double *)
Definition tenth : spec_float := dbl 7205759403792794 (-56).
Definition largest : spec_float := dbl (2 ^ 53 - 1) 971.

Lemma formats : a_format 24 128 /\ a_format 53 1024.
Proof. repeat split; lia. Qed.
(** 0.1 is the double nearest to 1/10 *)
Lemma tenth_ok : number 53 1024 tenth /\ 10 * units 53 1024 tenth - one 53 1024 = 2 ^ 1020 /\ 2 * 2 ^ 1020 < 10 * 2 ^ (1074 - 56).
Proof. repeat split; vm_compute; reflexivity. Qed.
Lemma numbers_ok : Forall (number 53 1024) [nan; infinity; tenth; largest; dbl 1 0; dbl (-1) 0; dbl (2 ^ 53) 0; dbl 5 (-1); S754_zero true].
Proof. repeat constructor. Qed.
Lemma ten_tenths : let s := sum_f 53 1024 (repeat tenth 10) zero in SFltb s (dbl 1 0) = true /\ SFeqb s (dbl 1 0) = false.
Proof. split; vm_compute; reflexivity. Qed.
Lemma order_matters : let a := [dbl (2 ^ 53) 0; dbl 1 0; dbl 1 0] in let b := [dbl 1 0; dbl 1 0; dbl (2 ^ 53) 0] in
  Permutation a b /\ sum_f 53 1024 a zero = dbl (2 ^ 53) 0 /\ sum_f 53 1024 b zero = dbl (2 ^ 53 + 2) 0 /\ dbl (2 ^ 53) 0 <> dbl (2 ^ 53 + 2) 0.
Proof.
  split; [|split; [|split]]; [|vm_compute; reflexivity|vm_compute; reflexivity|vm_compute; discriminate].
  change [dbl 1 0; dbl 1 0; dbl (2 ^ 53) 0] with ([dbl 1 0; dbl 1 0] ++ [dbl (2 ^ 53) 0]). apply Permutation_cons_append.
Qed.
Lemma overflows : let c := [largest; largest; SFopp largest] in
  Forall (number 53 1024) c /\ total (map (units 53 1024) c) = units 53 1024 largest /\ sum_f 53 1024 c zero = infinity /\
  sum_f 53 1024 [SFopp largest; SFopp largest; infinity] zero = nan.
Proof. split; [repeat constructor|]. split; [|split; vm_compute; reflexivity]. vm_compute. reflexivity. Qed.
Lemma min_max_nan : min_of SFltb [nan; dbl 1 0; dbl (-1) 0] = Ret (0%nat, nan) /\ min_of SFltb [dbl 1 0; nan; dbl (-1) 0] = Ret (2%nat, dbl (-1) 0) /\
  max_of SFltb [dbl 1 0; nan; infinity] = Ret (2%nat, infinity).
Proof. repeat split; vm_compute; reflexivity. Qed.
Lemma min2_order : (if min2 SFltb nan (dbl 1 0) then dbl 1 0 else nan) = nan /\ (if min2 SFltb (dbl 1 0) nan then nan else dbl 1 0) = dbl 1 0.
Proof. split; reflexivity. Qed.
(** sizes in units as large as these are not computed by [lia] *)
Lemma halves n : Forall (fun x => number 53 1024 x /\ is_finite x = true /\ 0 <= units 53 1024 x /\ 2 * units 53 1024 x <= one 53 1024) (repeat (dbl 1 (-1)) n).
Proof. apply Forall_forall. intros x I. apply repeat_spec in I. subst x. repeat split; vm_compute; discriminate. Qed.
Lemma halves_total n : 2 * total (map (units 53 1024) (repeat (dbl 1 (-1)) n)) = Z.of_nat n * one 53 1024.
Proof.
  induction n as [|n IH]; [reflexivity|]. cbn [repeat map]. rewrite total_cons, Z.mul_add_distr_l, IH. replace (2 * units 53 1024 (dbl 1 (-1))) with (one 53 1024) by (vm_compute; reflexivity). rewrite Nat2Z.inj_succ, Z.mul_succ_l. ring.
Qed.
Lemma halves_lost n : let c := repeat (dbl 1 (-1)) n in 2 * total (map (units 53 1024) c) = Z.of_nat n * one 53 1024 /\ sum_int 53 1024 32 true c 0 = Ret 0.
Proof.
  split; [apply halves_total|]. apply (sum_int_halves 53 1024 double_format 32 true _ (halves n)); [|reflexivity]. split; [reflexivity|apply pow2_pos; lia].
Qed.
Lemma into_int : sum_int 53 1024 32 true [dbl 5 (-1); dbl 5 (-1); dbl (-7) 0] 10 = Ret 7 /\ sum_int 53 1024 32 true [dbl 2147483647 0; dbl 1 0] 0 = Ub /\
  sum_int 53 1024 8 false [dbl (-1) 0] 0 = Ub /\ sum_int 53 1024 8 false [dbl (-1) (-1)] 0 = Ret 0 /\ sum_int 24 128 32 true [binary_normalize 24 128 1 0 false] (2 ^ 24) = Ret (2 ^ 24).
Proof. repeat split; vm_compute; reflexivity. Qed.
Lemma rounds : round_f 53 1024 (dbl 5 (-1)) = dbl 3 0 /\ round_f 53 1024 (dbl (-5) (-1)) = dbl (-3) 0 /\ round_f 53 1024 (dbl (-1) (-2)) = S754_zero true /\
  round_f 53 1024 (dbl (2 ^ 53 - 1) (-54)) = zero.
Proof. repeat split; vm_compute; reflexivity. Qed.
Lemma mixed_list : mixed 53 1024 [dbl 1 0; nan; dbl 2 0] /\ ~ mixed 53 1024 [nan; dbl 1 0; nan; dbl 1 0].
Proof.
  split.
  - exists nan, (dbl 1 0), (dbl 2 0). repeat split; cbn [In]; auto.
  - intros (n & x & y & _ & Ix & Iy & _ & B). cbn [In] in Ix, Iy. repeat (destruct Ix as [<-|Ix]; try contradiction); repeat (destruct Iy as [<-|Iy]; try contradiction); try contradiction; vm_compute in B; discriminate.
Qed.
Lemma unequal_to_itself : equals SFeqb [dbl 1 0; nan] [dbl 1 0; nan] = false /\ contains_elem SFeqb [dbl 1 0; nan] nan = false /\ equals SFeqb [zero] [S754_zero true] = true.
Proof. repeat split; reflexivity. Qed.
