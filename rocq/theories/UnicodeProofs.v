(** Proofs about the unicode model. *)
From Coq Require Import ZArith List Bool Lia Arith ZifyBool.
From Verif Require Import Base UnicodeModel UnicodeSpec.
Import ListNotations.
Open Scope Z_scope.

(** * Bit operations as arithmetic *)

Lemma lor_add A b n : 0 <= n -> A mod 2 ^ n = 0 -> 0 <= b < 2 ^ n -> Z.lor A b = A + b.
Proof.
  intros Hn HA Hb.
  assert (L : Z.land A b = 0).
  { apply Z.bits_inj'. intros i Hi. rewrite Z.land_spec, Z.bits_0.
    destruct (Z.lt_ge_cases i n) as [Hin|Hin].
    - assert (E : Z.testbit A i = Z.testbit (A mod 2 ^ n) i)
        by (rewrite Z.mod_pow2_bits_low; auto).
      rewrite E, HA, Z.bits_0. reflexivity.
    - replace b with (b mod 2 ^ n) by (apply Z.mod_small; lia).
      rewrite Z.mod_pow2_bits_high by lia. apply andb_false_r. }
  rewrite <- Z.lxor_lor by exact L. symmetry. apply Z.add_nocarry_lxor. exact L.
Qed.

Lemma land_ones_mod a m n : 0 <= n -> m = Z.ones n -> Z.land a m = a mod 2 ^ n.
Proof. intros Hn ->. apply Z.land_ones. exact Hn. Qed.

Ltac zdm := Z.to_euclidean_division_equations; lia.

Ltac land_mod :=
  repeat match goal with
  | |- context [Z.land ?a ?m] =>
      match m with
      | 0x7 => rewrite (land_ones_mod a m 3) by (try reflexivity; lia); change (2 ^ 3) with 8
      | 0xF => rewrite (land_ones_mod a m 4) by (try reflexivity; lia); change (2 ^ 4) with 16
      | 0x1F => rewrite (land_ones_mod a m 5) by (try reflexivity; lia); change (2 ^ 5) with 32
      | 0x3F => rewrite (land_ones_mod a m 6) by (try reflexivity; lia); change (2 ^ 6) with 64
      | 0x3FF => rewrite (land_ones_mod a m 10) by (try reflexivity; lia); change (2 ^ 10) with 1024
      end
  end.

Lemma bits_2 e e2 : 0xC0 <= e < 0xE0 -> 0x80 <= e2 < 0xC0 ->
  Z.lor (Z.shiftl (Z.land e 0x1F) 6) (Z.land e2 0x3F) = (e - 0xC0) * 64 + (e2 - 0x80).
Proof.
  intros. land_mod. rewrite Z.shiftl_mul_pow2 by lia. change (2 ^ 6) with 64.
  rewrite (lor_add _ _ 6); change (2 ^ 6) with 64; zdm.
Qed.

Lemma bits_3 e e2 e3 : 0xE0 <= e < 0xF0 -> 0x80 <= e2 < 0xC0 -> 0x80 <= e3 < 0xC0 ->
  Z.lor (Z.lor (Z.shiftl (Z.land e 0xF) 12) (Z.shiftl (Z.land e2 0x3F) 6)) (Z.land e3 0x3F)
  = (e - 0xE0) * 4096 + (e2 - 0x80) * 64 + (e3 - 0x80).
Proof.
  intros. land_mod. rewrite !Z.shiftl_mul_pow2 by lia. change (2 ^ 6) with 64.
  change (2 ^ 12) with 4096.
  replace (e mod 16) with (e - 0xE0) by zdm.
  replace (e2 mod 64) with (e2 - 0x80) by zdm.
  replace (e3 mod 64) with (e3 - 0x80) by zdm.
  rewrite (lor_add ((e - 224) * 4096) _ 12); change (2 ^ 12) with 4096;
    [|lia|apply Z.mod_mul; lia|lia].
  rewrite (lor_add _ _ 6); change (2 ^ 6) with 64; [lia|lia| |lia].
  replace ((e - 224) * 4096 + (e2 - 128) * 64) with (((e - 224) * 64 + (e2 - 128)) * 64) by lia.
  apply Z.mod_mul; lia.
Qed.

Lemma bits_4 e e2 e3 e4 :
  0xF0 <= e < 0xF8 -> 0x80 <= e2 < 0xC0 -> 0x80 <= e3 < 0xC0 -> 0x80 <= e4 < 0xC0 ->
  Z.lor (Z.lor (Z.lor (Z.shiftl (Z.land e 0x7) 18) (Z.shiftl (Z.land e2 0x3F) 12))
           (Z.shiftl (Z.land e3 0x3F) 6)) (Z.land e4 0x3F)
  = (e - 0xF0) * 262144 + (e2 - 0x80) * 4096 + (e3 - 0x80) * 64 + (e4 - 0x80).
Proof.
  intros. land_mod. rewrite !Z.shiftl_mul_pow2 by lia. change (2 ^ 6) with 64.
  change (2 ^ 12) with 4096. change (2 ^ 18) with 262144.
  replace (e mod 8) with (e - 0xF0) by zdm.
  replace (e2 mod 64) with (e2 - 0x80) by zdm.
  replace (e3 mod 64) with (e3 - 0x80) by zdm.
  replace (e4 mod 64) with (e4 - 0x80) by zdm.
  rewrite (lor_add ((e - 240) * 262144) _ 18); change (2 ^ 18) with 262144;
    [|lia|apply Z.mod_mul; lia|lia].
  rewrite (lor_add ((e - 240) * 262144 + (e2 - 128) * 4096) _ 12); change (2 ^ 12) with 4096; [|lia| |lia].
  2: { replace ((e - 240) * 262144 + (e2 - 128) * 4096) with (((e - 240) * 64 + (e2 - 128)) * 4096) by lia.
       apply Z.mod_mul; lia. }
  rewrite (lor_add _ _ 6); change (2 ^ 6) with 64; [lia|lia| |lia].
  replace ((e - 240) * 262144 + (e2 - 128) * 4096 + (e3 - 128) * 64)
    with (((e - 240) * 4096 + (e2 - 128) * 64 + (e3 - 128)) * 64) by lia.
  apply Z.mod_mul; lia.
Qed.

Lemma bits_16 h l : 0xD800 <= h <= 0xDBFF -> 0xDC00 <= l <= 0xDFFF ->
  Z.lor (Z.shiftl (Z.land h 0x3FF) 10) (Z.land l 0x3FF) = (h - 0xD800) * 1024 + (l - 0xDC00).
Proof.
  intros. land_mod. rewrite Z.shiftl_mul_pow2 by lia. change (2 ^ 10) with 1024.
  rewrite (lor_add _ _ 10); change (2 ^ 10) with 1024; zdm.
Qed.

(** * Encoding functions (derived from the specification) *)

Definition enc8 (c : Z) : list Z :=
  if c <? 0x80 then [c]
  else if c <? 0x800 then [0xC0 + c / 64; 0x80 + c mod 64]
  else if c <? 0x10000 then [0xE0 + c / 4096; 0x80 + (c / 64) mod 64; 0x80 + c mod 64]
  else [0xF0 + c / 262144; 0x80 + (c / 4096) mod 64; 0x80 + (c / 64) mod 64; 0x80 + c mod 64].

Definition enc16 (c : Z) : list Z :=
  if c <? 0x10000 then [c]
  else [(c - 0x10000) / 1024 + 0xD800; (c - 0x10000) mod 1024 + 0xDC00].

Definition enc32 (c : Z) : list Z := [c].

Lemma enc8_seq c : scalar c -> seq8 c (enc8 c).
Proof.
  unfold scalar, enc8. intros H.
  destruct (Z.ltb_spec c 0x80); [apply row_1; lia|].
  destruct (Z.ltb_spec c 0x800).
  { replace c with ((0xC0 + c / 64 - 0xC0) * 64 + (0x80 + c mod 64 - 0x80)) at 1 by zdm.
    apply row_2; zdm. }
  destruct (Z.ltb_spec c 0x10000).
  { replace c with ((0xE0 + c / 4096 - 0xE0) * 4096 + (0x80 + (c / 64) mod 64 - 0x80) * 64
                    + (0x80 + c mod 64 - 0x80)) at 1 by zdm.
    destruct (Z.ltb_spec c 0x1000); [apply row_3; zdm|].
    destruct (Z.ltb_spec c 0xD000); [apply row_4; zdm|].
    destruct (Z.ltb_spec c 0xE000); [apply row_5; zdm|apply row_6; zdm]. }
  replace c with ((0xF0 + c / 262144 - 0xF0) * 262144 + (0x80 + (c / 4096) mod 64 - 0x80) * 4096
                  + (0x80 + (c / 64) mod 64 - 0x80) * 64 + (0x80 + c mod 64 - 0x80)) at 1 by zdm.
  destruct (Z.ltb_spec c 0x40000); [apply row_7; zdm|].
  destruct (Z.ltb_spec c 0x100000); [apply row_8; zdm|apply row_9; zdm].
Qed.

Lemma enc16_seq c : scalar c -> seq16 c (enc16 c).
Proof.
  unfold scalar, enc16. intros H.
  destruct (Z.ltb_spec c 0x10000); [apply unit_16; lia|].
  replace c with (0x10000 + ((c - 0x10000) / 1024 + 0xD800 - 0xD800) * 1024
                  + ((c - 0x10000) mod 1024 + 0xDC00 - 0xDC00)) at 1 by zdm.
  apply pair_16; zdm.
Qed.

Lemma enc32_seq c : scalar c -> seq32 c (enc32 c).
Proof. intros. constructor. assumption. Qed.

Lemma enc8_shift c : 0 <= c < 0x110000 ->
  enc8 c =
  if c <? 0x80 then [c]
  else if c <? 0x800 then [Z.lor 0xC0 (Z.shiftr c 6); Z.lor 0x80 (Z.land c 0x3F)]
  else if c <? 0x10000 then
    [Z.lor 0xE0 (Z.shiftr c 12); Z.lor 0x80 (Z.land (Z.shiftr c 6) 0x3F); Z.lor 0x80 (Z.land c 0x3F)]
  else [Z.lor 0xF0 (Z.shiftr c 18); Z.lor 0x80 (Z.land (Z.shiftr c 12) 0x3F);
        Z.lor 0x80 (Z.land (Z.shiftr c 6) 0x3F); Z.lor 0x80 (Z.land c 0x3F)].
Proof.
  intros H. unfold enc8.
  assert (L : forall x, Z.lor 0x80 (Z.land x 0x3F) = 0x80 + x mod 64).
  { intros x. land_mod. apply (lor_add _ _ 6); change (2 ^ 6) with 64; [lia|reflexivity|zdm]. }
  rewrite !L, !Z.shiftr_div_pow2 by lia.
  change (2 ^ 6) with 64. change (2 ^ 12) with 4096. change (2 ^ 18) with 262144.
  destruct (Z.ltb_spec c 0x80); [reflexivity|].
  destruct (Z.ltb_spec c 0x800).
  { rewrite (lor_add _ _ 5); change (2 ^ 5) with 32; [reflexivity|lia|reflexivity|zdm]. }
  destruct (Z.ltb_spec c 0x10000).
  { rewrite (lor_add _ _ 4); change (2 ^ 4) with 16; [reflexivity|lia|reflexivity|zdm]. }
  rewrite (lor_add _ _ 3); change (2 ^ 3) with 8; [reflexivity|lia|reflexivity|zdm].
Qed.

Lemma enc16_shift c : enc16 c =
  if c <? 0x10000 then [c]
  else [Z.shiftr (c - 0x10000) 10 + 0xD800; Z.land (c - 0x10000) 0x3FF + 0xDC00].
Proof.
  unfold enc16. land_mod. rewrite Z.shiftr_div_pow2 by lia. reflexivity.
Qed.

(** * Facts about the specification *)

Definition cont8 (b : Z) : Prop := 0x80 <= b <= 0xBF.
Definition cont16 (b : Z) : Prop := 0xDC00 <= b <= 0xDFFF.
Definition cont32 (b : Z) : Prop := False.

Record good_seq (seq : Z -> list Z -> Prop) (cont : Z -> Prop) : Prop := {
  gs_scalar : forall c u, seq c u -> scalar c;
  gs_shape : forall c u, seq c u -> exists x t, u = x :: t /\ ~ cont x /\ Forall cont t;
  gs_det : forall c u, seq c u -> forall c' u' r r', seq c' u' -> u ++ r = u' ++ r' -> c = c' /\ u = u';
  gs_inj : forall c u u', seq c u -> seq c u' -> u = u'
}.

Lemma enc8_3 b1 b2 b3 : 0xE0 <= b1 < 0xF0 -> 0x80 <= b2 <= 0xBF -> 0x80 <= b3 <= 0xBF ->
  let c := (b1 - 0xE0) * 4096 + (b2 - 0x80) * 64 + (b3 - 0x80) in
  0x800 <= c -> [b1; b2; b3] = enc8 c.
Proof.
  intros H1 H2 H3 c Hc. unfold enc8.
  destruct (Z.ltb_spec c 0x80); [lia|]. destruct (Z.ltb_spec c 0x800); [lia|].
  destruct (Z.ltb_spec c 0x10000); [|lia].
  assert (E : c / 64 = (b1 - 0xE0) * 64 + (b2 - 0x80)) by (subst c; zdm).
  replace (c / 4096) with (b1 - 0xE0) by (subst c; zdm).
  replace (c mod 64) with (b3 - 0x80) by (subst c; zdm).
  rewrite E. replace (((b1 - 0xE0) * 64 + (b2 - 0x80)) mod 64) with (b2 - 0x80) by zdm.
  repeat f_equal; lia.
Qed.

Lemma enc8_4 b1 b2 b3 b4 :
  0xF0 <= b1 < 0xF8 -> 0x80 <= b2 <= 0xBF -> 0x80 <= b3 <= 0xBF -> 0x80 <= b4 <= 0xBF ->
  let c := (b1 - 0xF0) * 262144 + (b2 - 0x80) * 4096 + (b3 - 0x80) * 64 + (b4 - 0x80) in
  0x10000 <= c -> [b1; b2; b3; b4] = enc8 c.
Proof.
  intros H1 H2 H3 H4 c Hc. unfold enc8.
  destruct (Z.ltb_spec c 0x80); [lia|]. destruct (Z.ltb_spec c 0x800); [lia|].
  destruct (Z.ltb_spec c 0x10000); [lia|].
  assert (E : c / 64 = (b1 - 0xF0) * 4096 + (b2 - 0x80) * 64 + (b3 - 0x80)) by (subst c; zdm).
  assert (E2 : c / 4096 = (b1 - 0xF0) * 64 + (b2 - 0x80)) by (subst c; zdm).
  replace (c / 262144) with (b1 - 0xF0) by (subst c; zdm).
  replace (c mod 64) with (b4 - 0x80) by (subst c; zdm).
  rewrite E, E2.
  replace (((b1 - 0xF0) * 64 + (b2 - 0x80)) mod 64) with (b2 - 0x80) by zdm.
  replace (((b1 - 0xF0) * 4096 + (b2 - 0x80) * 64 + (b3 - 0x80)) mod 64) with (b3 - 0x80) by zdm.
  repeat f_equal; lia.
Qed.

Lemma seq8_enc c u : seq8 c u -> u = enc8 c.
Proof.
  intros H. unfold enc8. inversion H; subst.
  - destruct (Z.ltb_spec c 0x80); [reflexivity|lia].
  - set (c := (b1 - 0xC0) * 64 + (b2 - 0x80)) in *.
    destruct (Z.ltb_spec c 0x80); [lia|]. destruct (Z.ltb_spec c 0x800); [|lia].
    replace (c / 64) with (b1 - 0xC0) by (subst c; zdm).
    replace (c mod 64) with (b2 - 0x80) by (subst c; zdm).
    repeat f_equal; lia.
  - apply enc8_3; lia.
  - apply enc8_3; lia.
  - apply enc8_3; lia.
  - apply enc8_3; lia.
  - apply enc8_4; lia.
  - apply enc8_4; lia.
  - apply enc8_4; lia.
Qed.

Lemma good8 : good_seq seq8 cont8.
Proof.
  split.
  - intros c u H. unfold scalar. inversion H; subst; lia.
  - intros c u H. unfold cont8.
    inversion H; subst; do 2 eexists; (split; [reflexivity|]);
      (split; [lia|repeat constructor; lia]).
  - intros c u H c' u' r r' H' E.
    inversion H; subst; inversion H'; subst; simpl in E; injection E; intros; subst;
      try (exfalso; lia); split; reflexivity.
  - intros c u u' H H'. rewrite (seq8_enc c u H), (seq8_enc c u' H'). reflexivity.
Qed.

Lemma seq16_enc c u : seq16 c u -> u = enc16 c.
Proof.
  intros H. unfold enc16. inversion H; subst.
  - destruct (Z.ltb_spec c 0x10000); [reflexivity|lia].
  - set (c := 0x10000 + (h - 0xD800) * 1024 + (l - 0xDC00)) in *.
    destruct (Z.ltb_spec c 0x10000); [lia|].
    replace ((c - 0x10000) / 1024) with (h - 0xD800) by (subst c; zdm).
    replace ((c - 0x10000) mod 1024) with (l - 0xDC00) by (subst c; zdm).
    repeat f_equal; lia.
Qed.

Lemma good16 : good_seq seq16 cont16.
Proof.
  split.
  - intros c u H. unfold scalar. inversion H; subst; lia.
  - intros c u H. unfold cont16.
    inversion H; subst; do 2 eexists; (split; [reflexivity|]);
      (split; [lia|repeat constructor; lia]).
  - intros c u H c' u' r r' H' E.
    inversion H; subst; inversion H'; subst; simpl in E; injection E; intros; subst;
      try (exfalso; lia); split; reflexivity.
  - intros c u u' H H'. rewrite (seq16_enc c u H), (seq16_enc c u' H'). reflexivity.
Qed.

Lemma good32 : good_seq seq32 cont32.
Proof.
  split.
  - intros c u H. inversion H; subst; assumption.
  - intros c u H. inversion H; subst. do 2 eexists. split; [reflexivity|]. split; [auto|constructor].
  - intros c u H c' u' r r' H' E. inversion H; subst; inversion H'; subst. injection E; intros; subst; auto.
  - intros c u u' H H'. inversion H; subst; inversion H'; subst. reflexivity.
Qed.

Section Spec.
Context {seq : Z -> list Z -> Prop} {cont : Z -> Prop} (G : good_seq seq cont).

Lemma seq_nonempty c u r : seq c u -> u ++ r <> [].
Proof. intros H E. destruct (gs_shape _ _ G _ _ H) as (x & t & -> & _). discriminate. Qed.

Lemma decodes_fun us cs cs' : decodes seq us cs -> decodes seq us cs' -> cs = cs'.
Proof.
  intros H. revert cs'. induction H as [|c u us cs Hs Hd IH|u us cs Hbad Hd IH]; intros cs' H'.
  - inversion H'; subst; auto.
    exfalso. eapply seq_nonempty; eauto.
  - inversion H' as [E|c2 u2 us2 cs2 Hs2 Hd2 E|u2 us2 cs2 Hb2 Hd2 E]; subst.
    + exfalso. eapply seq_nonempty; eauto.
    + destruct (gs_det _ _ G _ _ Hs _ _ _ _ Hs2 (eq_sym E)) as [-> ->].
      apply app_inv_head in E. subst. f_equal. auto.
    + exfalso. eapply Hb2; eauto.
  - inversion H' as [|c2 u2 us2 cs2 Hs2 Hd2 E|u2 us2 cs2 Hb2 Hd2]; subst.
    + exfalso. apply (Hbad _ _ _ Hs2 (eq_sym E)).
    + f_equal. auto.
Qed.

Lemma decodes_scalar us cs : decodes seq us cs -> Forall scalar cs.
Proof.
  induction 1; constructor; auto; [eapply gs_scalar; eauto|unfold scalar; lia].
Qed.

Lemma encodes_scalar cs us : encodes seq cs us -> Forall scalar cs.
Proof. induction 1; constructor; auto. eapply gs_scalar; eauto. Qed.

Lemma encodes_decodes cs us : encodes seq cs us -> decodes seq us cs.
Proof. induction 1; constructor; auto. Qed.

Lemma encodes_fun cs us us' : encodes seq cs us -> encodes seq cs us' -> us = us'.
Proof.
  intros H. revert us'. induction H as [|c u cs us Hs He IH]; intros us' H'; inversion H'; subst; auto.
  f_equal; auto. eapply gs_inj; eauto.
Qed.

Lemma encodes_app cs us cs' us' : encodes seq cs us -> encodes seq cs' us' -> encodes seq (cs ++ cs') (us ++ us').
Proof.
  induction 1; simpl; auto. intros. rewrite <- app_assoc. constructor; auto.
Qed.

Lemma encodes_flat (enc : Z -> list Z) : (forall c, scalar c -> seq c (enc c)) ->
  forall cs, Forall scalar cs -> encodes seq cs (flat_map enc cs).
Proof. intros He. induction 1; simpl; constructor; auto. Qed.

(** Decoding resynchronises at the start of every well-formed sequence. *)
Lemma decodes_app p t csp cst : decodes seq p csp -> encodes seq cst t ->
  decodes seq (p ++ t) (csp ++ cst).
Proof.
  intros H Ht. induction H as [|c u us cs Hs Hd IH|u us cs Hbad Hd IH]; simpl.
  - apply encodes_decodes. exact Ht.
  - rewrite <- app_assoc. constructor; auto.
  - constructor; auto. intros c s rest Hs E.
    destruct (gs_shape _ _ G _ _ Hs) as (x & tl & -> & Nx & Ft).
    simpl in E. injection E as -> E.
    (* tl is a prefix of us ++ t; it cannot reach into t *)
    assert (P : exists r', us = tl ++ r').
    { clear Hbad IH Hd Hs. revert us E Ft. induction tl as [|y tl IHt]; intros us E Ft.
      - exists us. reflexivity.
      - destruct us as [|z us].
        + exfalso. simpl in E. destruct Ht as [|c0 u0 cs0 us0 Hs0 Ht0]; [discriminate|].
          destruct (gs_shape _ _ G _ _ Hs0) as (x0 & t0 & -> & Nx0 & _).
          simpl in E. injection E as -> _. inversion Ft; auto.
        + simpl in E. injection E as -> E. inversion Ft; subst.
          destruct (IHt us E) as [r' ->]; auto. exists r'. reflexivity. }
    destruct P as [r' ->]. apply (Hbad _ _ r' Hs). reflexivity.
Qed.

Lemma decodes_total_wf us cs cs' : encodes seq cs us -> decodes seq us cs' -> cs' = cs.
Proof. intros H H'. eapply decodes_fun; eauto. apply encodes_decodes; assumption. Qed.
End Spec.

(** * Casts *)

Lemma cast_pattern t v : 0 < et_bits t -> holds (et_bits t) (et_signed t) v ->
  cast t (pattern (et_bits t) v) = v.
Proof.
  unfold cast, holds, pattern. destruct t as [b s]; simpl. intros Hb H.
  assert (P : 2 ^ b = 2 * 2 ^ (b - 1)).
  { replace b with (Z.succ (b - 1)) at 1 by lia. rewrite Z.pow_succ_r by lia. reflexivity. }
  assert (0 < 2 ^ (b - 1)) by (apply Z.pow_pos_nonneg; lia).
  destruct s.
  - rewrite Z.add_mod_idemp_l by lia. rewrite Z.mod_small by lia. lia.
  - rewrite Z.mod_mod by lia. apply Z.mod_small. exact H.
Qed.

Lemma pattern_cast t v : 0 < et_bits t -> 0 <= v < 2 ^ et_bits t ->
  pattern (et_bits t) (cast t v) = v.
Proof.
  unfold cast, pattern. destruct t as [b s]; simpl. intros Hb H.
  assert (0 < 2 ^ b) by (apply Z.pow_pos_nonneg; lia).
  destruct s.
  - rewrite Zminus_mod_idemp_l. replace (v + 2 ^ (b - 1) - 2 ^ (b - 1)) with v by lia.
    apply Z.mod_small. exact H.
  - rewrite Z.mod_mod by lia. apply Z.mod_small. exact H.
Qed.

Lemma cast_holds t v : 0 < et_bits t -> holds (et_bits t) (et_signed t) (cast t v).
Proof.
  unfold cast, holds. destruct t as [b s]; simpl. intros Hb.
  assert (P : 2 ^ b = 2 * 2 ^ (b - 1)).
  { replace b with (Z.succ (b - 1)) at 1 by lia. rewrite Z.pow_succ_r by lia. reflexivity. }
  assert (0 < 2 ^ (b - 1)) by (apply Z.pow_pos_nonneg; lia).
  destruct s.
  - pose proof (Z.mod_pos_bound (v + 2 ^ (b - 1)) (2 ^ b)). lia.
  - apply Z.mod_pos_bound. lia.
Qed.

Lemma cast_id t v : 0 < et_bits t -> 0 <= v < 2 ^ (et_bits t - 1) -> cast t v = v.
Proof.
  intros Hb H.
  assert (P : 2 ^ et_bits t = 2 * 2 ^ (et_bits t - 1)).
  { replace (et_bits t) with (Z.succ (et_bits t - 1)) at 1 by lia. rewrite Z.pow_succ_r by lia. reflexivity. }
  unfold cast. destruct (et_signed t).
  - rewrite Z.mod_small; lia.
  - apply Z.mod_small; lia.
Qed.

Lemma cast_ulong ul v : et_signed ul = false -> (et_bits ul = 32 \/ et_bits ul = 64) ->
  forall s, holds 32 s v ->
  (0 <= cast ul v < 0x80000000 /\ cast ul v = pattern 32 v) \/
  (0x80000000 <= cast ul v /\ 0x80000000 <= pattern 32 v).
Proof.
  unfold cast, holds, pattern. destruct ul as [b sg]; cbn [et_bits et_signed]. intros -> Hb s H.
  assert (R : - 2147483648 <= v < 4294967296).
  { destruct s; simpl in H; lia. }
  clear H. destruct Hb as [-> | ->].
  - change (2 ^ 32) with 4294967296.
    destruct (Z.ltb_spec (v mod 4294967296) 0x80000000); [left|right]; zdm.
  - change (2 ^ 64) with 18446744073709551616. change (2 ^ 32) with 4294967296.
    destruct (Z.ltb_spec v 0).
    + right. replace (v mod 18446744073709551616) with (v + 18446744073709551616) by zdm.
      replace (v mod 4294967296) with (v + 4294967296) by zdm. lia.
    + rewrite !Z.mod_small by lia. lia.
Qed.

(** * The conversion loop *)

Section Loop.
Variable seq : Z -> list Z -> Prop.
Variable bits : Z.
Variable t : elem_type.
Variable enc : Z -> list Z.
Variable a : list Z.
Variable body : nat -> outcome (option (nat * list Z)).

(** What one iteration does at position [length pre] of [a = pre ++ rest]. *)
Definition body_ok (pre rest : list Z) : Prop :=
  (exists c u k, u = map (pattern bits) (firstn (S k) rest) /\ (S k <= length rest)%nat /\
     seq c u /\ body (length pre) = Ret (Some ((length pre + k)%nat, map (cast t) (enc c)))) \/
  ((forall c s r, seq c s -> map (pattern bits) rest <> s ++ r) /\ body (length pre) = Ret None).

Hypothesis Hbody : forall pre rest, a = pre ++ rest -> rest <> [] -> body_ok pre rest.

Lemma conv_loop_spec n : forall rest pre fuel out, (length rest <= n)%nat ->
  a = pre ++ rest -> (length rest <= fuel)%nat ->
  exists cs,
    conv_loop body (map (cast t) (enc 0xFFFD)) (length a) fuel (length pre) out =
      Ret (out ++ map (cast t) (flat_map enc cs)) /\
    decodes seq (map (pattern bits) rest) cs.
Proof.
  induction n as [|n IH]; intros rest pre fuel out Hn Ha Hf.
  - destruct rest; [|simpl in Hn; lia]. exists []. simpl.
    assert (E : (length pre <? length a)%nat = false)
      by (rewrite Ha, app_nil_r; apply Nat.ltb_irrefl).
    destruct fuel; simpl; rewrite E; rewrite app_nil_r; split; auto; constructor.
  - destruct rest as [|e tl].
    { apply IH; auto. simpl; lia. }
    assert (E : (length pre <? length a)%nat = true).
    { apply Nat.ltb_lt. rewrite Ha, app_length. simpl. lia. }
    destruct fuel as [|fuel]; [simpl in Hf; lia|]. simpl. rewrite E.
    destruct (Hbody pre (e :: tl) Ha ltac:(discriminate)) as [(c & u & k & Hu & Hk & Hs & Hb) | (Hno & Hb)].
    + rewrite Hb. cbn [obind].
      assert (Ha' : a = (pre ++ firstn (S k) (e :: tl)) ++ skipn (S k) (e :: tl))
        by (rewrite <- app_assoc, firstn_skipn; exact Ha).
      assert (Hl : length (pre ++ firstn (S k) (e :: tl)) = S (length pre + k))
        by (rewrite app_length, firstn_length; lia).
      destruct (IH (skipn (S k) (e :: tl)) (pre ++ firstn (S k) (e :: tl)) fuel
                  (out ++ map (cast t) (enc c))) as (cs & E1 & D);
        [rewrite skipn_length; simpl in *; lia|exact Ha'|rewrite skipn_length; simpl in *; lia|].
      rewrite Hl in E1. exists (c :: cs). rewrite E1. split.
      * cbn [flat_map]. rewrite map_app, app_assoc. reflexivity.
      * change (decodes seq (map (pattern bits) (e :: tl)) (c :: cs)).
        rewrite <- (firstn_skipn (S k) (e :: tl)), map_app, <- Hu. apply decodes_seq; auto.
    + rewrite Hb. cbn [obind].
      assert (Ha' : a = (pre ++ [e]) ++ tl) by (rewrite <- app_assoc; exact Ha).
      assert (Hl : length (pre ++ [e]) = S (length pre)) by (rewrite app_length; simpl; lia).
      destruct (IH tl (pre ++ [e]) fuel (out ++ map (cast t) (enc 0xFFFD))) as (cs & E1 & D);
        [simpl in *; lia|exact Ha'|simpl in *; lia|].
      rewrite Hl in E1. exists (0xFFFD :: cs). rewrite E1. split.
      * cbn [flat_map]. rewrite map_app, app_assoc. reflexivity.
      * cbn [map]. constructor; auto.
Qed.

Lemma conv_loop_top out : exists cs,
  conv_loop body (map (cast t) (enc 0xFFFD)) (length a) (length a) 0 out =
    Ret (out ++ map (cast t) (flat_map enc cs)) /\
  decodes seq (map (pattern bits) a) cs.
Proof. apply (conv_loop_spec (length a) a []); auto. Qed.
End Loop.

Lemma rd_app pre rest k : rd (pre ++ rest) (length pre + k) =
  match nth_error rest k with Some v => Ret v | None => Ub end.
Proof.
  unfold rd. rewrite nth_error_app2 by lia. replace (length pre + k - length pre)%nat with k by lia.
  reflexivity.
Qed.

Lemma rd_app0 pre rest : rd (pre ++ rest) (length pre) =
  match rest with v :: _ => Ret v | [] => Ub end.
Proof.
  pose proof (rd_app pre rest 0) as H. rewrite Nat.add_0_r in H. rewrite H.
  destruct rest; reflexivity.
Qed.

Lemma u_char_pattern e : cast u_char e = pattern 8 e.
Proof. reflexivity. Qed.
Lemma u_short_pattern e : cast u_short e = pattern 16 e.
Proof. reflexivity. Qed.
Lemma pattern8_range e : 0 <= pattern 8 e < 256.
Proof. apply Z.mod_pos_bound. lia. Qed.
Lemma pattern16_range e : 0 <= pattern 16 e < 65536.
Proof. apply Z.mod_pos_bound. lia. Qed.

(** ** seq8 tests as the code makes them *)
Lemma seq8_3_intro b1 b2 b3 : 0xE0 <= b1 < 0xF0 -> 0x80 <= b2 < 0xC0 -> 0x80 <= b3 < 0xC0 ->
  let cp := (b1 - 0xE0) * 4096 + (b2 - 0x80) * 64 + (b3 - 0x80) in
  (0x7FF < cp < 0xD800 \/ 0xDFFF < cp) -> seq8 cp [b1; b2; b3].
Proof.
  intros H1 H2 H3 cp Hc. subst cp.
  destruct (Z.ltb_spec b1 0xE1); [apply row_3; lia|].
  destruct (Z.ltb_spec b1 0xED); [apply row_4; lia|].
  destruct (Z.ltb_spec b1 0xEE); [apply row_5; lia|apply row_6; lia].
Qed.

Lemma seq8_4_intro b1 b2 b3 b4 :
  0xF0 <= b1 < 0xF8 -> 0x80 <= b2 < 0xC0 -> 0x80 <= b3 < 0xC0 -> 0x80 <= b4 < 0xC0 ->
  let cp := (b1 - 0xF0) * 262144 + (b2 - 0x80) * 4096 + (b3 - 0x80) * 64 + (b4 - 0x80) in
  0xFFFF < cp < 0x110000 -> seq8 cp [b1; b2; b3; b4].
Proof.
  intros H1 H2 H3 H4 cp Hc. subst cp.
  destruct (Z.ltb_spec b1 0xF1); [apply row_7; lia|].
  destruct (Z.ltb_spec b1 0xF4); [apply row_8; lia|apply row_9; lia].
Qed.
