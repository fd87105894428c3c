(** The property proofs for unicode.hpp (C11-C19). *)
From Coq Require Import ZArith List Bool Lia Arith.
From Verif Require Import Base UnicodeModel UnicodeSpec UnicodeTextSpec UnicodeProofs UnicodeBodies.
Import ListNotations.
Open Scope Z_scope.

(** * Encoding forms *)

Record form (seq : Z -> list Z -> Prop) (bits : Z) (enc : Z -> list Z) (cont : Z -> Prop) : Prop := {
  f_good : good_seq seq cont;
  f_enc : forall c, scalar c -> seq c (enc c);
  f_range : forall c u, seq c u -> Forall (fun x => 0 <= x < 2 ^ bits) u;
  f_bits : 0 < bits
}.

Lemma form8 : form seq8 8 enc8 cont8.
Proof.
  split; [apply good8|apply enc8_seq| |lia].
  intros c u H. change (2 ^ 8) with 256. inversion H; subst; repeat constructor; lia.
Qed.

Lemma form16 : form seq16 16 enc16 cont16.
Proof.
  split; [apply good16|apply enc16_seq| |lia].
  intros c u H. change (2 ^ 16) with 65536. inversion H; subst; repeat constructor; lia.
Qed.

Lemma form32 : form seq32 32 enc32 cont32.
Proof.
  split; [apply good32|apply enc32_seq| |lia].
  intros c u H. change (2 ^ 32) with 4294967296. inversion H as [? S]; subst.
  unfold scalar in S. repeat constructor; lia.
Qed.

Definition conv_spec (seq : Z -> list Z -> Prop) (bits : Z) (valid : Z -> Prop) (t : elem_type)
    (enc : Z -> list Z) (f : list Z -> list Z -> outcome (list Z)) : Prop :=
  forall a out, Forall valid a -> exists cs,
    f a out = Ret (out ++ map (cast t) (flat_map enc cs)) /\
    decodes seq (map (pattern bits) a) cs.

Definition values (t : elem_type) : Z -> Prop := holds (et_bits t) (et_signed t).

Section Generic.
Context {seqX seqY : Z -> list Z -> Prop} {bX bY : Z} {encX encY : Z -> list Z} {contX contY : Z -> Prop}.
Context (FX : form seqX bX encX contX) (FY : form seqY bY encY contY).
Context (tX tY : elem_type) (EX : et_bits tX = bX) (EY : et_bits tY = bY).

Lemma pattern_map t us : 0 < et_bits t -> Forall (fun x => 0 <= x < 2 ^ et_bits t) us ->
  map (pattern (et_bits t)) (map (cast t) us) = us.
Proof.
  intros Hb. induction 1; simpl; [reflexivity|]. rewrite pattern_cast by assumption. f_equal; auto.
Qed.

Lemma cast_map t us : 0 < et_bits t -> Forall (values t) us ->
  map (cast t) (map (pattern (et_bits t)) us) = us.
Proof.
  intros Hb. induction 1; simpl; [reflexivity|]. rewrite cast_pattern by assumption. f_equal; auto.
Qed.

Lemma holds_map t us : 0 < et_bits t -> Forall (values t) (map (cast t) us).
Proof. intros Hb. apply Forall_forall. intros x Hx. apply in_map_iff in Hx. destruct Hx as (y & <- & _). apply cast_holds. assumption. Qed.

Lemma flat_range cs : Forall scalar cs -> Forall (fun x => 0 <= x < 2 ^ bY) (flat_map encY cs).
Proof.
  induction 1 as [|c cs Hc Hcs IH]; simpl; [constructor|]. apply Forall_app. split; [|exact IH].
  eapply f_range; [exact FY|]. apply (f_enc _ _ _ _ FY). exact Hc.
Qed.

Lemma flat_encodes cs : Forall scalar cs -> encodes seqY cs (flat_map encY cs).
Proof. apply encodes_flat. apply (f_enc _ _ _ _ FY). Qed.

Lemma out_pattern cs : Forall scalar cs ->
  map (pattern bY) (map (cast tY) (flat_map encY cs)) = flat_map encY cs.
Proof.
  intros H. rewrite <- EY. apply pattern_map; [rewrite EY; apply (f_bits _ _ _ _ FY)|].
  rewrite EY. apply flat_range. exact H.
Qed.

Context (f : list Z -> list Z -> outcome (list Z)) (SF : conv_spec seqX bX (values tX) tY encY f).

(** the converter appends the encoding of the decoded input *)
Lemma conv_correct a out : Forall (values tX) a -> exists cs us,
  f a out = Ret (out ++ us) /\ Forall (values tY) us /\
  decodes seqX (map (pattern bX) a) cs /\ encodes seqY cs (map (pattern bY) us).
Proof.
  intros Ha. destruct (SF a out Ha) as (cs & E & D).
  pose proof (decodes_scalar (f_good _ _ _ _ FX) _ _ D) as S.
  exists cs, (map (cast tY) (flat_map encY cs)). split; [exact E|]. split.
  { apply holds_map. rewrite EY. apply (f_bits _ _ _ _ FY). }
  split; [exact D|]. rewrite out_pattern by exact S. apply flat_encodes. exact S.
Qed.

Lemma conv_append a out : Forall (values tX) a ->
  exists us, f a [] = Ret us /\ f a out = Ret (out ++ us).
Proof.
  intros Ha. destruct (SF a out Ha) as (cs & E & D). destruct (SF a [] Ha) as (cs' & E' & D').
  rewrite (decodes_fun (f_good _ _ _ _ FX) _ _ _ D' D) in E'.
  eexists. split; [exact E'|]. exact E.
Qed.

Lemma conv_resync p t out : Forall (values tX) p -> Forall (values tX) t ->
  well_formed seqX (map (pattern bX) t) ->
  exists us ut, f p [] = Ret us /\ f t [] = Ret ut /\ f (p ++ t) out = Ret (out ++ us ++ ut).
Proof.
  intros Hp Ht (cst & W).
  destruct (SF p [] Hp) as (cp & Ep & Dp). destruct (SF t [] Ht) as (ct & Et & Dt).
  assert (Hpt : Forall (values tX) (p ++ t)) by (apply Forall_app; auto).
  destruct (SF (p ++ t) out Hpt) as (c & E & D).
  rewrite (decodes_total_wf (f_good _ _ _ _ FX) _ _ _ W Dt) in *.
  rewrite map_app in D.
  rewrite (decodes_fun (f_good _ _ _ _ FX) _ _ _ D (decodes_app (f_good _ _ _ _ FX) _ _ _ _ Dp W)) in E.
  do 2 eexists. split; [exact Ep|]. split; [exact Et|]. rewrite E. f_equal. f_equal.
  rewrite flat_map_app, map_app. reflexivity.
Qed.

Context (g : list Z -> list Z -> outcome (list Z)) (SG : conv_spec seqY bY (values tY) tX encX g).

Lemma encodes_cast cs us : Forall (values tX) us -> encodes seqX cs (map (pattern bX) us) ->
  map (cast tX) (flat_map encX cs) = us.
Proof.
  intros Hu W. rewrite <- (cast_map tX us); [|rewrite EX; apply (f_bits _ _ _ _ FX)|exact Hu].
  rewrite EX. f_equal. eapply encodes_fun; [apply (f_good _ _ _ _ FX)| |exact W].
  apply encodes_flat; [apply (f_enc _ _ _ _ FX)|]. eapply encodes_scalar; [apply (f_good _ _ _ _ FX)|exact W].
Qed.

(** round trip *)
Lemma conv_roundtrip a : Forall (values tX) a -> well_formed seqX (map (pattern bX) a) ->
  exists m, f a [] = Ret m /\ Forall (values tY) m /\
            (exists cs, encodes seqX cs (map (pattern bX) a) /\ encodes seqY cs (map (pattern bY) m)) /\
            g m [] = Ret a.
Proof.
  intros Ha (cs & W). destruct (conv_correct a [] Ha) as (cs' & m & E & Hm & D & En).
  rewrite (decodes_total_wf (f_good _ _ _ _ FX) _ _ _ W D) in *.
  exists m. split; [exact E|]. split; [exact Hm|]. split; [exists cs; auto|].
  destruct (SG m [] Hm) as (c2 & E2 & D2).
  rewrite (decodes_total_wf (f_good _ _ _ _ FY) _ _ _ En D2) in E2.
  rewrite E2. simpl. f_equal. apply encodes_cast; assumption.
Qed.
End Generic.

(** composition: X -> Y -> W equals X -> W *)
Lemma conv_compose seqX bX encX contX seqY bY encY contY encW tX tY tW
  (FX : form seqX bX encX contX) (FY : form seqY bY encY contY) (EY : et_bits tY = bY) f g h a out :
  conv_spec seqX bX (values tX) tY encY f ->
  conv_spec seqY bY (values tY) tW encW g ->
  conv_spec seqX bX (values tX) tW encW h ->
  Forall (values tX) a ->
  exists m, f a [] = Ret m /\ g m out = h a out.
Proof.
  intros SF SG SH Ha.
  destruct (conv_correct FX FY tX tY EY f SF a [] Ha) as (cs & m & E & Hm & D & En).
  exists m. split; [exact E|].
  destruct (SG m out Hm) as (c2 & E2 & D2). destruct (SH a out Ha) as (c3 & E3 & D3).
  rewrite (decodes_total_wf (f_good _ _ _ _ FY) _ _ _ En D2) in E2.
  rewrite (decodes_fun (f_good _ _ _ _ FX) _ _ _ D3 D) in E3. congruence.
Qed.

(** * The converters *)

Section Main.
Variables t8 t16 t32 ul : elem_type.
Hypothesis H8 : et_bits t8 = 8.
Hypothesis H16 : et_bits t16 = 16.
Hypothesis H32 : et_bits t32 = 32.
Hypothesis Hul : is_ulong ul.

Lemma c_8_16 : conv_spec seq8 8 (values t8) t16 enc16 (utf8_to_utf16 t16).
Proof. intros a out _. apply utf8_to_utf16_spec. Qed.
Lemma c_8_32 : conv_spec seq8 8 (values t8) t32 enc32 (utf8_to_utf32 t32).
Proof. intros a out _. apply utf8_to_utf32_spec. assumption. Qed.
Lemma c_16_8 : conv_spec seq16 16 (values t16) t8 enc8 (utf16_to_utf8 t8).
Proof. intros a out _. apply utf16_to_utf8_spec. Qed.
Lemma c_16_32 : conv_spec seq16 16 (values t16) t32 enc32 (utf16_to_utf32 t32).
Proof. intros a out _. apply utf16_to_utf32_spec. Qed.
Lemma c_32_8 : conv_spec seq32 32 (values t32) t8 enc8 (utf32_to_utf8 ul t8).
Proof.
  intros a out Ha. unfold values in Ha. rewrite H32 in Ha. eapply utf32_to_utf8_spec; eauto.
Qed.
Lemma c_32_16 : conv_spec seq32 32 (values t32) t16 enc16 (utf32_to_utf16 ul t16).
Proof.
  intros a out Ha. unfold values in Ha. rewrite H32 in Ha. eapply utf32_to_utf16_spec; eauto.
Qed.

Lemma map_cast32 cs : Forall scalar cs -> map (cast t32) (flat_map enc32 cs) = cs.
Proof.
  induction 1 as [|c cs Hc Hcs IH]; simpl; [reflexivity|]. rewrite IH.
  rewrite cast32; [reflexivity|assumption|]. unfold scalar in Hc. lia.
Qed.

Lemma scalar_values cs : Forall scalar cs -> Forall (values t32) cs.
Proof.
  intros H. eapply Forall_impl; [|exact H]. unfold values, holds, scalar. rewrite H32.
  intros c Hc. change (2 ^ 32) with 4294967296. change (2 ^ (32 - 1)) with 2147483648.
  destruct (et_signed t32); lia.
Qed.

Lemma pattern_scalar cs : Forall scalar cs -> map (pattern 32) cs = cs.
Proof.
  induction 1 as [|c cs Hc Hcs IH]; simpl; [reflexivity|]. rewrite IH. f_equal.
  apply Z.mod_small. unfold scalar in Hc. change (2 ^ 32) with 4294967296. lia.
Qed.

Lemma encodes32 cs : Forall scalar cs -> encodes seq32 cs cs.
Proof.
  induction 1 as [|c cs Hc Hcs IH]; [constructor|]. apply (encodes_cons seq32 c [c]); [constructor|]; assumption.
Qed.

Lemma encodes32_inv cs us : encodes seq32 cs us -> us = cs.
Proof. induction 1 as [|c u cs us Hs He IH]; [reflexivity|]. inversion Hs; subst. reflexivity. Qed.

Theorem decode8 a out : Forall (holds 8 (et_signed t8)) a -> exists cs,
  utf8_to_utf32 t32 a out = Ret (out ++ cs) /\
  (forall cs', decodes seq8 (map (pattern 8) a) cs' <-> cs' = cs).
Proof.
  intros _. destruct (utf8_to_utf32_spec t32 H32 a out) as (cs & E & D).
  rewrite map_cast32 in E by (eapply decodes_scalar; [apply good8|exact D]).
  exists cs. split; [exact E|]. intros cs'. split; [|intros ->; exact D].
  intros D'. eapply decodes_fun; [apply good8| |]; eassumption.
Qed.

Theorem decode16 a out : Forall (holds 16 (et_signed t16)) a -> exists cs,
  utf16_to_utf32 t32 a out = Ret (out ++ cs) /\
  (forall cs', decodes seq16 (map (pattern 16) a) cs' <-> cs' = cs).
Proof.
  intros _. destruct (utf16_to_utf32_spec t32 a out) as (cs & E & D).
  rewrite map_cast32 in E by (eapply decodes_scalar; [apply good16|exact D]).
  exists cs. split; [exact E|]. intros cs'. split; [|intros ->; exact D].
  intros D'. eapply decodes_fun; [apply good16| |]; eassumption.
Qed.

Lemma valuesE t b : et_bits t = b -> values t = holds b (et_signed t).
Proof. intros <-. reflexivity. Qed.

Theorem roundtrip_8_32 :
  (forall cs, Forall scalar cs -> exists us,
     utf32_to_utf8 ul t8 cs [] = Ret us /\ encodes seq8 cs (map (pattern 8) us) /\
     utf8_to_utf32 t32 us [] = Ret cs) /\
  (forall us, Forall (holds 8 (et_signed t8)) us -> well_formed seq8 (map (pattern 8) us) ->
     exists cs, utf8_to_utf32 t32 us [] = Ret cs /\ encodes seq8 cs (map (pattern 8) us) /\
       utf32_to_utf8 ul t8 cs [] = Ret us).
Proof.
  split.
  - intros cs Hs.
    destruct (conv_correct form32 form8 t32 t8 H8 _ c_32_8 cs [] (scalar_values _ Hs))
      as (cs' & us & E & Hu & D & En).
    rewrite pattern_scalar in D by exact Hs.
    rewrite <- (decodes_fun good32 _ _ _ (encodes_decodes _ _ (encodes32 _ Hs)) D) in En.
    exists us. split; [exact E|]. split; [exact En|].
    destruct (c_8_32 us [] Hu) as (c2 & E2 & D2).
    rewrite (decodes_total_wf good8 _ _ _ En D2) in E2. rewrite map_cast32 in E2 by exact Hs. exact E2.
  - intros us Hu Hw. rewrite <- (valuesE t8 8 H8) in Hu.
    destruct (conv_roundtrip form8 form32 t8 t32 H8 H32 _ c_8_32 _ c_32_8 us Hu Hw)
      as (m & E & Hm & W & E2).
    exists m. split; [exact E|]. split; [|exact E2].
    destruct Hw as (cs & En). destruct (c_8_32 us [] Hu) as (c2 & E3 & D2).
    rewrite (decodes_total_wf good8 _ _ _ En D2) in E3.
    rewrite map_cast32 in E3 by (eapply encodes_scalar; [apply good8|exact En]).
    rewrite E in E3. injection E3 as ->. exact En.
Qed.

Theorem roundtrip_16_32 :
  (forall cs, Forall scalar cs -> exists us,
     utf32_to_utf16 ul t16 cs [] = Ret us /\ encodes seq16 cs (map (pattern 16) us) /\
     utf16_to_utf32 t32 us [] = Ret cs) /\
  (forall us, Forall (holds 16 (et_signed t16)) us -> well_formed seq16 (map (pattern 16) us) ->
     exists cs, utf16_to_utf32 t32 us [] = Ret cs /\ encodes seq16 cs (map (pattern 16) us) /\
       utf32_to_utf16 ul t16 cs [] = Ret us).
Proof.
  split.
  - intros cs Hs.
    destruct (conv_correct form32 form16 t32 t16 H16 _ c_32_16 cs [] (scalar_values _ Hs))
      as (cs' & us & E & Hu & D & En).
    rewrite pattern_scalar in D by exact Hs.
    rewrite <- (decodes_fun good32 _ _ _ (encodes_decodes _ _ (encodes32 _ Hs)) D) in En.
    exists us. split; [exact E|]. split; [exact En|].
    destruct (c_16_32 us [] Hu) as (c2 & E2 & D2).
    rewrite (decodes_total_wf good16 _ _ _ En D2) in E2. rewrite map_cast32 in E2 by exact Hs. exact E2.
  - intros us Hu Hw. rewrite <- (valuesE t16 16 H16) in Hu.
    destruct (conv_roundtrip form16 form32 t16 t32 H16 H32 _ c_16_32 _ c_32_16 us Hu Hw)
      as (m & E & Hm & W & E2).
    exists m. split; [exact E|]. split; [|exact E2].
    destruct Hw as (cs & En). destruct (c_16_32 us [] Hu) as (c2 & E3 & D2).
    rewrite (decodes_total_wf good16 _ _ _ En D2) in E3.
    rewrite map_cast32 in E3 by (eapply encodes_scalar; [apply good16|exact En]).
    rewrite E in E3. injection E3 as ->. exact En.
Qed.

(** both strings encode the same scalar values, and the way back gives the original *)
Theorem roundtrip_8_16 :
  (forall a, Forall (holds 8 (et_signed t8)) a -> well_formed seq8 (map (pattern 8) a) ->
     exists m cs, utf8_to_utf16 t16 a [] = Ret m /\
       encodes seq8 cs (map (pattern 8) a) /\ encodes seq16 cs (map (pattern 16) m) /\
       utf16_to_utf8 t8 m [] = Ret a) /\
  (forall a, Forall (holds 16 (et_signed t16)) a -> well_formed seq16 (map (pattern 16) a) ->
     exists m cs, utf16_to_utf8 t8 a [] = Ret m /\
       encodes seq16 cs (map (pattern 16) a) /\ encodes seq8 cs (map (pattern 8) m) /\
       utf8_to_utf16 t16 m [] = Ret a).
Proof.
  split.
  - intros a Ha Hw. rewrite <- (valuesE t8 8 H8) in Ha.
    destruct (conv_roundtrip form8 form16 t8 t16 H8 H16 _ c_8_16 _ c_16_8 a Ha Hw)
      as (m & E & Hm & W & E2).
    destruct (conv_correct form8 form16 t8 t16 H16 _ c_8_16 a [] Ha) as (cs & us & E3 & _ & D & En).
    rewrite E in E3. injection E3 as ->. exists us, cs. split; [exact E|]. split; [|split; assumption].
    destruct Hw as (cs' & W'). rewrite (decodes_total_wf good8 _ _ _ W' D). exact W'.
  - intros a Ha Hw. rewrite <- (valuesE t16 16 H16) in Ha.
    destruct (conv_roundtrip form16 form8 t16 t8 H16 H8 _ c_16_8 _ c_8_16 a Ha Hw)
      as (m & E & Hm & W & E2).
    destruct (conv_correct form16 form8 t16 t8 H8 _ c_16_8 a [] Ha) as (cs & us & E3 & _ & D & En).
    rewrite E in E3. injection E3 as ->. exists us, cs. split; [exact E|]. split; [|split; assumption].
    destruct Hw as (cs' & W'). rewrite (decodes_total_wf good16 _ _ _ W' D). exact W'.
Qed.

Theorem two_step :
  (forall a out, Forall (holds 8 (et_signed t8)) a ->
     exists m, utf8_to_utf32 t32 a [] = Ret m /\
       utf32_to_utf16 ul t16 m out = utf8_to_utf16 t16 a out) /\
  (forall a out, Forall (holds 16 (et_signed t16)) a ->
     exists m, utf16_to_utf32 t32 a [] = Ret m /\
       utf32_to_utf8 ul t8 m out = utf16_to_utf8 t8 a out).
Proof.
  split; intros a out Ha.
  - rewrite <- (valuesE t8 8 H8) in Ha.
    exact (conv_compose _ _ _ _ _ _ _ _ _ _ _ _ form8 form32 H32 _ _ _ a out c_8_32 c_32_16 c_8_16 Ha).
  - rewrite <- (valuesE t16 16 H16) in Ha.
    exact (conv_compose _ _ _ _ _ _ _ _ _ _ _ _ form16 form32 H32 _ _ _ a out c_16_32 c_32_8 c_16_8 Ha).
Qed.

(** The mixed ways round, with UTF-16 or UTF-8 in the middle: 32 -> 8 -> 16, 32 -> 16 -> 8 on any
    input, 8 -> 16 -> 32, 16 -> 8 -> 32. *)
Theorem two_step_others :
  (forall a out, Forall (holds 8 (et_signed t8)) a ->
     exists m, utf8_to_utf16 t16 a [] = Ret m /\ utf16_to_utf32 t32 m out = utf8_to_utf32 t32 a out) /\
  (forall a out, Forall (holds 16 (et_signed t16)) a ->
     exists m, utf16_to_utf8 t8 a [] = Ret m /\ utf8_to_utf32 t32 m out = utf16_to_utf32 t32 a out) /\
  (forall a out, Forall (holds 32 (et_signed t32)) a ->
     exists m, utf32_to_utf8 ul t8 a [] = Ret m /\ utf8_to_utf16 t16 m out = utf32_to_utf16 ul t16 a out) /\
  (forall a out, Forall (holds 32 (et_signed t32)) a ->
     exists m, utf32_to_utf16 ul t16 a [] = Ret m /\ utf16_to_utf8 t8 m out = utf32_to_utf8 ul t8 a out).
Proof.
  split; [|split; [|split]]; intros a out Ha.
  - rewrite <- (valuesE t8 8 H8) in Ha.
    exact (conv_compose _ _ _ _ _ _ _ _ _ _ _ _ form8 form16 H16 _ _ _ a out c_8_16 c_16_32 c_8_32 Ha).
  - rewrite <- (valuesE t16 16 H16) in Ha.
    exact (conv_compose _ _ _ _ _ _ _ _ _ _ _ _ form16 form8 H8 _ _ _ a out c_16_8 c_8_32 c_16_32 Ha).
  - rewrite <- (valuesE t32 32 H32) in Ha.
    exact (conv_compose _ _ _ _ _ _ _ _ _ _ _ _ form32 form8 H8 _ _ _ a out c_32_8 c_8_16 c_32_16 Ha).
  - rewrite <- (valuesE t32 32 H32) in Ha.
    exact (conv_compose _ _ _ _ _ _ _ _ _ _ _ _ form32 form16 H16 _ _ _ a out c_32_16 c_16_8 c_32_8 Ha).
Qed.

Theorem output_well_formed :
  (forall a, Forall (holds 8 (et_signed t8)) a ->
     (exists us, utf8_to_utf16 t16 a [] = Ret us /\ Forall (holds 16 (et_signed t16)) us /\
        well_formed seq16 (map (pattern 16) us)) /\
     (exists cs, utf8_to_utf32 t32 a [] = Ret cs /\ Forall scalar cs)) /\
  (forall a, Forall (holds 16 (et_signed t16)) a ->
     (exists us, utf16_to_utf8 t8 a [] = Ret us /\ Forall (holds 8 (et_signed t8)) us /\
        well_formed seq8 (map (pattern 8) us)) /\
     (exists cs, utf16_to_utf32 t32 a [] = Ret cs /\ Forall scalar cs)) /\
  (forall a, Forall (holds 32 (et_signed t32)) a ->
     (exists us, utf32_to_utf8 ul t8 a [] = Ret us /\ Forall (holds 8 (et_signed t8)) us /\
        well_formed seq8 (map (pattern 8) us)) /\
     (exists us, utf32_to_utf16 ul t16 a [] = Ret us /\ Forall (holds 16 (et_signed t16)) us /\
        well_formed seq16 (map (pattern 16) us))).
Proof.
  rewrite <- (valuesE t8 8 H8), <- (valuesE t16 16 H16), <- (valuesE t32 32 H32).
  split; [|split]; intros a Ha; split.
  - destruct (conv_correct form8 form16 t8 t16 H16 _ c_8_16 a [] Ha) as (cs & us & E & V & _ & En).
    exists us. split; [exact E|]. split; [exact V|]. eexists; exact En.
  - destruct (utf8_to_utf32_spec t32 H32 a []) as (cs & E & D).
    pose proof (decodes_scalar good8 _ _ D) as S.
    rewrite map_cast32 in E by exact S. exists cs. split; [exact E|exact S].
  - destruct (conv_correct form16 form8 t16 t8 H8 _ c_16_8 a [] Ha) as (cs & us & E & V & _ & En).
    exists us. split; [exact E|]. split; [exact V|]. eexists; exact En.
  - destruct (utf16_to_utf32_spec t32 a []) as (cs & E & D).
    pose proof (decodes_scalar good16 _ _ D) as S.
    rewrite map_cast32 in E by exact S. exists cs. split; [exact E|exact S].
  - destruct (conv_correct form32 form8 t32 t8 H8 _ c_32_8 a [] Ha) as (cs & us & E & V & _ & En).
    exists us. split; [exact E|]. split; [exact V|]. eexists; exact En.
  - destruct (conv_correct form32 form16 t32 t16 H16 _ c_32_16 a [] Ha) as (cs & us & E & V & _ & En).
    exists us. split; [exact E|]. split; [exact V|]. eexists; exact En.
Qed.

Theorem resynchronise :
  resyncs seq8 8 (et_signed t8) (utf8_to_utf16 t16) /\
  resyncs seq8 8 (et_signed t8) (utf8_to_utf32 t32) /\
  resyncs seq16 16 (et_signed t16) (utf16_to_utf8 t8) /\
  resyncs seq16 16 (et_signed t16) (utf16_to_utf32 t32) /\
  resyncs seq32 32 (et_signed t32) (utf32_to_utf8 ul t8) /\
  resyncs seq32 32 (et_signed t32) (utf32_to_utf16 ul t16).
Proof.
  unfold resyncs.
  rewrite <- (valuesE t8 8 H8), <- (valuesE t16 16 H16), <- (valuesE t32 32 H32).
  repeat split; intros p t out Hp Ht W.
  - exact (conv_resync form8 t8 t16 _ c_8_16 p t out Hp Ht W).
  - exact (conv_resync form8 t8 t32 _ c_8_32 p t out Hp Ht W).
  - exact (conv_resync form16 t16 t8 _ c_16_8 p t out Hp Ht W).
  - exact (conv_resync form16 t16 t32 _ c_16_32 p t out Hp Ht W).
  - exact (conv_resync form32 t32 t8 _ c_32_8 p t out Hp Ht W).
  - exact (conv_resync form32 t32 t16 _ c_32_16 p t out Hp Ht W).
Qed.

Theorem append_only :
  appends 8 (et_signed t8) (utf8_to_utf16 t16) /\ appends 8 (et_signed t8) (utf8_to_utf32 t32) /\
  appends 16 (et_signed t16) (utf16_to_utf8 t8) /\ appends 16 (et_signed t16) (utf16_to_utf32 t32) /\
  appends 32 (et_signed t32) (utf32_to_utf8 ul t8) /\ appends 32 (et_signed t32) (utf32_to_utf16 ul t16).
Proof.
  unfold appends.
  rewrite <- (valuesE t8 8 H8), <- (valuesE t16 16 H16), <- (valuesE t32 32 H32).
  repeat split; intros a out Ha.
  - exact (conv_append form8 t8 t16 _ c_8_16 a out Ha).
  - exact (conv_append form8 t8 t32 _ c_8_32 a out Ha).
  - exact (conv_append form16 t16 t8 _ c_16_8 a out Ha).
  - exact (conv_append form16 t16 t32 _ c_16_32 a out Ha).
  - exact (conv_append form32 t32 t8 _ c_32_8 a out Ha).
  - exact (conv_append form32 t32 t16 _ c_32_16 a out Ha).
Qed.

Theorem no_out_of_bounds :
  safe 8 (et_signed t8) (utf8_to_utf16 t16) /\ safe 8 (et_signed t8) (utf8_to_utf32 t32) /\
  safe 16 (et_signed t16) (utf16_to_utf8 t8) /\ safe 16 (et_signed t16) (utf16_to_utf32 t32) /\
  safe 32 (et_signed t32) (utf32_to_utf8 ul t8) /\ safe 32 (et_signed t32) (utf32_to_utf16 ul t16).
Proof.
  destruct append_only as (A1 & A2 & A3 & A4 & A5 & A6).
  repeat split; intros a out Ha;
    [destruct (A1 a out Ha) as (r & _ & E)|destruct (A2 a out Ha) as (r & _ & E)
    |destruct (A3 a out Ha) as (r & _ & E)|destruct (A4 a out Ha) as (r & _ & E)
    |destruct (A5 a out Ha) as (r & _ & E)|destruct (A6 a out Ha) as (r & _ & E)];
    eexists; exact E.
Qed.
End Main.

(** * The string functions *)

Lemma copy_loop t a : forall rest pre fuel out, a = pre ++ rest -> (length rest <= fuel)%nat ->
  conv_loop (fun i => obind (rd a i) (fun e => Ret (Some (i, [cast t e])))) [] (length a) fuel
    (length pre) out = Ret (out ++ map (cast t) rest).
Proof.
  induction rest as [|e tl IH]; intros pre fuel out Ha Hf.
  - assert (E : (length pre <? length a)%nat = false)
      by (rewrite Ha, app_nil_r; apply Nat.ltb_irrefl).
    destruct fuel; simpl; rewrite E, app_nil_r; reflexivity.
  - assert (E : (length pre <? length a)%nat = true).
    { apply Nat.ltb_lt. rewrite Ha, app_length. simpl. lia. }
    destruct fuel as [|fuel]; [simpl in Hf; lia|]. cbn [conv_loop]. rewrite E.
    rewrite Ha at 1. rewrite rd_app0. cbn [obind].
    assert (Hl : S (length pre) = length (pre ++ [e])) by (rewrite app_length; simpl; lia).
    rewrite Hl, IH; [|rewrite <- app_assoc; exact Ha|simpl in Hf; lia].
    rewrite <- app_assoc. reflexivity.
Qed.

Lemma copy_units_spec t a : copy_units t a = Ret (map (cast t) a).
Proof. unfold copy_units. apply (copy_loop t a a []); auto. Qed.

Lemma is_ulong_of p : is_ulong (ulong_of p).
Proof. unfold is_ulong, ulong_of. destruct (ulong_64 p); simpl; auto. Qed.

Lemma pattern_map_cast b s a : 0 < b -> map (pattern b) (map (cast (ET b s)) a) = map (pattern b) a.
Proof.
  intros Hb. rewrite map_map. apply map_ext. intros v. unfold pattern, cast. simpl.
  assert (0 < 2 ^ b) by (apply Z.pow_pos_nonneg; lia).
  destruct s; [|apply Z.mod_mod; lia].
  rewrite Zminus_mod_idemp_l. f_equal. lia.
Qed.

Lemma cast_back b s s' a : 0 < b -> Forall (holds b s) a ->
  map (cast (ET b s)) (map (cast (ET b s')) a) = a.
Proof.
  intros Hb Ha. rewrite map_map.
  assert (E : forall v, holds b s v -> cast (ET b s) (cast (ET b s') v) = v).
  { intros v Hv. rewrite <- (cast_pattern (ET b s) v Hb Hv) at 2. simpl.
    unfold cast. simpl.
    assert (P : 0 < 2 ^ b) by (apply Z.pow_pos_nonneg; lia).
    assert (C : forall x, (x mod 2 ^ b) mod 2 ^ b = x mod 2 ^ b) by (intros; apply Z.mod_mod; lia).
    unfold pattern.
    assert (Q : forall x y, x mod 2 ^ b = y mod 2 ^ b ->
      (if s then (x + 2 ^ (b - 1)) mod 2 ^ b - 2 ^ (b - 1) else x mod 2 ^ b) =
      (if s then (y + 2 ^ (b - 1)) mod 2 ^ b - 2 ^ (b - 1) else y mod 2 ^ b)).
    { intros x y Exy. destruct s; [|exact Exy].
      rewrite <- (Z.add_mod_idemp_l x), <- (Z.add_mod_idemp_l y), Exy by lia. reflexivity. }
    apply Q. rewrite C. destruct s'; [|apply C].
    rewrite Zminus_mod_idemp_l. f_equal. lia. }
  induction Ha; simpl; [reflexivity|]. rewrite E by assumption. f_equal. assumption.
Qed.

Lemma copy_roundtrip b s s' seq a : 0 < b -> Forall (holds b s) a -> well_formed seq (map (pattern b) a) ->
  exists m, copy_units (ET b s') a = Ret m /\
    Forall (holds b s') m /\
    (exists cs, encodes seq cs (map (pattern b) a) /\ encodes seq cs (map (pattern b) m)) /\
    copy_units (ET b s) m = Ret a.
Proof.
  intros Hb Ha W. exists (map (cast (ET b s')) a). rewrite copy_units_spec. split; [reflexivity|].
  split; [apply (holds_map (ET b s')); assumption|]. split.
  - rewrite pattern_map_cast by assumption. destruct W as [cs W]. exists cs. auto.
  - rewrite copy_units_spec, cast_back by assumption. reflexivity.
Qed.

Ltac rt F1 F2 A B c1 c2 a Ha W :=
  destruct (conv_roundtrip F1 F2 A B eq_refl eq_refl _ c1 _ c2 a Ha W)
    as (m & E1 & V & W2 & E2);
  exists m; split; [exact E1|split; [exact V|split; [exact W2|exact E2]]].

Theorem string_functions p src dst a : src <> dst -> text p src a ->
  exists m, to_type p dst src a = Ret m /\
    Forall (holds (et_bits (et_of p dst)) (et_signed (et_of p dst))) m /\
    same_text p src dst a m /\ to_type p src dst m = Ret a.
Proof.
  intros Hne [Ha W].
  pose proof (is_ulong_of p) as UL.
  unfold same_text, to_type, str, wstr, u8str, u16str, u32str.
  set (T8 := ET 8 (char_signed p)) in *. set (U8 := ET 8 false). set (U16 := ET 16 false).
  set (U32 := ET 32 false). set (W16 := ET 16 (wchar_signed p)). set (W32 := ET 32 (wchar_signed p)).
  destruct src, dst; try congruence; unfold seq_of in *; cbn [et_of] in *;
    try (match goal with |- context [if wchar_32 p then _ else _] => destruct (wchar_32 p) end); cbn [et_bits et_signed] in *;
    first
    [ refine (copy_roundtrip _ _ _ _ a _ Ha W); lia
    | idtac ].
  - rt form8 form32 T8 W32 (c_8_32 T8 W32 eq_refl) (c_32_8 T8 W32 (ulong_of p) eq_refl UL) a Ha W.
  - rt form8 form16 T8 W16 (c_8_16 T8 W16) (c_16_8 T8 W16) a Ha W.
  - rt form8 form16 T8 U16 (c_8_16 T8 U16) (c_16_8 T8 U16) a Ha W.
  - rt form8 form32 T8 U32 (c_8_32 T8 U32 eq_refl) (c_32_8 T8 U32 (ulong_of p) eq_refl UL) a Ha W.
  - rt form32 form8 W32 T8 (c_32_8 T8 W32 (ulong_of p) eq_refl UL) (c_8_32 T8 W32 eq_refl) a Ha W.
  - rt form16 form8 W16 T8 (c_16_8 T8 W16) (c_8_16 T8 W16) a Ha W.
  - rt form32 form8 W32 U8 (c_32_8 U8 W32 (ulong_of p) eq_refl UL) (c_8_32 U8 W32 eq_refl) a Ha W.
  - rt form16 form8 W16 U8 (c_16_8 U8 W16) (c_8_16 U8 W16) a Ha W.
  - rt form32 form16 W32 U16 (c_32_16 U16 W32 (ulong_of p) eq_refl UL) (c_16_32 U16 W32) a Ha W.
  - rt form16 form32 W16 U32 (c_16_32 W16 U32) (c_32_16 W16 U32 (ulong_of p) eq_refl UL) a Ha W.
  - rt form8 form32 U8 W32 (c_8_32 U8 W32 eq_refl) (c_32_8 U8 W32 (ulong_of p) eq_refl UL) a Ha W.
  - rt form8 form16 U8 W16 (c_8_16 U8 W16) (c_16_8 U8 W16) a Ha W.
  - rt form8 form16 U8 U16 (c_8_16 U8 U16) (c_16_8 U8 U16) a Ha W.
  - rt form8 form32 U8 U32 (c_8_32 U8 U32 eq_refl) (c_32_8 U8 U32 (ulong_of p) eq_refl UL) a Ha W.
  - rt form16 form8 U16 T8 (c_16_8 T8 U16) (c_8_16 T8 U16) a Ha W.
  - rt form16 form32 U16 W32 (c_16_32 U16 W32) (c_32_16 U16 W32 (ulong_of p) eq_refl UL) a Ha W.
  - rt form16 form8 U16 U8 (c_16_8 U8 U16) (c_8_16 U8 U16) a Ha W.
  - rt form16 form32 U16 U32 (c_16_32 U16 U32) (c_32_16 U16 U32 (ulong_of p) eq_refl UL) a Ha W.
  - rt form32 form8 U32 T8 (c_32_8 T8 U32 (ulong_of p) eq_refl UL) (c_8_32 T8 U32 eq_refl) a Ha W.
  - rt form32 form16 U32 W16 (c_32_16 W16 U32 (ulong_of p) eq_refl UL) (c_16_32 W16 U32) a Ha W.
  - rt form32 form8 U32 U8 (c_32_8 U8 U32 (ulong_of p) eq_refl UL) (c_8_32 U8 U32 eq_refl) a Ha W.
  - rt form32 form16 U32 U16 (c_32_16 U16 U32 (ulong_of p) eq_refl UL) (c_16_32 U16 U32) a Ha W.
Qed.

Lemma ulong_ok (w : bool) : is_ulong (ET (if w then 64 else 32) false).
Proof. destruct w; split; auto. Qed.
