(** Each converter decodes its input and encodes the result. *)
From Coq Require Import ZArith List Bool Lia Arith ZifyBool.
From Verif Require Import Base UnicodeModel UnicodeSpec UnicodeProofs.
Import ListNotations.
Open Scope Z_scope.

Ltac size_tests :=
  repeat match goal with
  | |- context [Nat.ltb ?x ?y] =>
      first [ rewrite (proj2 (Nat.ltb_lt x y)) by (rewrite app_length; cbn [length]; lia)
            | rewrite (proj2 (Nat.ltb_ge x y)) by (rewrite app_length; cbn [length]; lia) ]
  end.

Ltac reads :=
  repeat (first [rewrite rd_app0 | rewrite rd_app]; cbn [nth_error obind]).

Ltac ranges8 :=
  repeat match goal with
  | |- context [pattern 8 ?e] =>
      lazymatch goal with
      | _ : 0 <= pattern 8 e < 256 |- _ => fail
      | _ => pose proof (pattern8_range e)
      end
  end.

Ltac no_seq :=
  let c := fresh "c" in let s := fresh "s" in let r := fresh "r" in
  let Hs := fresh "Hs" in let E := fresh "E" in
  right; split; [|reflexivity];
  intros c s r Hs E; inversion Hs; subst; cbn [map app] in E;
  injection E; intros; subst; try discriminate; unfold is_cont in *; lia.

Ltac dif C :=
  match goal with |- context [if ?b then _ else _] => destruct b eqn:C end.

Lemma utf8_to_utf16_body_ok t a pre rest : a = pre ++ rest -> rest <> [] ->
  body_ok seq8 8 t enc16 (utf8_to_utf16_body t a (length a)) pre rest.
Proof.
  intros -> Hne. destruct rest as [|e tl]; [congruence|]. clear Hne.
  unfold body_ok, utf8_to_utf16_body. rewrite rd_app0. cbn [obind]. rewrite u_char_pattern.
  pose proof (pattern8_range e) as R1.
  destruct (Z.ltb_spec (pattern 8 e) 0x80).
  { left. exists (pattern 8 e), [pattern 8 e], 0%nat. cbn. rewrite Nat.add_0_r.
    unfold enc16. rewrite (proj2 (Z.ltb_lt _ 0x10000)) by lia.
    repeat split; try lia. constructor; lia. }
  destruct (Z.ltb_spec (pattern 8 e) 0xC2); [no_seq|].
  destruct (Z.ltb_spec (pattern 8 e) 0xE0).
  { destruct tl as [|e2 tl]; size_tests; [no_seq|]. reads. rewrite !u_char_pattern.
    pose proof (pattern8_range e2) as R2.
    destruct (is_cont (pattern 8 e2)) eqn:C2; [|no_seq]. unfold is_cont in C2.
    left. do 2 eexists. exists 1%nat. cbn [firstn map].
    split; [reflexivity|]. split; [simpl; lia|]. split; [apply row_2; lia|].
    rewrite bits_2 by lia. unfold enc16. rewrite (proj2 (Z.ltb_lt _ 0x10000)) by lia.
    reflexivity. }
  destruct (Z.ltb_spec (pattern 8 e) 0xF0).
  { destruct tl as [|e2 [|e3 tl]]; size_tests; [no_seq|no_seq|]. reads. rewrite !u_char_pattern.
    pose proof (pattern8_range e2) as R2. pose proof (pattern8_range e3) as R3.
    destruct (is_cont (pattern 8 e2) && is_cont (pattern 8 e3)) eqn:C2; [|no_seq]. unfold is_cont in C2.
    cbv zeta. rewrite bits_3 by lia.
    dif C; [|no_seq].
    left. do 2 eexists. exists 2%nat. cbn [firstn map].
    split; [reflexivity|]. split; [simpl; lia|]. split; [apply seq8_3_intro; lia|].
    unfold enc16. rewrite (proj2 (Z.ltb_lt _ 0x10000)) by lia. reflexivity. }
  destruct (Z.ltb_spec (pattern 8 e) 0xF8).
  { destruct tl as [|e2 [|e3 [|e4 tl]]]; size_tests; [no_seq|no_seq|no_seq|]. reads. rewrite !u_char_pattern.
    pose proof (pattern8_range e2) as R2. pose proof (pattern8_range e3) as R3.
    pose proof (pattern8_range e4) as R4.
    destruct (is_cont (pattern 8 e2) && is_cont (pattern 8 e3) && is_cont (pattern 8 e4)) eqn:C2; [|no_seq].
    unfold is_cont in C2.
    cbv zeta. rewrite bits_4 by lia.
    dif C; [|no_seq].
    left. do 2 eexists. exists 3%nat. cbn [firstn map].
    split; [reflexivity|]. split; [simpl; lia|]. split; [apply seq8_4_intro; lia|].
    rewrite enc16_shift. rewrite (proj2 (Z.ltb_ge _ 0x10000)) by lia. reflexivity. }
  no_seq.
Qed.

Lemma cast32 t v : et_bits t = 32 -> 0 <= v < 0x110000 -> cast t v = v.
Proof.
  intros Hb H. apply cast_id; [lia|]. rewrite Hb. change (2 ^ (32 - 1)) with 2147483648. lia.
Qed.

Lemma utf8_to_utf32_body_ok t a pre rest : et_bits t = 32 -> a = pre ++ rest -> rest <> [] ->
  body_ok seq8 8 t enc32 (utf8_to_utf32_body t a (length a)) pre rest.
Proof.
  intros Ht -> Hne. destruct rest as [|e tl]; [congruence|]. clear Hne.
  unfold body_ok, utf8_to_utf32_body. rewrite rd_app0. cbn [obind]. rewrite u_char_pattern.
  pose proof (pattern8_range e) as R1.
  destruct (Z.ltb_spec (pattern 8 e) 0x80).
  { left. exists (pattern 8 e), [pattern 8 e], 0%nat. cbn. rewrite Nat.add_0_r.
    repeat split; try lia. constructor; lia. }
  destruct (Z.ltb_spec (pattern 8 e) 0xC2); [no_seq|].
  destruct (Z.ltb_spec (pattern 8 e) 0xE0).
  { destruct tl as [|e2 tl]; size_tests; [no_seq|]. reads. rewrite !u_char_pattern.
    pose proof (pattern8_range e2) as R2.
    destruct (is_cont (pattern 8 e2)) eqn:C2; [|no_seq]. unfold is_cont in C2.
    left. do 2 eexists. exists 1%nat. cbn [firstn map].
    split; [reflexivity|]. split; [simpl; lia|]. split; [apply row_2; lia|].
    rewrite bits_2 by lia. reflexivity. }
  destruct (Z.ltb_spec (pattern 8 e) 0xF0).
  { destruct tl as [|e2 [|e3 tl]]; size_tests; [no_seq|no_seq|]. reads. rewrite !u_char_pattern.
    pose proof (pattern8_range e2) as R2. pose proof (pattern8_range e3) as R3.
    destruct (is_cont (pattern 8 e2) && is_cont (pattern 8 e3)) eqn:C2; [|no_seq]. unfold is_cont in C2.
    cbv zeta. rewrite bits_3 by lia. rewrite cast32 by lia.
    dif C; [|no_seq].
    left. do 2 eexists. exists 2%nat. cbn [firstn map].
    split; [reflexivity|]. split; [simpl; lia|]. split; [apply seq8_3_intro; lia|].
    unfold enc32. cbn [map]. rewrite cast32 by lia. reflexivity. }
  destruct (Z.ltb_spec (pattern 8 e) 0xF8).
  { destruct tl as [|e2 [|e3 [|e4 tl]]]; size_tests; [no_seq|no_seq|no_seq|]. reads. rewrite !u_char_pattern.
    pose proof (pattern8_range e2) as R2. pose proof (pattern8_range e3) as R3.
    pose proof (pattern8_range e4) as R4.
    destruct (is_cont (pattern 8 e2) && is_cont (pattern 8 e3) && is_cont (pattern 8 e4)) eqn:C2; [|no_seq].
    unfold is_cont in C2.
    cbv zeta. rewrite bits_4 by lia.
    rewrite cast_id by (rewrite Ht; change (2 ^ (32 - 1)) with 2147483648; lia).
    dif C; [|no_seq].
    left. do 2 eexists. exists 3%nat. cbn [firstn map].
    split; [reflexivity|]. split; [simpl; lia|]. split; [apply seq8_4_intro; lia|].
    unfold enc32. cbn [map]. rewrite cast32 by lia. reflexivity. }
  no_seq.
Qed.

Lemma utf16_to_utf8_body_ok t a pre rest : a = pre ++ rest -> rest <> [] ->
  body_ok seq16 16 t enc8 (utf16_to_utf8_body t a (length a)) pre rest.
Proof.
  intros -> Hne. destruct rest as [|e tl]; [congruence|]. clear Hne.
  unfold body_ok, utf16_to_utf8_body. rewrite rd_app0. cbn [obind]. rewrite u_short_pattern.
  pose proof (pattern16_range e) as R1.
  destruct (Z.ltb_spec (pattern 16 e) 0x80) as [H1|H1].
  { left. exists (pattern 16 e), [pattern 16 e], 0%nat. cbn [firstn map]. rewrite Nat.add_0_r.
    rewrite enc8_shift by lia. rewrite (proj2 (Z.ltb_lt _ 0x80)) by lia.
    repeat split; simpl; try lia. constructor; lia. }
  destruct (Z.ltb_spec (pattern 16 e) 0x800) as [H2|H2].
  { left. exists (pattern 16 e), [pattern 16 e], 0%nat. cbn [firstn map]. rewrite Nat.add_0_r.
    rewrite enc8_shift by lia. rewrite (proj2 (Z.ltb_ge _ 0x80)), (proj2 (Z.ltb_lt _ 0x800)) by lia.
    split; [reflexivity|]. split; [simpl; lia|]. split; [constructor; lia|reflexivity]. }
  dif C.
  { rewrite (proj2 (Z.ltb_lt _ 0x10000)) by lia.
    left. exists (pattern 16 e), [pattern 16 e], 0%nat. cbn [firstn map]. rewrite Nat.add_0_r.
    rewrite enc8_shift by lia.
    rewrite (proj2 (Z.ltb_ge _ 0x80)), (proj2 (Z.ltb_ge _ 0x800)), (proj2 (Z.ltb_lt _ 0x10000)) by lia.
    split; [reflexivity|]. split; [simpl; lia|]. split; [constructor; lia|reflexivity]. }
  destruct (Z.ltb_spec (pattern 16 e) 0xDC00) as [H3|H3]; [|no_seq].
  destruct tl as [|e2 tl]; size_tests; [no_seq|]. reads. rewrite !u_short_pattern.
  pose proof (pattern16_range e2) as R2.
  dif C2; [|no_seq].
  left. do 2 eexists. exists 1%nat. cbn [firstn map].
  split; [reflexivity|]. split; [simpl; lia|]. split; [apply pair_16; lia|].
  cbv zeta. rewrite bits_16 by lia. rewrite enc8_shift by lia.
  rewrite (proj2 (Z.ltb_ge _ 0x80)), (proj2 (Z.ltb_ge _ 0x800)), (proj2 (Z.ltb_ge _ 0x10000)) by lia.
  rewrite (Z.add_comm _ 0x10000), Z.add_assoc. reflexivity.
Qed.

Lemma utf16_to_utf32_body_ok t a pre rest : a = pre ++ rest -> rest <> [] ->
  body_ok seq16 16 t enc32 (utf16_to_utf32_body t a (length a)) pre rest.
Proof.
  intros -> Hne. destruct rest as [|e tl]; [congruence|]. clear Hne.
  unfold body_ok, utf16_to_utf32_body. rewrite rd_app0. cbn [obind]. rewrite u_short_pattern.
  pose proof (pattern16_range e) as R1.
  dif C.
  { left. exists (pattern 16 e), [pattern 16 e], 0%nat. cbn [firstn map]. rewrite Nat.add_0_r.
    split; [reflexivity|]. split; [simpl; lia|]. split; [constructor; lia|reflexivity]. }
  dif H3; [|no_seq].
  destruct tl as [|e2 tl]; size_tests; [no_seq|]. reads. rewrite !u_short_pattern.
  pose proof (pattern16_range e2) as R2.
  dif C2; [|no_seq].
  left. do 2 eexists. exists 1%nat. cbn [firstn map].
  split; [reflexivity|]. split; [simpl; lia|]. split; [apply pair_16; lia|].
  rewrite bits_16 by lia.
  rewrite (Z.add_comm _ 0x10000), Z.add_assoc. reflexivity.
Qed.

(** unsigned long is an unsigned type of 32 or 64 bits *)
Definition is_ulong (ul : elem_type) : Prop :=
  et_signed ul = false /\ (et_bits ul = 32 \/ et_bits ul = 64).

Ltac no_seq32 :=
  let c := fresh "c" in let s := fresh "s" in let r := fresh "r" in
  let Hs := fresh "Hs" in let E := fresh "E" in
  right; split; [|reflexivity];
  intros c s r Hs E; inversion Hs as [? Hc]; subst; cbn [map app] in E;
  injection E; intros; subst; unfold scalar in Hc; lia.

Lemma utf32_to_utf8_body_ok ul s t a pre rest : is_ulong ul -> Forall (holds 32 s) a ->
  a = pre ++ rest -> rest <> [] ->
  body_ok seq32 32 t enc8 (utf32_to_utf8_body ul t a) pre rest.
Proof.
  intros [U1 U2] Ha -> Hne. destruct rest as [|e tl]; [congruence|]. clear Hne.
  rewrite Forall_app in Ha. destruct Ha as [_ Ha]. inversion Ha as [|? ? He _]; subst.
  unfold body_ok, utf32_to_utf8_body. rewrite rd_app0. cbn [obind].
  destruct (cast_ulong ul e U1 U2 s He) as [[R E]|[R1 R2]]; cbv zeta.
  - rewrite E in *.
    destruct (Z.ltb_spec (pattern 32 e) 0x80) as [H1|H1].
    { left. exists (pattern 32 e), [pattern 32 e], 0%nat. cbn [firstn map]. rewrite Nat.add_0_r.
      rewrite enc8_shift by lia. rewrite (proj2 (Z.ltb_lt _ 0x80)) by lia.
      split; [reflexivity|]. split; [simpl; lia|]. split; [constructor; unfold scalar; lia|reflexivity]. }
    destruct (Z.ltb_spec (pattern 32 e) 0x800) as [H2|H2].
    { left. exists (pattern 32 e), [pattern 32 e], 0%nat. cbn [firstn map]. rewrite Nat.add_0_r.
      rewrite enc8_shift by lia. rewrite (proj2 (Z.ltb_ge _ 0x80)), (proj2 (Z.ltb_lt _ 0x800)) by lia.
      split; [reflexivity|]. split; [simpl; lia|]. split; [constructor; unfold scalar; lia|reflexivity]. }
    destruct (Z.ltb_spec (pattern 32 e) 0x10000) as [H3|H3].
    { dif C; [|no_seq32].
      left. exists (pattern 32 e), [pattern 32 e], 0%nat. cbn [firstn map]. rewrite Nat.add_0_r.
      rewrite enc8_shift by lia.
      rewrite (proj2 (Z.ltb_ge _ 0x80)), (proj2 (Z.ltb_ge _ 0x800)), (proj2 (Z.ltb_lt _ 0x10000)) by lia.
      split; [reflexivity|]. split; [simpl; lia|]. split; [constructor; unfold scalar; lia|reflexivity]. }
    destruct (Z.ltb_spec (pattern 32 e) 0x110000) as [H4|H4]; [|no_seq32].
    left. exists (pattern 32 e), [pattern 32 e], 0%nat. cbn [firstn map]. rewrite Nat.add_0_r.
    rewrite enc8_shift by lia.
    rewrite (proj2 (Z.ltb_ge _ 0x80)), (proj2 (Z.ltb_ge _ 0x800)), (proj2 (Z.ltb_ge _ 0x10000)) by lia.
    split; [reflexivity|]. split; [simpl; lia|]. split; [constructor; unfold scalar; lia|reflexivity].
  - rewrite (proj2 (Z.ltb_ge _ 0x80)), (proj2 (Z.ltb_ge _ 0x800)), (proj2 (Z.ltb_ge _ 0x10000)),
      (proj2 (Z.ltb_ge _ 0x110000)) by lia.
    no_seq32.
Qed.

Lemma utf32_to_utf16_body_ok ul s t a pre rest : is_ulong ul -> Forall (holds 32 s) a ->
  a = pre ++ rest -> rest <> [] ->
  body_ok seq32 32 t enc16 (utf32_to_utf16_body ul t a) pre rest.
Proof.
  intros [U1 U2] Ha -> Hne. destruct rest as [|e tl]; [congruence|]. clear Hne.
  rewrite Forall_app in Ha. destruct Ha as [_ Ha]. inversion Ha as [|? ? He _]; subst.
  unfold body_ok, utf32_to_utf16_body. rewrite rd_app0. cbn [obind].
  destruct (cast_ulong ul e U1 U2 s He) as [[R E]|[R1 R2]]; cbv zeta.
  - rewrite E in *.
    dif C.
    { left. exists (pattern 32 e), [pattern 32 e], 0%nat. cbn [firstn map]. rewrite Nat.add_0_r.
      unfold enc16. rewrite (proj2 (Z.ltb_lt _ 0x10000)) by lia.
      split; [reflexivity|]. split; [simpl; lia|]. split; [constructor; unfold scalar; lia|reflexivity]. }
    dif C2; [|no_seq32].
    left. exists (pattern 32 e), [pattern 32 e], 0%nat. cbn [firstn map]. rewrite Nat.add_0_r.
    rewrite enc16_shift. rewrite (proj2 (Z.ltb_ge _ 0x10000)) by lia.
    split; [reflexivity|]. split; [simpl; lia|]. split; [constructor; unfold scalar; lia|reflexivity].
  - dif C; [lia|].
    dif C2; [lia|]. no_seq32.
Qed.

(** * The six converters *)

Section Converters.
Variables t8 t16 t32 ul : elem_type.
Hypothesis H8 : et_bits t8 = 8.
Hypothesis H16 : et_bits t16 = 16.
Hypothesis H32 : et_bits t32 = 32.
Hypothesis Hul : is_ulong ul.

Lemma utf8_to_utf16_spec a out : exists cs,
  utf8_to_utf16 t16 a out = Ret (out ++ map (cast t16) (flat_map enc16 cs)) /\
  decodes seq8 (map (pattern 8) a) cs.
Proof.
  apply (conv_loop_top seq8 8 t16 enc16). intros. apply utf8_to_utf16_body_ok; auto.
Qed.

Lemma utf8_to_utf32_spec a out : exists cs,
  utf8_to_utf32 t32 a out = Ret (out ++ map (cast t32) (flat_map enc32 cs)) /\
  decodes seq8 (map (pattern 8) a) cs.
Proof.
  apply (conv_loop_top seq8 8 t32 enc32). intros. apply utf8_to_utf32_body_ok; auto.
Qed.

Lemma utf16_to_utf8_spec a out : exists cs,
  utf16_to_utf8 t8 a out = Ret (out ++ map (cast t8) (flat_map enc8 cs)) /\
  decodes seq16 (map (pattern 16) a) cs.
Proof.
  apply (conv_loop_top seq16 16 t8 enc8). intros. apply utf16_to_utf8_body_ok; auto.
Qed.

Lemma utf16_to_utf32_spec a out : exists cs,
  utf16_to_utf32 t32 a out = Ret (out ++ map (cast t32) (flat_map enc32 cs)) /\
  decodes seq16 (map (pattern 16) a) cs.
Proof.
  apply (conv_loop_top seq16 16 t32 enc32). intros. apply utf16_to_utf32_body_ok; auto.
Qed.

Lemma utf32_to_utf8_spec s a out : Forall (holds 32 s) a -> exists cs,
  utf32_to_utf8 ul t8 a out = Ret (out ++ map (cast t8) (flat_map enc8 cs)) /\
  decodes seq32 (map (pattern 32) a) cs.
Proof.
  intros Ha. apply (conv_loop_top seq32 32 t8 enc8). intros. eapply utf32_to_utf8_body_ok; eauto.
Qed.

Lemma utf32_to_utf16_spec s a out : Forall (holds 32 s) a -> exists cs,
  utf32_to_utf16 ul t16 a out = Ret (out ++ map (cast t16) (flat_map enc16 cs)) /\
  decodes seq32 (map (pattern 32) a) cs.
Proof.
  intros Ha. apply (conv_loop_top seq32 32 t16 enc16). intros. eapply utf32_to_utf16_body_ok; eauto.
Qed.
End Converters.
