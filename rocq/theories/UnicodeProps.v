(** Property theorems C11-C19: unicode.hpp.  [ET bits signed] is an element type; the signedness of
    every element type and the width of unsigned long are arbitrary. *)
From Coq Require Import ZArith List Bool.
From Verif Require Import Base UnicodeModel UnicodeSpec UnicodeTextSpec UnicodeProofs UnicodeBodies UnicodeMain.
Import ListNotations.
Open Scope Z_scope.

(** C11 *)
Theorem utf8_decoding_follows_table_3_7 : forall (s8 s32 : bool) (a out : list Z),
  Forall (holds 8 s8) a ->
  exists cs, utf8_to_utf32 (ET 32 s32) a out = Ret (out ++ cs) /\
    (forall cs', decodes seq8 (map (pattern 8) a) cs' <-> cs' = cs).
Proof. exact (fun s8 s32 => decode8 (ET 8 s8) (ET 32 s32) eq_refl). Qed.
Print Assumptions utf8_decoding_follows_table_3_7.
(** "a", an overlong C0 80, U+20AC as signed chars, a truncated F0 9F 98 *)
Example utf8_decoding_follows_table_3_7_ex :
  let a := [0x61; -64; -128; -30; -126; -84; -16; -97; -104] in
  Forall (holds 8 true) a /\
  utf8_to_utf32 (ET 32 true) a [] = Ret [0x61; 0xFFFD; 0xFFFD; 0x20AC; 0xFFFD; 0xFFFD; 0xFFFD].
Proof. split; [repeat constructor; discriminate|reflexivity]. Qed.

(** C12 *)
Theorem utf8_utf32_round_trip : forall (s8 s32 w : bool),
  let ulong := ET (if w then 64 else 32) false in
  (forall cs, Forall scalar cs -> exists us,
     utf32_to_utf8 ulong (ET 8 s8) cs [] = Ret us /\ encodes seq8 cs (map (pattern 8) us) /\
     utf8_to_utf32 (ET 32 s32) us [] = Ret cs) /\
  (forall us, Forall (holds 8 s8) us -> well_formed seq8 (map (pattern 8) us) ->
     exists cs, utf8_to_utf32 (ET 32 s32) us [] = Ret cs /\ encodes seq8 cs (map (pattern 8) us) /\
       utf32_to_utf8 ulong (ET 8 s8) cs [] = Ret us).
Proof. exact (fun s8 s32 w => roundtrip_8_32 (ET 8 s8) (ET 32 s32) (ET _ false) eq_refl eq_refl (ulong_ok w)). Qed.
Print Assumptions utf8_utf32_round_trip.
Example utf8_utf32_round_trip_ex :
  Forall scalar [0x24; 0xA2; 0x20AC; 0x10348] /\
  utf32_to_utf8 (ET 64 false) (ET 8 true) [0x24; 0xA2; 0x20AC; 0x10348] [] =
    Ret [0x24; -62; -94; -30; -126; -84; -16; -112; -115; -120].
Proof.
  split; [|reflexivity]. repeat apply Forall_cons; try apply Forall_nil; unfold scalar;
    first [left; split; discriminate|right; split; discriminate].
Qed.

(** C13 *)
Theorem utf16_utf32_round_trip : forall (s16 s32 w : bool),
  let ulong := ET (if w then 64 else 32) false in
  (forall cs, Forall scalar cs -> exists us,
     utf32_to_utf16 ulong (ET 16 s16) cs [] = Ret us /\ encodes seq16 cs (map (pattern 16) us) /\
     utf16_to_utf32 (ET 32 s32) us [] = Ret cs) /\
  (forall us, Forall (holds 16 s16) us -> well_formed seq16 (map (pattern 16) us) ->
     exists cs, utf16_to_utf32 (ET 32 s32) us [] = Ret cs /\ encodes seq16 cs (map (pattern 16) us) /\
       utf32_to_utf16 ulong (ET 16 s16) cs [] = Ret us).
Proof. exact (fun s16 s32 w => roundtrip_16_32 (ET 16 s16) (ET 32 s32) (ET _ false) eq_refl eq_refl (ulong_ok w)). Qed.
Print Assumptions utf16_utf32_round_trip.
Example utf16_utf32_round_trip_ex :
  Forall (holds 16 false) [0x20AC; 0xD800; 0xDF48] /\
  encodes seq16 [0x20AC; 0x10348] ([0x20AC] ++ [0xD800; 0xDF48] ++ []) /\
  utf16_to_utf32 (ET 32 true) [0x20AC; 0xD800; 0xDF48] [] = Ret [0x20AC; 0x10348].
Proof.
  split; [repeat constructor; discriminate|]. split; [|reflexivity].
  constructor; [constructor; left; split; discriminate|].
  constructor; [|constructor]. apply (pair_16 0xD800 0xDF48); split; discriminate.
Qed.

Theorem utf8_utf16_round_trip : forall s8 s16 : bool,
  (forall a, Forall (holds 8 s8) a -> well_formed seq8 (map (pattern 8) a) ->
     exists m cs, utf8_to_utf16 (ET 16 s16) a [] = Ret m /\
       encodes seq8 cs (map (pattern 8) a) /\ encodes seq16 cs (map (pattern 16) m) /\
       utf16_to_utf8 (ET 8 s8) m [] = Ret a) /\
  (forall a, Forall (holds 16 s16) a -> well_formed seq16 (map (pattern 16) a) ->
     exists m cs, utf16_to_utf8 (ET 8 s8) a [] = Ret m /\
       encodes seq16 cs (map (pattern 16) a) /\ encodes seq8 cs (map (pattern 8) m) /\
       utf8_to_utf16 (ET 16 s16) m [] = Ret a).
Proof. exact (fun s8 s16 => roundtrip_8_16 (ET 8 s8) (ET 16 s16) eq_refl eq_refl). Qed.
Print Assumptions utf8_utf16_round_trip.
Example utf8_utf16_round_trip_ex :
  Forall (holds 8 true) [-16; -112; -115; -120] /\
  encodes seq8 [0x10348] (map (pattern 8) [-16; -112; -115; -120]) /\
  utf8_to_utf16 (ET 16 false) [-16; -112; -115; -120] [] = Ret [0xD800; 0xDF48].
Proof.
  split; [repeat constructor; discriminate|]. split; [|reflexivity].
  apply (encodes_cons seq8 _ [0xF0; 0x90; 0x8D; 0x88] []); [|constructor].
  apply (row_7 0xF0 0x90 0x8D 0x88); try split; discriminate || reflexivity.
Qed.

(** C14: on every input, well-formed or not *)
Theorem direct_conversion_is_two_step_conversion : forall (s8 s16 s32 w : bool),
  let ulong := ET (if w then 64 else 32) false in
  (forall a out, Forall (holds 8 s8) a ->
     exists m, utf8_to_utf32 (ET 32 s32) a [] = Ret m /\
       utf32_to_utf16 ulong (ET 16 s16) m out = utf8_to_utf16 (ET 16 s16) a out) /\
  (forall a out, Forall (holds 16 s16) a ->
     exists m, utf16_to_utf32 (ET 32 s32) a [] = Ret m /\
       utf32_to_utf8 ulong (ET 8 s8) m out = utf16_to_utf8 (ET 8 s8) a out).
Proof.
  exact (fun s8 s16 s32 w => two_step (ET 8 s8) (ET 16 s16) (ET 32 s32) (ET _ false)
                               eq_refl eq_refl eq_refl (ulong_ok w)).
Qed.
Print Assumptions direct_conversion_is_two_step_conversion.
Example direct_conversion_is_two_step_conversion_ex :
  Forall (holds 8 false) [0xF0; 0x90; 0x8D; 0x88; 0xED; 0xA0; 0x80] /\
  utf8_to_utf16 (ET 16 false) [0xF0; 0x90; 0x8D; 0x88; 0xED; 0xA0; 0x80] [] =
    Ret [0xD800; 0xDF48; 0xFFFD; 0xFFFD; 0xFFFD].
Proof. split; [repeat constructor; discriminate|reflexivity]. Qed.

(** C14, the other four ways round *)
Theorem conversions_compose : forall (s8 s16 s32 w : bool),
  let ulong := ET (if w then 64 else 32) false in
  let t8 := ET 8 s8 in let t16 := ET 16 s16 in let t32 := ET 32 s32 in
  (forall a out, Forall (holds 8 s8) a ->
     exists m, utf8_to_utf16 t16 a [] = Ret m /\ utf16_to_utf32 t32 m out = utf8_to_utf32 t32 a out) /\
  (forall a out, Forall (holds 16 s16) a ->
     exists m, utf16_to_utf8 t8 a [] = Ret m /\ utf8_to_utf32 t32 m out = utf16_to_utf32 t32 a out) /\
  (forall a out, Forall (holds 32 s32) a ->
     exists m, utf32_to_utf8 ulong t8 a [] = Ret m /\
       utf8_to_utf16 t16 m out = utf32_to_utf16 ulong t16 a out) /\
  (forall a out, Forall (holds 32 s32) a ->
     exists m, utf32_to_utf16 ulong t16 a [] = Ret m /\
       utf16_to_utf8 t8 m out = utf32_to_utf8 ulong t8 a out).
Proof.
  exact (fun s8 s16 s32 w => two_step_others (ET 8 s8) (ET 16 s16) (ET 32 s32) (ET _ false)
                               eq_refl eq_refl eq_refl (ulong_ok w)).
Qed.
Print Assumptions conversions_compose.
(** a negative (signed) UTF-32 unit is invalid whatever the width of unsigned long *)
Example conversions_compose_ex :
  Forall (holds 32 true) [-1; 0x1F600; 0xDFFF] /\
  utf32_to_utf16 (ET 64 false) (ET 16 false) [-1; 0x1F600; 0xDFFF] [] =
    Ret [0xFFFD; 0xD83D; 0xDE00; 0xFFFD] /\
  utf32_to_utf16 (ET 32 false) (ET 16 false) [-1; 0x1F600; 0xDFFF] [] =
    Ret [0xFFFD; 0xD83D; 0xDE00; 0xFFFD].
Proof. split; [repeat constructor; discriminate|split; reflexivity]. Qed.

(** C15 *)
Theorem conversion_output_is_well_formed : forall (s8 s16 s32 w : bool),
  let ulong := ET (if w then 64 else 32) false in
  let t8 := ET 8 s8 in let t16 := ET 16 s16 in let t32 := ET 32 s32 in
  (forall a, Forall (holds 8 s8) a ->
     (exists us, utf8_to_utf16 t16 a [] = Ret us /\ Forall (holds 16 s16) us /\
        well_formed seq16 (map (pattern 16) us)) /\
     (exists cs, utf8_to_utf32 t32 a [] = Ret cs /\ Forall scalar cs)) /\
  (forall a, Forall (holds 16 s16) a ->
     (exists us, utf16_to_utf8 t8 a [] = Ret us /\ Forall (holds 8 s8) us /\
        well_formed seq8 (map (pattern 8) us)) /\
     (exists cs, utf16_to_utf32 t32 a [] = Ret cs /\ Forall scalar cs)) /\
  (forall a, Forall (holds 32 s32) a ->
     (exists us, utf32_to_utf8 ulong t8 a [] = Ret us /\ Forall (holds 8 s8) us /\
        well_formed seq8 (map (pattern 8) us)) /\
     (exists us, utf32_to_utf16 ulong t16 a [] = Ret us /\ Forall (holds 16 s16) us /\
        well_formed seq16 (map (pattern 16) us))).
Proof.
  exact (fun s8 s16 s32 w => output_well_formed (ET 8 s8) (ET 16 s16) (ET 32 s32) (ET _ false)
                               eq_refl eq_refl eq_refl (ulong_ok w)).
Qed.
Print Assumptions conversion_output_is_well_formed.
(** lone surrogates in, replacement characters out *)
Example conversion_output_is_well_formed_ex :
  Forall (holds 16 false) [0xDC00; 0xD800; 0x41] /\
  utf16_to_utf8 (ET 8 false) [0xDC00; 0xD800; 0x41] [] =
    Ret [0xEF; 0xBF; 0xBD; 0xEF; 0xBF; 0xBD; 0x41].
Proof. split; [repeat constructor; discriminate|reflexivity]. Qed.

(** C16 *)
Theorem conversions_resynchronise : forall (s8 s16 s32 w : bool),
  let ulong := ET (if w then 64 else 32) false in
  let t8 := ET 8 s8 in let t16 := ET 16 s16 in let t32 := ET 32 s32 in
  resyncs seq8 8 s8 (utf8_to_utf16 t16) /\ resyncs seq8 8 s8 (utf8_to_utf32 t32) /\
  resyncs seq16 16 s16 (utf16_to_utf8 t8) /\ resyncs seq16 16 s16 (utf16_to_utf32 t32) /\
  resyncs seq32 32 s32 (utf32_to_utf8 ulong t8) /\ resyncs seq32 32 s32 (utf32_to_utf16 ulong t16).
Proof.
  exact (fun s8 s16 s32 w => resynchronise (ET 8 s8) (ET 16 s16) (ET 32 s32) (ET _ false)
                               eq_refl eq_refl eq_refl (ulong_ok w)).
Qed.
Print Assumptions conversions_resynchronise.
(** E2 82 is the start of U+20AC; the A after it is not swallowed *)
Example conversions_resynchronise_ex :
  Forall (holds 8 false) [0xE2; 0x82] /\ well_formed seq8 (map (pattern 8) [0x41]) /\
  utf8_to_utf32 (ET 32 false) ([0xE2; 0x82] ++ [0x41]) [7] = Ret ([7] ++ [0xFFFD; 0xFFFD] ++ [0x41]).
Proof.
  split; [repeat constructor; discriminate|]. split; [|reflexivity].
  exists [0x41]. apply (encodes_cons seq8 0x41 [0x41] []); [|constructor].
  apply row_1. split; discriminate.
Qed.

Theorem conversions_only_append : forall (s8 s16 s32 w : bool),
  let ulong := ET (if w then 64 else 32) false in
  let t8 := ET 8 s8 in let t16 := ET 16 s16 in let t32 := ET 32 s32 in
  appends 8 s8 (utf8_to_utf16 t16) /\ appends 8 s8 (utf8_to_utf32 t32) /\
  appends 16 s16 (utf16_to_utf8 t8) /\ appends 16 s16 (utf16_to_utf32 t32) /\
  appends 32 s32 (utf32_to_utf8 ulong t8) /\ appends 32 s32 (utf32_to_utf16 ulong t16).
Proof.
  exact (fun s8 s16 s32 w => append_only (ET 8 s8) (ET 16 s16) (ET 32 s32) (ET _ false)
                               eq_refl eq_refl eq_refl (ulong_ok w)).
Qed.
Print Assumptions conversions_only_append.
Example conversions_only_append_ex :
  utf16_to_utf8 (ET 8 false) [0x20AC] [1; 2] = Ret [1; 2; 0xE2; 0x82; 0xAC].
Proof. reflexivity. Qed.

(** C17 *)
Theorem conversions_stay_in_bounds : forall (s8 s16 s32 w : bool),
  let ulong := ET (if w then 64 else 32) false in
  let t8 := ET 8 s8 in let t16 := ET 16 s16 in let t32 := ET 32 s32 in
  safe 8 s8 (utf8_to_utf16 t16) /\ safe 8 s8 (utf8_to_utf32 t32) /\
  safe 16 s16 (utf16_to_utf8 t8) /\ safe 16 s16 (utf16_to_utf32 t32) /\
  safe 32 s32 (utf32_to_utf8 ulong t8) /\ safe 32 s32 (utf32_to_utf16 ulong t16).
Proof.
  exact (fun s8 s16 s32 w => no_out_of_bounds (ET 8 s8) (ET 16 s16) (ET 32 s32) (ET _ false)
                               eq_refl eq_refl eq_refl (ulong_ok w)).
Qed.
Print Assumptions conversions_stay_in_bounds.
(** the model does notice reads outside the array *)
Example conversions_stay_in_bounds_ex : rd [0xF0; 0x9F] 2 = Ub /\
  utf8_to_utf32 (ET 32 false) [0xF0; 0x9F] [] = Ret [0xFFFD; 0xFFFD].
Proof. split; reflexivity. Qed.

(** C18 *)
Theorem utf16_decoding_follows_surrogate_rules : forall (s16 s32 : bool) (a out : list Z),
  Forall (holds 16 s16) a ->
  exists cs, utf16_to_utf32 (ET 32 s32) a out = Ret (out ++ cs) /\
    (forall cs', decodes seq16 (map (pattern 16) a) cs' <-> cs' = cs).
Proof. exact (fun s16 s32 => decode16 (ET 16 s16) (ET 32 s32) eq_refl). Qed.
Print Assumptions utf16_decoding_follows_surrogate_rules.
Example utf16_decoding_follows_surrogate_rules_ex :
  Forall (holds 16 false) [0xD800; 0xD83D; 0xDE00; 0xDC00; 0x41] /\
  utf16_to_utf32 (ET 32 false) [0xD800; 0xD83D; 0xDE00; 0xDC00; 0x41] [] =
    Ret [0xFFFD; 0x1F600; 0xFFFD; 0x41].
Proof. split; [repeat constructor; discriminate|reflexivity]. Qed.

(** C19 *)
Theorem string_conversions_are_inverse : forall (p : platform) (src dst : str_type) (a : list Z),
  src <> dst -> text p src a ->
  exists m, to_type p dst src a = Ret m /\
    Forall (holds (et_bits (et_of p dst)) (et_signed (et_of p dst))) m /\
    same_text p src dst a m /\ to_type p src dst m = Ret a.
Proof. exact string_functions. Qed.
Print Assumptions string_conversions_are_inverse.
Example string_conversions_are_inverse_ex :
  let p := Plat true true true true in
  text p SChar [-30; -126; -84] /\ to_type p SWide SChar [-30; -126; -84] = Ret [0x20AC].
Proof.
  split; [|reflexivity]. split; [repeat constructor; discriminate|].
  exists [0x20AC]. apply (encodes_cons seq8 _ [0xE2; 0x82; 0xAC] []); [|constructor].
  apply (row_4 0xE2 0x82 0xAC); split; discriminate.
Qed.
