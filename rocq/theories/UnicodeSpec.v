(** Specification of the Unicode encoding forms (Unicode standard, chapter 3.9), independent of
    the model: which unit sequences encode which scalar value, and what it means to decode an
    arbitrary sequence of units with one U+FFFD per undecodable unit. *)
From Coq Require Import ZArith List.
From Verif Require Import Base.
Import ListNotations.
Open Scope Z_scope.

(** D76: Unicode scalar values *)
Definition scalar (c : Z) : Prop := 0 <= c <= 0xD7FF \/ 0xE000 <= c <= 0x10FFFF.

(** Table 3-7, well-formed UTF-8 byte sequences, one constructor per row; the scalar value is the
    one of Table 3-6. *)
Inductive seq8 : Z -> list Z -> Prop :=
| row_1 b1 : 0 <= b1 <= 0x7F -> seq8 b1 [b1]
| row_2 b1 b2 : 0xC2 <= b1 <= 0xDF -> 0x80 <= b2 <= 0xBF ->
    seq8 ((b1 - 0xC0) * 64 + (b2 - 0x80)) [b1; b2]
| row_3 b1 b2 b3 : b1 = 0xE0 -> 0xA0 <= b2 <= 0xBF -> 0x80 <= b3 <= 0xBF ->
    seq8 ((b1 - 0xE0) * 4096 + (b2 - 0x80) * 64 + (b3 - 0x80)) [b1; b2; b3]
| row_4 b1 b2 b3 : 0xE1 <= b1 <= 0xEC -> 0x80 <= b2 <= 0xBF -> 0x80 <= b3 <= 0xBF ->
    seq8 ((b1 - 0xE0) * 4096 + (b2 - 0x80) * 64 + (b3 - 0x80)) [b1; b2; b3]
| row_5 b1 b2 b3 : b1 = 0xED -> 0x80 <= b2 <= 0x9F -> 0x80 <= b3 <= 0xBF ->
    seq8 ((b1 - 0xE0) * 4096 + (b2 - 0x80) * 64 + (b3 - 0x80)) [b1; b2; b3]
| row_6 b1 b2 b3 : 0xEE <= b1 <= 0xEF -> 0x80 <= b2 <= 0xBF -> 0x80 <= b3 <= 0xBF ->
    seq8 ((b1 - 0xE0) * 4096 + (b2 - 0x80) * 64 + (b3 - 0x80)) [b1; b2; b3]
| row_7 b1 b2 b3 b4 : b1 = 0xF0 -> 0x90 <= b2 <= 0xBF -> 0x80 <= b3 <= 0xBF -> 0x80 <= b4 <= 0xBF ->
    seq8 ((b1 - 0xF0) * 262144 + (b2 - 0x80) * 4096 + (b3 - 0x80) * 64 + (b4 - 0x80)) [b1; b2; b3; b4]
| row_8 b1 b2 b3 b4 : 0xF1 <= b1 <= 0xF3 -> 0x80 <= b2 <= 0xBF -> 0x80 <= b3 <= 0xBF -> 0x80 <= b4 <= 0xBF ->
    seq8 ((b1 - 0xF0) * 262144 + (b2 - 0x80) * 4096 + (b3 - 0x80) * 64 + (b4 - 0x80)) [b1; b2; b3; b4]
| row_9 b1 b2 b3 b4 : b1 = 0xF4 -> 0x80 <= b2 <= 0x8F -> 0x80 <= b3 <= 0xBF -> 0x80 <= b4 <= 0xBF ->
    seq8 ((b1 - 0xF0) * 262144 + (b2 - 0x80) * 4096 + (b3 - 0x80) * 64 + (b4 - 0x80)) [b1; b2; b3; b4].

(** Table 3-5, UTF-16 *)
Inductive seq16 : Z -> list Z -> Prop :=
| unit_16 u : 0 <= u <= 0xD7FF \/ 0xE000 <= u <= 0xFFFF -> seq16 u [u]
| pair_16 h l : 0xD800 <= h <= 0xDBFF -> 0xDC00 <= l <= 0xDFFF ->
    seq16 (0x10000 + (h - 0xD800) * 1024 + (l - 0xDC00)) [h; l].

(** D90, UTF-32 *)
Inductive seq32 : Z -> list Z -> Prop :=
| unit_32 c : scalar c -> seq32 c [c].

(** [encodes seq cs us]: the unit sequence [us] is the encoding of the scalar values [cs].  A unit
    sequence is well-formed when it encodes something (D84, D85). *)
Inductive encodes (seq : Z -> list Z -> Prop) : list Z -> list Z -> Prop :=
| encodes_nil : encodes seq [] []
| encodes_cons c u cs us : seq c u -> encodes seq cs us -> encodes seq (c :: cs) (u ++ us).

Definition well_formed (seq : Z -> list Z -> Prop) (us : list Z) : Prop :=
  exists cs, encodes seq cs us.

(** [decodes seq us cs]: reading [us] from left to right; where a well-formed sequence starts, its
    scalar value, otherwise U+FFFD for exactly one unit. *)
Inductive decodes (seq : Z -> list Z -> Prop) : list Z -> list Z -> Prop :=
| decodes_nil : decodes seq [] []
| decodes_seq c u us cs : seq c u -> decodes seq us cs -> decodes seq (u ++ us) (c :: cs)
| decodes_bad u us cs : (forall c s rest, seq c s -> u :: us <> s ++ rest) ->
    decodes seq us cs -> decodes seq (u :: us) (0xFFFD :: cs).

(** The values an integer type of the given width and signedness can hold, and the unsigned bit
    pattern (code unit) of such a value. *)
Definition holds (bits : Z) (signed : bool) (v : Z) : Prop :=
  if signed then - 2 ^ (bits - 1) <= v < 2 ^ (bits - 1) else 0 <= v < 2 ^ bits.

Definition pattern (bits : Z) (v : Z) : Z := v mod 2 ^ bits.

(** The next three are about a converter as a function from the input and the initial contents of
    the output string. *)

(** garbage in front of well-formed text does not damage the text *)
Definition resyncs (seq : Z -> list Z -> Prop) (bits : Z) (signed : bool)
    (f : list Z -> list Z -> outcome (list Z)) : Prop :=
  forall p t out, Forall (holds bits signed) p -> Forall (holds bits signed) t ->
  well_formed seq (map (pattern bits) t) ->
  exists up ut, f p [] = Ret up /\ f t [] = Ret ut /\ f (p ++ t) out = Ret (out ++ up ++ ut).

(** what was in the output string stays in front *)
Definition appends (bits : Z) (signed : bool) (f : list Z -> list Z -> outcome (list Z)) : Prop :=
  forall a out, Forall (holds bits signed) a ->
  exists us, f a [] = Ret us /\ f a out = Ret (out ++ us).

(** no read outside the array, no endless loop *)
Definition safe (bits : Z) (signed : bool) (f : list Z -> list Z -> outcome (list Z)) : Prop :=
  forall a out, Forall (holds bits signed) a -> exists r, f a out = Ret r.
