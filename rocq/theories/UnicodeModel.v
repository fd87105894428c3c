(** Model of /repo/include/pluto/unicode.hpp.

    Code units are integers ([Z]).  An element type is its width in bits and its signedness, so
    that [char], [signed char], [char8_t], [char16_t], [char32_t] and every [wchar_t] are covered;
    the static_asserts on sizeof fix the width, the signedness stays arbitrary.  The int
    arithmetic of the code stays below 2^21, so it is modelled without overflow.  An array of
    [size] elements is a list; a read outside it is [Ub].  Allocation failure is not modelled. *)
From Coq Require Import ZArith List Bool.
From Verif Require Import Base.
Import ListNotations.
Open Scope Z_scope.
Open Scope outcome_scope.

Record elem_type := ET { et_bits : Z; et_signed : bool }.

(** [static_cast<T>(v)]: the value of type T congruent to v modulo 2^bits (C++20 [conv.integral];
    implementation-defined but universal before C++20). *)
Definition cast (t : elem_type) (v : Z) : Z :=
  if et_signed t
  then (v + 2 ^ (et_bits t - 1)) mod 2 ^ et_bits t - 2 ^ (et_bits t - 1)
  else v mod 2 ^ et_bits t.

Definition u_char := ET 8 false.
Definition u_short := ET 16 false.

(** [pElem[i]] *)
Definition rd (a : list Z) (i : nat) : outcome Z :=
  match nth_error a i with Some v => Ret v | None => Ub end.

(** The common loop of the six converters,
    [for (std::size_t i{ 0 }; i < size; ++i) { ... push_back(invalid); }]
    (unicode.hpp 26-98, 118-167, 187-257, 277-315, 335-360, 380-398).  [body i] is the part up to
    the last statement: [Some (i', units)] when it did [push_back] of [units], set i to [i'] and
    [continue]d, [None] when it fell through to the "Invalid" statement. *)
Fixpoint conv_loop (body : nat -> outcome (option (nat * list Z))) (invalid : list Z)
    (size fuel i : nat) (out : list Z) : outcome (list Z) :=
  if (i <? size)%nat then
    match fuel with
    | O => OutOfFuel
    | S fuel' =>
        let* r := body i in
        match r with
        | Some (i', units) => conv_loop body invalid size fuel' (S i') (out ++ units)
        | None => conv_loop body invalid size fuel' (S i) (out ++ invalid)
        end
    end
  else Ret out.

Notation "x <<< n" := (Z.shiftl x n) (at level 40).
Notation "x >>> n" := (Z.shiftr x n) (at level 40).
Notation "x .& y" := (Z.land x y) (at level 41).
Notation "x .| y" := (Z.lor x y) (at level 42).

(** [0x7F < e && e < 0xC0] *)
Definition is_cont (e : Z) : bool := (0x7F <? e) && (e <? 0xC0).

(** utf8_to_utf16, unicode.hpp 26-96 (one iteration up to line 94) *)
Definition utf8_to_utf16_body (t16 : elem_type) (a : list Z) (size : nat) (i : nat)
  : outcome (option (nat * list Z)) :=
  let* e := rd a i in
  let elem := cast u_char e in
  if elem <? 0x80 then Ret (Some (i, [cast t16 elem]))
  else if elem <? 0xC2 then Ret None
  else if elem <? 0xE0 then
    if (i + 1 <? size)%nat then
      let* e2 := rd a (i + 1) in
      let elem2 := cast u_char e2 in
      if is_cont elem2
      then Ret (Some ((i + 1)%nat, [cast t16 (((elem .& 0x1F) <<< 6) .| (elem2 .& 0x3F))]))
      else Ret None
    else Ret None
  else if elem <? 0xF0 then
    if (i + 2 <? size)%nat then
      let* e2 := rd a (i + 1) in
      let* e3 := rd a (i + 2) in
      let elem2 := cast u_char e2 in
      let elem3 := cast u_char e3 in
      if is_cont elem2 && is_cont elem3 then
        let cp := ((elem .& 0xF) <<< 12) .| ((elem2 .& 0x3F) <<< 6) .| (elem3 .& 0x3F) in
        if ((0x7FF <? cp) && (cp <? 0xD800)) || (0xDFFF <? cp)
        then Ret (Some ((i + 2)%nat, [cast t16 cp]))
        else Ret None
      else Ret None
    else Ret None
  else if elem <? 0xF8 then
    if (i + 3 <? size)%nat then
      let* e2 := rd a (i + 1) in
      let* e3 := rd a (i + 2) in
      let* e4 := rd a (i + 3) in
      let elem2 := cast u_char e2 in
      let elem3 := cast u_char e3 in
      let elem4 := cast u_char e4 in
      if is_cont elem2 && is_cont elem3 && is_cont elem4 then
        let cp := ((elem .& 0x7) <<< 18) .| ((elem2 .& 0x3F) <<< 12)
                  .| ((elem3 .& 0x3F) <<< 6) .| (elem4 .& 0x3F) in
        if (0xFFFF <? cp) && (cp <? 0x110000) then
          let cp' := cp - 0x10000 in
          Ret (Some ((i + 3)%nat, [cast t16 ((cp' >>> 10) + 0xD800);
                                   cast t16 ((cp' .& 0x3FF) + 0xDC00)]))
        else Ret None
      else Ret None
    else Ret None
  else Ret None.

(** utf8_to_utf16, unicode.hpp 17-99; the std::basic_string overload (101-107) passes c_str() and
    size() and is the same function on the string's characters *)
Definition utf8_to_utf16 (t16 : elem_type) (a : list Z) (utf16 : list Z) : outcome (list Z) :=
  let size := length a in
  conv_loop (utf8_to_utf16_body t16 a size) [cast t16 0xFFFD] size size 0 utf16.

(** utf16_to_utf8, unicode.hpp 118-161 *)
Definition utf16_to_utf8_body (t8 : elem_type) (a : list Z) (size : nat) (i : nat)
  : outcome (option (nat * list Z)) :=
  let* e := rd a i in
  let elem := cast u_short e in
  if elem <? 0x80 then Ret (Some (i, [cast t8 elem]))
  else if elem <? 0x800 then
    Ret (Some (i, [cast t8 (0xC0 .| (elem >>> 6)); cast t8 (0x80 .| (elem .& 0x3F))]))
  else if (elem <? 0xD800) || (0xDFFF <? elem) then
    if elem <? 0x10000 then
      Ret (Some (i, [cast t8 (0xE0 .| (elem >>> 12));
                     cast t8 (0x80 .| ((elem >>> 6) .& 0x3F));
                     cast t8 (0x80 .| (elem .& 0x3F))]))
    else Ret None
  else if elem <? 0xDC00 then
    if (i + 1 <? size)%nat then
      let* e2 := rd a (i + 1) in
      let elem2 := cast u_short e2 in
      if (0xDBFF <? elem2) && (elem2 <? 0xE000) then
        let cp := (((elem .& 0x3FF) <<< 10) .| (elem2 .& 0x3FF)) + 0x10000 in
        Ret (Some ((i + 1)%nat, [cast t8 (0xF0 .| (cp >>> 18));
                                 cast t8 (0x80 .| ((cp >>> 12) .& 0x3F));
                                 cast t8 (0x80 .| ((cp >>> 6) .& 0x3F));
                                 cast t8 (0x80 .| (cp .& 0x3F))]))
      else Ret None
    else Ret None
  else Ret None.

(** the three bytes pushed for an invalid unit, unicode.hpp 163-166 and 311-314 *)
Definition invalid8 (t8 : elem_type) : list Z := [cast t8 0xEF; cast t8 0xBF; cast t8 0xBD].

(** utf16_to_utf8, unicode.hpp 109-168 (string overload 170-176) *)
Definition utf16_to_utf8 (t8 : elem_type) (a : list Z) (utf8 : list Z) : outcome (list Z) :=
  let size := length a in
  conv_loop (utf16_to_utf8_body t8 a size) (invalid8 t8) size size 0 utf8.

(** utf8_to_utf32, unicode.hpp 187-254 *)
Definition utf8_to_utf32_body (t32 : elem_type) (a : list Z) (size : nat) (i : nat)
  : outcome (option (nat * list Z)) :=
  let* e := rd a i in
  let elem := cast u_char e in
  if elem <? 0x80 then Ret (Some (i, [cast t32 elem]))
  else if elem <? 0xC2 then Ret None
  else if elem <? 0xE0 then
    if (i + 1 <? size)%nat then
      let* e2 := rd a (i + 1) in
      let elem2 := cast u_char e2 in
      if is_cont elem2
      then Ret (Some ((i + 1)%nat, [cast t32 (((elem .& 0x1F) <<< 6) .| (elem2 .& 0x3F))]))
      else Ret None
    else Ret None
  else if elem <? 0xF0 then
    if (i + 2 <? size)%nat then
      let* e2 := rd a (i + 1) in
      let* e3 := rd a (i + 2) in
      let elem2 := cast u_char e2 in
      let elem3 := cast u_char e3 in
      if is_cont elem2 && is_cont elem3 then
        let cp := cast t32 (((elem .& 0xF) <<< 12) .| ((elem2 .& 0x3F) <<< 6)
                            .| (elem3 .& 0x3F)) in
        if ((0x7FF <? cp) && (cp <? 0xD800)) || (0xDFFF <? cp)
        then Ret (Some ((i + 2)%nat, [cp]))
        else Ret None
      else Ret None
    else Ret None
  else if elem <? 0xF8 then
    if (i + 3 <? size)%nat then
      let* e2 := rd a (i + 1) in
      let* e3 := rd a (i + 2) in
      let* e4 := rd a (i + 3) in
      let elem2 := cast u_char e2 in
      let elem3 := cast u_char e3 in
      let elem4 := cast u_char e4 in
      if is_cont elem2 && is_cont elem3 && is_cont elem4 then
        let cp := cast t32 (((elem .& 0x7) <<< 18) .| ((elem2 .& 0x3F) <<< 12)
                            .| ((elem3 .& 0x3F) <<< 6) .| (elem4 .& 0x3F)) in
        if (0xFFFF <? cp) && (cp <? 0x110000)
        then Ret (Some ((i + 3)%nat, [cp]))
        else Ret None
      else Ret None
    else Ret None
  else Ret None.

(** utf8_to_utf32, unicode.hpp 178-258 (string overload 260-266) *)
Definition utf8_to_utf32 (t32 : elem_type) (a : list Z) (utf32 : list Z) : outcome (list Z) :=
  let size := length a in
  conv_loop (utf8_to_utf32_body t32 a size) [cast t32 0xFFFD] size size 0 utf32.

(** utf32_to_utf8, unicode.hpp 277-309; [ulong] is unsigned long (32 or 64 bits) *)
Definition utf32_to_utf8_body (ulong t8 : elem_type) (a : list Z) (i : nat)
  : outcome (option (nat * list Z)) :=
  let* e := rd a i in
  let cp := cast ulong e in
  if cp <? 0x80 then Ret (Some (i, [cast t8 cp]))
  else if cp <? 0x800 then
    Ret (Some (i, [cast t8 (0xC0 .| (cp >>> 6)); cast t8 (0x80 .| (cp .& 0x3F))]))
  else if cp <? 0x10000 then
    if (cp <? 0xD800) || (0xDFFF <? cp) then
      Ret (Some (i, [cast t8 (0xE0 .| (cp >>> 12));
                     cast t8 (0x80 .| ((cp >>> 6) .& 0x3F));
                     cast t8 (0x80 .| (cp .& 0x3F))]))
    else Ret None
  else if cp <? 0x110000 then
    Ret (Some (i, [cast t8 (0xF0 .| (cp >>> 18));
                   cast t8 (0x80 .| ((cp >>> 12) .& 0x3F));
                   cast t8 (0x80 .| ((cp >>> 6) .& 0x3F));
                   cast t8 (0x80 .| (cp .& 0x3F))]))
  else Ret None.

(** utf32_to_utf8, unicode.hpp 268-316 (string overload 318-324) *)
Definition utf32_to_utf8 (ulong t8 : elem_type) (a : list Z) (utf8 : list Z) : outcome (list Z) :=
  let size := length a in
  conv_loop (utf32_to_utf8_body ulong t8 a) (invalid8 t8) size size 0 utf8.

(** utf16_to_utf32, unicode.hpp 335-357 *)
Definition utf16_to_utf32_body (t32 : elem_type) (a : list Z) (size : nat) (i : nat)
  : outcome (option (nat * list Z)) :=
  let* e := rd a i in
  let elem := cast u_short e in
  if (elem <? 0xD800) || ((0xDFFF <? elem) && (elem <? 0x10000))
  then Ret (Some (i, [cast t32 elem]))
  else if (0xD7FF <? elem) && (elem <? 0xDC00) then
    if (i + 1 <? size)%nat then
      let* e2 := rd a (i + 1) in
      let elem2 := cast u_short e2 in
      if (0xDBFF <? elem2) && (elem2 <? 0xE000) then
        Ret (Some ((i + 1)%nat,
                   [cast t32 ((((elem .& 0x3FF) <<< 10) .| (elem2 .& 0x3FF)) + 0x10000)]))
      else Ret None
    else Ret None
  else Ret None.

(** utf16_to_utf32, unicode.hpp 326-361 (string overload 363-369) *)
Definition utf16_to_utf32 (t32 : elem_type) (a : list Z) (utf32 : list Z) : outcome (list Z) :=
  let size := length a in
  conv_loop (utf16_to_utf32_body t32 a size) [cast t32 0xFFFD] size size 0 utf32.

(** utf32_to_utf16, unicode.hpp 380-395 *)
Definition utf32_to_utf16_body (ulong t16 : elem_type) (a : list Z) (i : nat)
  : outcome (option (nat * list Z)) :=
  let* e := rd a i in
  let cp := cast ulong e in
  if (cp <? 0xD800) || ((0xDFFF <? cp) && (cp <? 0x10000))
  then Ret (Some (i, [cast t16 cp]))
  else if (0xFFFF <? cp) && (cp <? 0x110000) then
    let cp' := cp - 0x10000 in
    Ret (Some (i, [cast t16 ((cp' >>> 10) + 0xD800); cast t16 ((cp' .& 0x3FF) + 0xDC00)]))
  else Ret None.

(** utf32_to_utf16, unicode.hpp 371-399 (string overload 401-407) *)
Definition utf32_to_utf16 (ulong t16 : elem_type) (a : list Z) (utf16 : list Z)
  : outcome (list Z) :=
  let size := length a in
  conv_loop (utf32_to_utf16_body ulong t16 a) [cast t16 0xFFFD] size size 0 utf16.

(** The copying loops of str(u8string), u8str(string), wstr(u16string), ... (unicode.hpp 426-436,
    508-513, 525-530, 543-553, 619-623, 675-679):
    [for (i = 0; i < size; ++i) out.push_back(static_cast<Elem>(p[i]))] *)
Definition copy_units (t : elem_type) (a : list Z) : outcome (list Z) :=
  let size := length a in
  conv_loop (fun i => let* e := rd a i in Ret (Some (i, [cast t e]))) [] size size 0 [].

(** The implementation-defined choices: signedness of char and wchar_t,
    PLUTO_UTILS_HAS_32_BIT_WCHAR, and the width of unsigned long. *)
Record platform := Plat {
  char_signed : bool; wchar_signed : bool; wchar_32 : bool; ulong_64 : bool }.

Inductive str_type := SChar | SWide | SChar8 | SChar16 | SChar32.

Definition et_of (p : platform) (s : str_type) : elem_type :=
  match s with
  | SChar => ET 8 (char_signed p)
  | SWide => ET (if wchar_32 p then 32 else 16) (wchar_signed p)
  | SChar8 => ET 8 false
  | SChar16 => ET 16 false
  | SChar32 => ET 32 false
  end.

Definition ulong_of (p : platform) : elem_type := ET (if ulong_64 p then 64 else 32) false.

(** str(wstring) 409-423, str(u8string) 426-441, str(u16string) 444-454, str(u32string) 456-466;
    there is no str(string) *)
Definition str (p : platform) (src : str_type) (a : list Z) : outcome (list Z) :=
  let t := et_of p SChar in
  match src with
  | SChar => Ret a
  | SWide => if wchar_32 p then utf32_to_utf8 (ulong_of p) t a [] else utf16_to_utf8 t a []
  | SChar8 => copy_units t a
  | SChar16 => utf16_to_utf8 t a []
  | SChar32 => utf32_to_utf8 (ulong_of p) t a []
  end.

(** wstr(string) 468-482, wstr(u8string) 485-499, wstr(u16string) 502-520, wstr(u32string) 522-540 *)
Definition wstr (p : platform) (src : str_type) (a : list Z) : outcome (list Z) :=
  let t := et_of p SWide in
  match src with
  | SChar | SChar8 => if wchar_32 p then utf8_to_utf32 t a [] else utf8_to_utf16 t a []
  | SWide => Ret a
  | SChar16 => if wchar_32 p then utf16_to_utf32 t a [] else copy_units t a
  | SChar32 => if wchar_32 p then copy_units t a else utf32_to_utf16 (ulong_of p) t a []
  end.

(** u8str(string) 543-558, u8str(wstring) 560-574, u8str(u16string) 576-586, u8str(u32string)
    588-598 *)
Definition u8str (p : platform) (src : str_type) (a : list Z) : outcome (list Z) :=
  let t := et_of p SChar8 in
  match src with
  | SChar => copy_units t a
  | SWide => if wchar_32 p then utf32_to_utf8 (ulong_of p) t a [] else utf16_to_utf8 t a []
  | SChar8 => Ret a
  | SChar16 => utf16_to_utf8 t a []
  | SChar32 => utf32_to_utf8 (ulong_of p) t a []
  end.

(** u16str(string) 601-611, u16str(wstring) 613-631, u16str(u8string) 634-644, u16str(u32string)
    647-657 *)
Definition u16str (p : platform) (src : str_type) (a : list Z) : outcome (list Z) :=
  let t := et_of p SChar16 in
  match src with
  | SChar | SChar8 => utf8_to_utf16 t a []
  | SWide => if wchar_32 p then utf32_to_utf16 (ulong_of p) t a [] else copy_units t a
  | SChar16 => Ret a
  | SChar32 => utf32_to_utf16 (ulong_of p) t a []
  end.

(** u32str(string) 659-669, u32str(wstring) 671-689, u32str(u8string) 692-702, u32str(u16string)
    705-715 *)
Definition u32str (p : platform) (src : str_type) (a : list Z) : outcome (list Z) :=
  let t := et_of p SChar32 in
  match src with
  | SChar | SChar8 => utf8_to_utf32 t a []
  | SWide => if wchar_32 p then copy_units t a else utf16_to_utf32 t a []
  | SChar16 => utf16_to_utf32 t a []
  | SChar32 => Ret a
  end.

Definition to_type (p : platform) (dst : str_type) : str_type -> list Z -> outcome (list Z) :=
  match dst with
  | SChar => str p | SWide => wstr p | SChar8 => u8str p | SChar16 => u16str p | SChar32 => u32str p
  end.
