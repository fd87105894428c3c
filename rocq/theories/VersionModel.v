(** Model of /repo/include/pluto/version.hpp, standard.hpp and filesystem.hpp: macros as functions of what the compiler and the
    user define before the header is included. *)
From Coq Require Import List Bool ZArith String.
Import ListNotations.
Open Scope Z_scope.

(** the macros of version.hpp and filesystem.hpp that are 0 or 1 *)
Inductive macro := Cxx11 | Cxx14 | Cxx17 | Cxx20 | Cxx23 | Cxx26 | Format | SourceLocation | Wchar32 | Experimental.

Record env := {
  cplusplus : option Z;               (* __cplusplus *)
  msvc_lang : option Z;               (* _MSVC_LANG *)
  win32 : bool;                       (* _WIN32 is defined *)
  available : string -> bool;         (* __has_include *)
  user : macro -> option bool }.      (* defined before the header, which then keeps the definition (#ifndef) *)

Definition newer (e : env) (v : Z) : bool :=
  match cplusplus e with Some c => v <? c | None => false end || match msvc_lang e with Some c => v <? c | None => false end.
Definition or_user (e : env) (m : macro) (b : bool) : bool := match user e m with Some d => d | None => b end.

(** version.hpp 16-22, 24-30, 32-38, 40-46, 48-54, 56-62 *)
Definition has_cxx_11 (e : env) : bool := or_user e Cxx11 (newer e 199711).
Definition has_cxx_14 (e : env) : bool := or_user e Cxx14 (newer e 201103).
Definition has_cxx_17 (e : env) : bool := or_user e Cxx17 (newer e 201402).
Definition has_cxx_20 (e : env) : bool := or_user e Cxx20 (newer e 201703).
Definition has_cxx_23 (e : env) : bool := or_user e Cxx23 (newer e 202002).
Definition has_cxx_26 (e : env) : bool := or_user e Cxx26 (newer e 202302).
(** version.hpp 64-70, 72-78, 80-86 *)
Definition has_format (e : env) : bool := or_user e Format (has_cxx_20 e && available e "format").
Definition has_source_location (e : env) : bool := or_user e SourceLocation (has_cxx_20 e && available e "source_location").
Definition has_32_bit_wchar (e : env) : bool := or_user e Wchar32 (negb (win32 e)).
(** version.hpp 88-94, 96-102, 104-106, without definitions of the user; tokens of the definition *)
Definition nodiscard (e : env) : list string := if has_cxx_17 e then ["[[nodiscard]]"%string] else [].
Definition constexpr (e : env) : list string := if has_cxx_20 e then ["constexpr"%string] else ["inline"%string].
Definition nodiscard_constexpr (e : env) : list string := (nodiscard e ++ constexpr e)%list.
(** version.hpp 11-14 *)
Definition version_major : nat := 2.
Definition version_minor : nat := 0.
Definition version_patch : nat := 0.
Definition version_string : string := "2.0.0".

(** filesystem.hpp 13-22, 31-35 *)
Definition filesystem_is_experimental (e : env) : bool := or_user e Experimental (negb (has_cxx_17 e)).
Definition filesystem_namespace (e : env) : string :=
  if filesystem_is_experimental e then "std::experimental::filesystem" else "std::filesystem".

(** the headers standard.hpp includes (13-237); a header that is not available and is included without __has_include is an
    error of the compiler, which [builds] excludes *)
Open Scope string_scope.
Definition always : list string :=   (* 13-61 *)
  ["algorithm"; "bitset"; "cassert"; "cctype"; "cerrno"; "cfloat"; "climits"; "clocale"; "cmath"; "complex"; "csetjmp"; "csignal"; "cstdarg"; "cstddef";
   "cstdio"; "cstdlib"; "cstring"; "ctime"; "cwchar"; "cwctype"; "deque"; "exception"; "fstream"; "functional"; "iomanip"; "ios"; "iosfwd"; "iostream";
   "istream"; "iterator"; "limits"; "list"; "locale"; "map"; "memory"; "new"; "numeric"; "ostream"; "queue"; "set"; "sstream"; "stack"; "stdexcept";
   "streambuf"; "string"; "typeinfo"; "utility"; "valarray"; "vector"].
Definition from_11 : list string :=  (* 64-86 *)
  ["array"; "atomic"; "cfenv"; "chrono"; "cinttypes"; "condition_variable"; "cstdint"; "cuchar"; "forward_list"; "future"; "initializer_list"; "mutex";
   "random"; "ratio"; "regex"; "scoped_allocator"; "system_error"; "thread"; "tuple"; "type_traits"; "typeindex"; "unordered_map"; "unordered_set"].
Definition from_14 : list string := ["shared_mutex"].   (* 90 *)
Definition from_17 : list string :=  (* 94-117 *)
  ["any"; "charconv"; "execution"; "filesystem"; "memory_resource"; "optional"; "string_view"; "variant"].
Definition before_17 : list string :=  (* 119-123 *)
  ["ccomplex"; "codecvt"; "cstdalign"; "cstdbool"; "ctgmath"].
Definition from_20 : list string :=  (* 127-171 *)
  ["barrier"; "bit"; "compare"; "concepts"; "coroutine"; "format"; "latch"; "numbers"; "ranges"; "semaphore"; "source_location"; "span"; "stop_token";
   "syncstream"; "version"].
Definition before_20 : list string :=  (* 173 *)
  ["ciso646"].
Definition from_23 : list string :=  (* 177-203 *)
  ["expected"; "flat_map"; "flat_set"; "generator"; "mdspan"; "print"; "spanstream"; "stacktrace"; "stdfloat"].
Definition from_26 : list string :=  (* 207-236 *)
  ["contracts"; "debugging"; "hazard_pointer"; "hive"; "inplace_vector"; "linalg"; "meta"; "rcu"; "simd"; "text_encoding"].
(** included without a check *)
Definition unchecked (e : env) : list string :=
  (always ++ (if has_cxx_11 e then from_11 else []) ++ (if has_cxx_14 e then from_14 else []) ++
   (if has_cxx_17 e then [] else before_17) ++ (if has_cxx_20 e then [] else before_20))%list.
(** included if __has_include finds them *)
Definition checked (e : env) : list string :=
  ((if has_cxx_17 e then from_17 else []) ++ (if has_cxx_20 e then from_20 else []) ++ (if has_cxx_23 e then from_23 else []) ++
   (if has_cxx_26 e then from_26 else []))%list.
Definition builds (e : env) : bool := forallb (available e) (unchecked e).
Definition included (e : env) : list string := (unchecked e ++ filter (available e) (checked e))%list.
