(** The C++ standards: the value of __cplusplus and the headers. *)
From Coq Require Import List Bool ZArith String Ascii.
From Verif Require Import VersionModel.
Import ListNotations.
Open Scope Z_scope.

Inductive standard := S98 | S11 | S14 | S17 | S20 | S23 | S26.
Definition rank (s : standard) : nat := match s with S98 => 0 | S11 => 1 | S14 => 2 | S17 => 3 | S20 => 4 | S23 => 5 | S26 => 6 end.
Definition at_least (s t : standard) : Prop := (rank t <= rank s)%nat.
(** the value of __cplusplus (for C++ 26 any later value) *)
Definition official (s : standard) (v : Z) : Prop :=
  match s with
  | S98 => v = 199711 | S11 => v = 201103 | S14 => v = 201402 | S17 => v = 201703 | S20 => v = 202002 | S23 => v = 202302 | S26 => 202302 < v
  end.
(** the value of the standard before *)
Definition before (s : standard) : Z :=
  match s with S98 => 0 | S11 => 199711 | S14 => 201103 | S17 => 201402 | S20 => 201703 | S23 => 202002 | S26 => 202302 end.
(** a compiler for the standard: __cplusplus has its value, or, for MSVC, only _MSVC_LANG has it *)
Definition speaks (e : env) (s : standard) : Prop :=
  exists v, official s v /\
    (cplusplus e = Some v /\ (msvc_lang e = None \/ msvc_lang e = Some v) \/ cplusplus e = Some 199711 /\ msvc_lang e = Some v).
Definition no_user (e : env) : Prop := forall m, user e m = None.

Definition has (e : env) (s : standard) : bool :=
  match s with
  | S98 => true | S11 => has_cxx_11 e | S14 => has_cxx_14 e | S17 => has_cxx_17 e | S20 => has_cxx_20 e | S23 => has_cxx_23 e | S26 => has_cxx_26 e
  end.

(** The headers of the tables "C++ library headers" and "C++ headers for C library facilities": the first standard that has
    them and the first one that no longer has them there (moved to Annex D or removed). *)
Open Scope string_scope.
Definition headers : list (string * standard * option standard) :=
  (* C++ 98 *)
  [("algorithm", S98, None); ("bitset", S98, None); ("complex", S98, None); ("deque", S98, None); ("exception", S98, None); ("fstream", S98, None);
   ("functional", S98, None); ("iomanip", S98, None); ("ios", S98, None); ("iosfwd", S98, None); ("iostream", S98, None); ("istream", S98, None);
   ("iterator", S98, None); ("limits", S98, None); ("list", S98, None); ("locale", S98, None); ("map", S98, None); ("memory", S98, None); ("new", S98, None);
   ("numeric", S98, None); ("ostream", S98, None); ("queue", S98, None); ("set", S98, None); ("sstream", S98, None); ("stack", S98, None);
   ("stdexcept", S98, None); ("streambuf", S98, None); ("string", S98, None); ("typeinfo", S98, None); ("utility", S98, None); ("valarray", S98, None);
   ("vector", S98, None);
   ("cassert", S98, None); ("cctype", S98, None); ("cerrno", S98, None); ("cfloat", S98, None); ("ciso646", S98, Some S20); ("climits", S98, None);
   ("clocale", S98, None); ("cmath", S98, None); ("csetjmp", S98, None); ("csignal", S98, None); ("cstdarg", S98, None); ("cstddef", S98, None);
   ("cstdio", S98, None); ("cstdlib", S98, None); ("cstring", S98, None); ("ctime", S98, None); ("cwchar", S98, None); ("cwctype", S98, None);
  (* C++ 11 *)
   ("array", S11, None); ("atomic", S11, None); ("chrono", S11, None); ("codecvt", S11, Some S17); ("condition_variable", S11, None);
   ("forward_list", S11, None); ("future", S11, None); ("initializer_list", S11, None); ("mutex", S11, None); ("random", S11, None); ("ratio", S11, None);
   ("regex", S11, None); ("scoped_allocator", S11, None); ("system_error", S11, None); ("thread", S11, None); ("tuple", S11, None);
   ("type_traits", S11, None); ("typeindex", S11, None); ("unordered_map", S11, None); ("unordered_set", S11, None);
   ("ccomplex", S11, Some S17); ("cfenv", S11, None); ("cinttypes", S11, None); ("cstdalign", S11, Some S17); ("cstdbool", S11, Some S17);
   ("cstdint", S11, None); ("ctgmath", S11, Some S17); ("cuchar", S11, None);
  (* C++ 14, 17, 20, 23, 26 *)
   ("shared_mutex", S14, None);
   ("any", S17, None); ("charconv", S17, None); ("execution", S17, None); ("filesystem", S17, None); ("memory_resource", S17, None);
   ("optional", S17, None); ("string_view", S17, None); ("variant", S17, None);
   ("barrier", S20, None); ("bit", S20, None); ("compare", S20, None); ("concepts", S20, None); ("coroutine", S20, None); ("format", S20, None);
   ("latch", S20, None); ("numbers", S20, None); ("ranges", S20, None); ("semaphore", S20, None); ("source_location", S20, None); ("span", S20, None);
   ("stop_token", S20, None); ("syncstream", S20, None); ("version", S20, None);
   ("expected", S23, None); ("flat_map", S23, None); ("flat_set", S23, None); ("generator", S23, None); ("mdspan", S23, None); ("print", S23, None);
   ("spanstream", S23, None); ("stacktrace", S23, None); ("stdfloat", S23, None);
   ("contracts", S26, None); ("debugging", S26, None); ("hazard_pointer", S26, None); ("hive", S26, None); ("inplace_vector", S26, None);
   ("linalg", S26, None); ("meta", S26, None); ("rcu", S26, None); ("simd", S26, None); ("text_encoding", S26, None)].
Definition belongs (s : standard) (h : string) : Prop :=
  exists first last, In (h, first, last) headers /\ at_least s first /\ (forall l, last = Some l -> ~ at_least s l).
(** a standard library may still lack headers of C++ 17 and later *)
Definition complete_up_to_14 (e : env) (s : standard) : Prop :=
  forall h first last, In (h, first, last) headers -> belongs s h -> ~ at_least first S17 -> available e h = true.

(** a number in decimal (one digit suffices here) *)
Definition digit (n : nat) : string := String (ascii_of_nat (48 + n)) EmptyString.
