(** Model of the locales of /repo/include/pluto/locale.hpp (14-70), of the case-insensitive comparison objects of
    /repo/include/pluto/compare.hpp (47-128), which store a reference to a facet of the locale they are built from, and
    of the functions of /repo/include/pluto/string.hpp that take a locale.
    A std::locale object is a handle; the facets live as long as some locale object refers to them (use_facet in the
    C++ standard: "the reference returned remains valid at least as long as any copy of loc exists").
    (An implementation may keep facets longer, e.g. those of the "C" locale; the standard does not promise it.)
    Building a locale with a name that is not installed throws std::runtime_error; std::use_facet throws std::bad_cast
    when the locale has no facet for the character type (the standard requires facets for char and wchar_t only).
    Every statement of a program stands for itself inside try/catch, so that the program goes on after an exception.
    Not modelled: the order in which static objects are destroyed at the end of the program. *)
From Coq Require Import List Bool Arith.
From Verif Require Import Base.
Import ListNotations.

(** c_locale, system_locale, default_locale (locale.hpp 27-64) *)
Inductive named := CLocale | SystemLocale | DefaultLocale.
Definition named_eqb (m n : named) : bool :=
  match m, n with CLocale, CLocale | SystemLocale, SystemLocale | DefaultLocale, DefaultLocale => true | _, _ => false end.

(** The statements of a program.  [x] names a std::locale variable, [c] a comparison object, [s] a string variable and
    [n] a name of a locale ("C", "", "en_US.UTF-8", ...). *)
Inductive stmt (C : Type) :=
| LNew (x n : nat)                     (* std::locale x{ n }; or x = std::locale{ n }; *)
| LCopy (x y : nat)                    (* std::locale y{ x }; or y = x; *)
| LDrop (x : nat)                      (* x goes out of scope *)
| CmpOf (c x : nat)                    (* is_iequal<Elem> c{ x };                      compare.hpp 52-53 *)
| CmpNamed (c : nat) (n : named)       (* is_iequal<Elem> c{};  or  c{ pluto::c_locale() }; *)
| CmpTemp (c n : nat)                  (* is_iequal<Elem> c{ std::locale{ n } }; *)
| CmpCopy (c d : nat)                  (* auto d{ c }; *)
| CmpUse (c : nat) (a b : C)           (* c(a, b)                                      compare.hpp 55-58 *)
| CallOf (x : nat) (a b : C)           (* iequals({a}, {b}, x) and the other i-functions of string.hpp: the comparison object lives inside the call *)
| CallNamed (n : named) (a b : C)      (* iequals({a}, {b}) *)
| UpperOf (s x : nat)                  (* upper(s, x)                                  string.hpp 60-75 *)
| UpperNamed (s : nat) (n : named).    (* upper(s) *)
Arguments LNew {C}. Arguments LCopy {C}. Arguments LDrop {C}. Arguments CmpOf {C}. Arguments CmpNamed {C}. Arguments CmpTemp {C}.
Arguments CmpCopy {C}. Arguments CmpUse {C}. Arguments CallOf {C}. Arguments CallNamed {C}. Arguments UpperOf {C}. Arguments UpperNamed {C}.

(** what the program sees: the results of comparisons, and exceptions *)
Inductive event := Result (b : bool) | RuntimeError | BadCast.

Section Locale.
Context {C : Type}.
(** which names are installed; which locales have a ctype facet for the character type; its toupper; == of characters;
    the names used by locale.hpp 29-62 (the last one is PLUTO_LOCALE_DEFAULT_LOCALE, 20-22) *)
Variables (installed has_ctype : nat -> bool) (toupper : nat -> C -> C) (eqb : C -> C -> bool) (name_of : named -> nat).

(** locale variables and the facets they refer to, the local statics of locale.hpp that exist, the facet of every
    comparison object, the names of the locales whose facets were created, the strings, the events,
    and the facet of the temporary locale object of the running statement *)
Record world := World { locales : list (nat * nat); statics : list (named * nat); cmps : list (nat * nat); names : list nat;
  text : nat -> list C; events : list event; temporary : option nat }.
Definition empty (t : nat -> list C) : world := World [] [] [] [] t [] None.

Definition lookup (x : nat) (l : list (nat * nat)) : option nat :=
  match find (fun p => fst p =? x) l with Some p => Some (snd p) | None => None end.
Definition drop (x : nat) (l : list (nat * nat)) : list (nat * nat) := filter (fun p => negb (fst p =? x)) l.
Definition bind (x f : nat) (l : list (nat * nat)) : list (nat * nat) := (x, f) :: drop x l.
(** does some locale object refer to the facet? *)
Definition alive (f : nat) (w : world) : bool :=
  existsb (fun p => snd p =? f) (locales w) || existsb (fun p => snd p =? f) (statics w) ||
  match temporary w with Some g => g =? f | None => false end.
Definition name (f : nat) (w : world) : nat := nth f (names w) 0.
Definition event_ (e : event) (w : world) : world := World (locales w) (statics w) (cmps w) (names w) (text w) (events w ++ [e]) (temporary w).
Definition set_locale (x f : nat) (w : world) : world := World (bind x f (locales w)) (statics w) (cmps w) (names w) (text w) (events w) (temporary w).
Definition set_cmp (c f : nat) (w : world) : world := World (locales w) (statics w) (bind c f (cmps w)) (names w) (text w) (events w) (temporary w).

(** compare.hpp 57 *)
Definition is_iequal (n : nat) (a b : C) : bool := eqb a b || eqb (toupper n a) (toupper n b).
(** using a facet that no longer exists is undefined *)
Definition compare_with (f : nat) (a b : C) (w : world) : outcome world :=
  if alive f w then Ret (event_ (Result (is_iequal (name f w) a b)) w) else Ub.
(** string.hpp 60-67: ctype::toupper of an array *)
Definition upper_with (f s : nat) (w : world) : outcome world :=
  if alive f w then
    Ret (World (locales w) (statics w) (cmps w) (names w)
           (fun r => if r =? s then map (toupper (name f w)) (text w s) else text w r) (events w) (temporary w))
  else Ub.

(** std::locale{ n }: the locale object of a new facet, or an exception *)
Definition make (n : nat) (w : world) : option nat * world :=
  if installed n then (Some (length (names w)), World (locales w) (statics w) (cmps w) (names w ++ [n]) (text w) (events w) (temporary w))
  else (None, event_ RuntimeError w).
(** locale.hpp 27-64 with PLUTO_LOCALE_NO_STATIC = 0: a local static that is created once; when its constructor throws
    it is constructed at the next call *)
Definition static_facet (n : named) (w : world) : option nat * world :=
  match find (fun p => named_eqb n (fst p)) (statics w) with
  | Some p => (Some (snd p), w)
  | None =>
      match make (name_of n) w with
      | (Some f, w) => (Some f, World (locales w) ((n, f) :: statics w) (cmps w) (names w) (text w) (events w) (temporary w))
      | (None, w) => (None, w)
      end
  end.
(** use_facet (locale.hpp 66-70) followed by the use of the reference *)
Definition use_facet (f : nat) (w : world) (k : outcome world) : outcome world :=
  if has_ctype (name f w) then k else Ret (event_ BadCast w).
Definition set_temporary (t : option nat) (w : world) : world := World (locales w) (statics w) (cmps w) (names w) (text w) (events w) t.
(** a temporary locale holds its facet during the statement *)
Definition with_temporary (f : nat) (w : world) (k : world -> outcome world) : outcome world :=
  match k (set_temporary (Some f) w) with Ret v => Ret (set_temporary None v) | r => r end.
(** evaluates pluto::default_locale() and the like and passes it to the rest of the statement *)
Definition with_named (no_static : bool) (n : named) (w : world) (k : nat -> world -> outcome world) : outcome world :=
  if no_static then
    match make (name_of n) w with (Some f, w) => with_temporary f w (k f) | (None, w) => Ret w end
  else
    match static_facet n w with (Some f, w) => k f w | (None, w) => Ret w end.

(** [None]: the program uses a variable that does not exist *)
Definition with_var (x : nat) (l : list (nat * nat)) (k : nat -> outcome world) : option (outcome world) :=
  match lookup x l with Some f => Some (k f) | None => None end.
Definition step (no_static : bool) (s : stmt C) (w : world) : option (outcome world) :=
  match s with
  | LNew x n => Some (match make n w with (Some f, w) => Ret (set_locale x f w) | (None, w) => Ret w end)
  | LCopy x y => with_var x (locales w) (fun f => Ret (set_locale y f w))
  | LDrop x => Some (Ret (World (drop x (locales w)) (statics w) (cmps w) (names w) (text w) (events w) (temporary w)))
  | CmpOf c x => with_var x (locales w) (fun f => use_facet f w (Ret (set_cmp c f w)))
  | CmpNamed c n => Some (with_named no_static n w (fun f w => use_facet f w (Ret (set_cmp c f w))))
  | CmpTemp c n =>
      Some (match make n w with
            | (Some f, w) => with_temporary f w (fun w => use_facet f w (Ret (set_cmp c f w)))
            | (None, w) => Ret w
            end)
  | CmpCopy c d => with_var c (cmps w) (fun f => Ret (set_cmp d f w))
  | CmpUse c a b => with_var c (cmps w) (fun f => compare_with f a b w)
  | CallOf x a b => with_var x (locales w) (fun f => use_facet f w (compare_with f a b w))
  | CallNamed n a b => Some (with_named no_static n w (fun f w => use_facet f w (compare_with f a b w)))
  | UpperOf s x => with_var x (locales w) (fun f => use_facet f w (upper_with f s w))
  | UpperNamed s n => Some (with_named no_static n w (fun f w => use_facet f w (upper_with f s w)))
  end.
Fixpoint run (no_static : bool) (p : list (stmt C)) (w : world) : option (outcome world) :=
  match p with
  | [] => Some (Ret w)
  | s :: p => match step no_static s w with Some (Ret w) => run no_static p w | r => r end
  end.
End Locale.
