(** The classes of programs that the properties about facets speak of; they look only at the text of the program.
    And what a program with locales should do, in terms of names of locales alone. *)
From Coq Require Import List Bool Arith.
From Verif Require Import Base LocaleModel.
Import ListNotations.

Section Spec.
Context {C : Type}.
(** no statement uses a comparison object that outlives the statement that made it *)
Definition only_calls (s : stmt C) : bool := match s with CmpUse _ _ _ => false | _ => true end.
(** every comparison object is built from c_locale(), system_locale() or default_locale() *)
Definition named_only (s : stmt C) : bool := match s with CmpOf _ _ | CmpTemp _ _ => false | _ => true end.
(** the statement leaves the locale variable [x] as it is *)
Definition keeps_locale (x : nat) (s : stmt C) : bool :=
  match s with LNew y _ | LDrop y | LCopy _ y => negb (x =? y) | _ => true end.
(** the statement leaves the comparison object [c] as it is *)
Definition keeps_cmp (c : nat) (s : stmt C) : bool :=
  match s with CmpOf d _ | CmpNamed d _ | CmpTemp d _ | CmpCopy _ d => negb (c =? d) | _ => true end.

(** What should happen: a locale variable and a comparison object have the name of a locale; letters are compared and
    converted by the rules of that locale; nothing else matters. *)
Variables (installed has_ctype : nat -> bool) (toupper : nat -> C -> C) (eqb : C -> C -> bool) (name_of : named -> nat).
Record ideal := Ideal { locale_name : nat -> option nat; cmp_name : nat -> option nat; contents : nat -> list C; seen : list event }.
Definition start (t : nat -> list C) : ideal := Ideal (fun _ => None) (fun _ => None) t [].
Definition put {A} (f : nat -> A) (x : nat) (v : A) : nat -> A := fun y => if y =? x then v else f y.
Definition see (e : event) (i : ideal) : ideal := Ideal (locale_name i) (cmp_name i) (contents i) (seen i ++ [e]).
Definition same_letter (n : nat) (a b : C) : event := Result (eqb a b || eqb (toupper n a) (toupper n b)).
(** the locale [n] is built when it is not yet there, and its facet is used *)
Definition with_locale (n : nat) (i : ideal) (k : ideal) : ideal :=
  if installed n then if has_ctype n then k else see BadCast i else see RuntimeError i.
Definition with_facet (n : nat) (i : ideal) (k : ideal) : ideal := if has_ctype n then k else see BadCast i.
Definition should (s : stmt C) (i : ideal) : option ideal :=
  match s with
  | LNew x n => Some (if installed n then Ideal (put (locale_name i) x (Some n)) (cmp_name i) (contents i) (seen i) else see RuntimeError i)
  | LCopy x y => option_map (fun n => Ideal (put (locale_name i) y (Some n)) (cmp_name i) (contents i) (seen i)) (locale_name i x)
  | LDrop x => Some (Ideal (put (locale_name i) x None) (cmp_name i) (contents i) (seen i))
  | CmpOf c x => option_map (fun n => with_facet n i (Ideal (locale_name i) (put (cmp_name i) c (Some n)) (contents i) (seen i))) (locale_name i x)
  | CmpNamed c m => Some (with_locale (name_of m) i (Ideal (locale_name i) (put (cmp_name i) c (Some (name_of m))) (contents i) (seen i)))
  | CmpTemp c n => Some (with_locale n i (Ideal (locale_name i) (put (cmp_name i) c (Some n)) (contents i) (seen i)))
  | CmpCopy c d => option_map (fun n => Ideal (locale_name i) (put (cmp_name i) d (Some n)) (contents i) (seen i)) (cmp_name i c)
  | CmpUse c a b => option_map (fun n => see (same_letter n a b) i) (cmp_name i c)
  | CallOf x a b => option_map (fun n => with_facet n i (see (same_letter n a b) i)) (locale_name i x)
  | CallNamed m a b => Some (with_locale (name_of m) i (see (same_letter (name_of m) a b) i))
  | UpperOf s x =>
      option_map (fun n => with_facet n i (Ideal (locale_name i) (cmp_name i) (put (contents i) s (map (toupper n) (contents i s))) (seen i))) (locale_name i x)
  | UpperNamed s m =>
      Some (with_locale (name_of m) i (Ideal (locale_name i) (cmp_name i) (put (contents i) s (map (toupper (name_of m)) (contents i s))) (seen i)))
  end.
Fixpoint should_all (p : list (stmt C)) (i : ideal) : option ideal :=
  match p with [] => Some i | s :: p => match should s i with Some i => should_all p i | None => None end end.
(** the run of the program ends without undefined behaviour, the program has seen the events that it should have seen,
    and the strings are what they should be *)
Definition as_it_should (no_static : bool) (p : list (stmt C)) (t : nat -> list C) : Prop :=
  match run installed has_ctype toupper eqb name_of no_static p (empty t) with
  | Some (Ret w) => exists i, should_all p (start t) = Some i /\ events w = seen i /\ forall s, text w s = contents i s
  | None => should_all p (start t) = None
  | _ => False
  end.
(** locales that are installed and have the facet *)
Definition good_name (n : nat) : Prop := installed n = true /\ has_ctype n = true.
Definition good_stmt (s : stmt C) : Prop :=
  match s with LNew _ n | CmpTemp _ n => good_name n | CmpNamed _ m | CallNamed m _ _ | UpperNamed _ m => good_name (name_of m) | _ => True end.
End Spec.
