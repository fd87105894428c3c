(** Specification vocabulary for the log files. *)
From Coq Require Import List Bool Arith Ascii String DecimalString.
From Verif Require Import Base LoggerModel LoggerSpec LogFileModel.
Import ListNotations.

(** [sublist l l']: [l] is [l'] with some elements left out *)
Inductive sublist {A : Type} : list A -> list A -> Prop :=
| sub_nil : sublist [] []
| sub_skip x l l' : sublist l l' -> sublist l (x :: l')
| sub_keep x l l' : sublist l l' -> sublist (x :: l) (x :: l').
Definition suffix_of {A : Type} (l l' : list A) : Prop := exists r, l' = r ++ l.

Section Spec.
Context {P E : Type} (path : nat -> P).
Notation content := (list (chunk E)).
Notation disk := (@disk P E).
(** the contents of the files with a number below [b], the newest (smallest number) last *)
Fixpoint files_below (b : nat) (d : disk) : list content :=
  match b with 0 => [] | S i => match d (path i) with Some c => [c] | None => [] end ++ files_below i d end.
(** all the files, oldest first *)
Definition all_files (d : disk) (l : list content) : Prop :=
  exists b, (forall i, b <= i -> d (path i) = None) /\ l = files_below b d.

(** files 0 to m-1 exist and file m does not *)
Definition run_of (d : disk) (m : nat) : Prop := (forall i, i < m -> d (path i) <> None) /\ d (path m) = None.
(** what rotating the files 0 to m-1 should do *)
Definition rotated (limit m : nat) (d d' : disk) : Prop :=
  d' (path 0) = None /\
  (forall i, i < Nat.min m limit -> d' (path (S i)) = d (path i)) /\
  (forall i, Nat.min m limit < i < m -> d' (path i) = None) /\
  (forall i, m <= i -> Nat.min m limit < i -> d' (path i) = d (path i)) /\
  (forall p, (forall i, p <> path i) -> d' p = d p).
End Spec.

(** the entries in a file, in all files *)
Definition lines_of {E} (c : list (chunk E)) : list E := flat_map (fun x => match x with Line e _ => [e] | _ => [] end) c.
Definition all_lines {E} (l : list (list (chunk E))) : list E := flat_map lines_of l.
(** the text of a file: every header and every line ends with a newline *)
Definition newline : string := String (ascii_of_nat 10) EmptyString.
Definition text_of {E} (c : list (chunk E)) : string :=
  fold_right (fun x s => match x with Old t => t ++ s | Head t => t ++ newline ++ s | Line _ t => t ++ newline ++ s end)%string
    EmptyString c.
(** a file that is empty or begins with a header *)
Definition headed {E} (c : list (chunk E)) : Prop := match c with [] | Head _ :: _ => True | _ => False end.

(** The numbered paths of a log file are different, and different from those of other log files. *)
Definition separate {P K : Type} (path : K -> nat -> P) : Prop :=
  forall k i k' i', path k i = path k' i' -> k = k' /\ i = i'.

(** an underscore and a number in decimal notation without leading zeros *)
Definition number_mark (i : nat) : list Ascii.ascii :=
  list_ascii_of_string (String "_"%char (NilEmpty.string_of_uint (Nat.to_uint i))).
(** [s] ends with an underscore and a positive number *)
Definition numbered (s : list Ascii.ascii) : Prop := exists s' i, 0 < i /\ s = s' ++ number_mark i.

(** the longest prefix whose elements all satisfy [f] *)
Fixpoint upto {A : Type} (f : A -> bool) (l : list A) : list A := match l with x :: l => if f x then x :: upto f l else [] | [] => [] end.
