(** Specification vocabulary for crashes of the logger. *)
From Coq Require Import List Bool Arith Ascii String.
From Verif Require Import Base LoggerModel LoggerSpec LogFileModel LogFileSpec CrashModel.
Import ListNotations.

Section Text.
Context {P : Type} (path : nat -> P).
(** the bytes of the files with a number below [b], the newest (smallest number) last *)
Fixpoint text_below (b : nat) (d : bdisk P) : bytes :=
  match b with 0 => [] | S i => match d (path i) with Some c => c | None => [] end ++ text_below i d end.
(** the bytes of all the files of a log file, oldest first *)
Definition all_text (d : bdisk P) (t : bytes) : Prop :=
  exists b, (forall i, b <= i -> d (path i) = None) /\ t = text_below b d.
End Text.

(** The bytes of some entries: for each its text and a newline, possibly after a header and a newline. *)
Section Blocks.
Context {E : Type} (HT : bytes -> Prop) (LT : E -> bytes -> Prop).
Definition block_of (e : E) (b : bytes) : Prop :=
  exists lt, LT e lt /\ (b = lt ++ [nl] \/ exists ht, HT ht /\ b = ht ++ [nl] ++ lt ++ [nl]).
Inductive blocks : list E -> bytes -> Prop :=
| bl_nil : blocks [] []
| bl_cons e es b w : block_of e b -> blocks es w -> blocks (e :: es) (b ++ w).
(** the same, and the last entry may be incomplete *)
Definition torn (es : list E) (w : bytes) : Prop :=
  exists es1 w1 t, blocks es1 w1 /\ w = w1 ++ t /\
  ((es = es1 /\ t = []) \/ exists e b, es = es1 ++ [e] /\ block_of e b /\ prefix t b).
End Blocks.

(** the thread has closed its stream *)
Definition closing {K M} (ev : @event K M) : Prop := match ev with EErase _ _ | EFail _ | EDestroyed => True | _ => False end.
Definition after_closing {K M} (tr : list (@event K M)) : Prop := tr = [] \/ exists tr' ev, tr = tr' ++ [ev] /\ closing ev.
(** What a process with the events [tr], killed during the last of them, has added to file [k]: the entries written
    before it closed its last stream, and some of those written since, the last of these possibly incomplete. *)
Definition crash_text {K M} (ltb : K -> K -> bool) (HT : bytes -> Prop) (LT : entry K M -> bytes -> Prop) (k : K)
    (tr : list (@event K M)) (es : list (entry K M)) (w : bytes) : Prop :=
  exists tr1 tr2 e es2 w1 w2, tr = (tr1 ++ tr2) ++ [e] /\ after_closing tr1 /\ (forall ev, In ev tr2 -> ~ closing ev) /\
  blocks HT LT (written_to ltb k tr1) w1 /\ prefix es2 (written_to ltb k (tr2 ++ [e])) /\ torn HT LT es2 w2 /\
  es = written_to ltb k tr1 ++ es2 /\ w = w1 ++ w2.

(** lines of a text: the pieces between newlines *)
Fixpoint lines (t : bytes) : list bytes :=
  match t with
  | [] => [[]]
  | b :: t => if Ascii.eqb b nl then [] :: lines t else match lines t with l :: r => (b :: l) :: r | [] => [[b]] end
  end.
(** [c] begins with [h] and a newline, or is a part of that *)
Definition begins (h c : bytes) : Prop := prefix (h ++ [nl]) c \/ prefix c (h ++ [nl]).
(** [l] is a whole line of [t] *)
Definition line_in (l t : bytes) : Prop := exists x y, t = x ++ l ++ [nl] ++ y /\ (x = [] \/ exists x', x = x' ++ [nl]).
(** [c] is empty or begins with [h] and a newline *)
Definition complete_header (h c : bytes) : Prop := c = [] \/ prefix (h ++ [nl]) c.
(** without the first and the last element *)
Definition inner {A} (l : list A) : list A := removelast (tl l).
(** a part of [l] without gaps *)
Definition infix {A} (x l : list A) : Prop := exists l1 l2, l = l1 ++ x ++ l2.
(** What a process with the events [tr] has added to one of the files of [k]: the bytes of entries that it wrote one
    after the other, the last one possibly incomplete. *)
Definition part_text {K M} (ltb : K -> K -> bool) (HT : bytes -> Prop) (LT : entry K M -> bytes -> Prop) (k : K)
    (tr : list (@event K M)) (es : list (entry K M)) (w : bytes) : Prop := infix es (written_to ltb k tr) /\ torn HT LT es w.
(** the bytes of a content of LogFileModel.v *)
Definition bytes_of {E} (c : list (chunk E)) : bytes := list_ascii_of_string (text_of c).
(** first parts of lines of entries, one after the other *)
Definition parts_of_lines {E} (LT : E -> bytes -> Prop) (w : bytes) : Prop :=
  exists xs, w = List.concat xs /\ Forall (fun x => exists e lt, LT e lt /\ prefix x (lt ++ [nl])) xs.
(** [c] is empty or begins with a part of the header, and the rest is made of parts of lines *)
Definition header_first {E} (h : bytes) (LT : E -> bytes -> Prop) (c : bytes) : Prop :=
  c = [] \/ exists q w, q <> [] /\ prefix q (h ++ [nl]) /\ c = q ++ w /\ parts_of_lines LT w.
