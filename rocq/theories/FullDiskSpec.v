(** Specification vocabulary for log files on a disk that may be full. *)
From Coq Require Import List Bool Arith Ascii.
From Verif Require Import Base LoggerModel LoggerSpec LogFileModel LogFileSpec CrashModel CrashSpec FullDiskModel.
Import ListNotations.

Section Parts.
Context {P K M : Type} (HT : bytes -> Prop) (LT : entry K M -> bytes -> Prop).
Notation item := (item (entry K M)).
(** the texts of the items are those of their entries *)
Definition item_ok (i : item) : Prop := LT (i_entry i) (i_line i) /\ HT (i_head i).
(** What one opened stream leaves of the entries [es]: the first bytes of the lines of [es], and possibly some of these
    bytes, from somewhere on, and what follows them, once more. *)
Definition stream_text (es : list (entry K M)) (w : bytes) : Prop :=
  exists t a b m, torn HT LT es t /\ b <= a /\ w = firstn a t ++ firstn m (skipn b t).
(** the entries of [log] from number [l] up to number [h] *)
Definition part (log : list item) (l h : nat) : list (entry K M) := map (@i_entry _) (firstn (h - l) (skipn l log)).
(** [c] is the content of a file: a file [old], or nothing, and then what streams have left of entries of [log],
    each of later ones.  No entry before [lo] and none from [hi] on is among them. *)
Inductive content (old : bytes -> Prop) (log : list item) : nat -> nat -> bytes -> Prop :=
| ct_old c : old c -> content old log 0 0 c
| ct_new n : content old log n n []
| ct_part lo hi l h c w : content old log lo hi c -> hi <= l -> l <= h -> stream_text (part log l h) w -> content old log lo h (c ++ w).
(** the files of a log file: entries are in files with greater numbers before those in files with smaller ones *)
Definition files_hold (path : nat -> P) (old : bytes -> Prop) (log : list item) (d : bdisk P) : Prop :=
  exists lo hi : nat -> nat,
  (forall i c, d (path i) = Some c -> content old log (lo i) (hi i) c /\ hi i <= length log) /\
  (forall i j, i < j -> d (path i) <> None -> d (path j) <> None -> hi j <= lo i).
End Parts.
