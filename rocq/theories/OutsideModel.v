(** Model of log files that other programs use too: several processes that log to the same file, and programs that rename or
    remove log files while a logger writes them (/repo/include/pluto/logger.hpp 758-767 and 810-869, without rotation:
    file_rotation_size is 0, the default).

    Files are inodes; a directory maps paths to them.  An open stream holds an inode, whatever becomes of its path (POSIX).
    A stream keeps bytes in its buffer; the operating system receives any number of them at any time and appends them at the
    end of the file as one piece (O_APPEND).  Every byte carries the process that wrote it and its number among the bytes of
    that process, or is an old one.  Operations do not fail here. *)
From Coq Require Import List Bool Arith Ascii.
From Verif Require Import Base LogFileModel CrashModel.
Import ListNotations.

Inductive tbyte := Past (b : ascii) | Byte (i n : nat) (b : ascii).
Fixpoint tagged (i n : nat) (l : list ascii) : list tbyte :=
  match l with [] => [] | b :: l => Byte i n b :: tagged i (S n) l end.

Section Outside.
Context {P : Type} (peqb : P -> P -> bool).
(** an open stream: its inode, the offset of the descriptor, its buffer *)
Record ostream := OStream { inode : nat; offset : nat; buf : list tbyte }.
Record fs := Fs {
  dir : P -> option nat;
  data : nat -> list tbyte;
  next_inode : nat;
  streams : nat -> option ostream;      (* the stream of each process (838) *)
  written : nat -> nat                  (* how many bytes each process has written to its streams *)
}.
Definition set_nat {A : Type} (i : nat) (x : A) (f : nat -> A) : nat -> A := fun j => if j =? i then x else f j.
Definition set_path {A : Type} (p : P) (x : A) (f : P -> A) : P -> A := fun q => if peqb q p then x else f q.

(** [XFlush i l rest]: [l] goes to the file, [rest] stays in the buffer *)
Inductive xevent := XOpen (i : nat) (p : P) | XPut (i : nat) (l : list tbyte) | XFlush (i : nat) (l rest : list tbyte)
                  | XClose (i : nat) | XRename (p q : P) | XRemove (p : P).

(** [HT], [LT]: the texts of headers and of entries; [H]: whether headers are written *)
Variables (H : bool -> Prop) (HT LT : list ascii -> Prop).
Inductive xstep (s : fs) : xevent -> fs -> Prop :=
| x_open i p o : streams s i = None -> dir s p = Some o ->                                        (* 760, the file exists *)
    xstep s (XOpen i p) (Fs (dir s) (data s) (next_inode s) (set_nat i (Some (OStream o (length (data s o)) [])) (streams s)) (written s))
| x_create i p : streams s i = None -> dir s p = None ->                                          (* 760, it does not *)
    xstep s (XOpen i p) (Fs (set_path p (Some (next_inode s)) (dir s)) (set_nat (next_inode s) [] (data s)) (S (next_inode s))
      (set_nat i (Some (OStream (next_inode s) 0 [])) (streams s)) (written s))
| x_put i f header ht lt : streams s i = Some f -> H header -> HT ht -> LT lt ->                  (* 843, 854-863 *)
    let l := tagged i (written s i) (block header ht lt (offset f + length (buf f))) in
    xstep s (XPut i l) (Fs (dir s) (data s) (next_inode s) (set_nat i (Some (OStream (inode f) (offset f) (buf f ++ l))) (streams s))
      (set_nat i (written s i + length l) (written s)))
| x_flush i f l rest : streams s i = Some f -> buf f = l ++ rest -> l <> [] ->                    (* the stream, at any time *)
    xstep s (XFlush i l rest) (Fs (dir s) (set_nat (inode f) (data s (inode f) ++ l) (data s)) (next_inode s)
      (set_nat i (Some (OStream (inode f) (length (data s (inode f) ++ l)) rest)) (streams s)) (written s))
| x_close i f : streams s i = Some f -> buf f = [] ->                                             (* 868, after the last flush *)
    xstep s (XClose i) (Fs (dir s) (data s) (next_inode s) (set_nat i None (streams s)) (written s))
| x_rename p q o : dir s p = Some o -> dir s q = None ->                                          (* another program *)
    xstep s (XRename p q) (Fs (set_path q (Some o) (set_path p None (dir s))) (data s) (next_inode s) (streams s) (written s))
| x_remove p : xstep s (XRemove p) (Fs (set_path p None (dir s)) (data s) (next_inode s) (streams s) (written s)). (* another program *)
Inductive xrun (s0 : fs) : list xevent -> fs -> Prop :=
| xrun_nil : xrun s0 [] s0
| xrun_snoc tr s e s' : xrun s0 tr s -> xstep s e s' -> xrun s0 (tr ++ [e]) s'.

(** any files at first, no stream, nothing written *)
Definition is_past (x : tbyte) : Prop := match x with Past _ => True | Byte _ _ _ => False end.
Definition xinit (s : fs) : Prop := (forall i, streams s i = None) /\ (forall i, written s i = 0) /\
  (forall p o, dir s p = Some o -> o < next_inode s) /\ (forall o, Forall is_past (data s o)) /\
  (forall o, next_inode s <= o -> data s o = []).
End Outside.
Arguments fs : clear implicits.
Arguments xevent : clear implicits.
