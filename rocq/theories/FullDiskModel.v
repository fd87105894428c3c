(** Model of write_buffer_to_file on a disk that may be full (/repo/include/pluto/logger.hpp, 758-869).

    LogFileModel.v lets a write to an open stream succeed or leave nothing.  Here a write may also fail part-way:
    the stream keeps bytes in its buffer, the operating system takes them in order, and at any time it may take
    only the first of them and report an error.  The stream is bad from then on: further writes change nothing
    (the code does not look at the state of the stream, 854-863), tellp gives -1 (843), the bytes remain in the
    buffer - also those that the operating system took - and are offered again when the stream is closed, where
    the operating system may again take only the first of them.  This is what libstdc++ does; a library that
    drops the buffer is the case where none of them is taken.
    A process may be killed at any time, and the next one works on the files that it left.
    Not modelled: an operating system that stops, other programs changing the files, several paths of one file,
    overflow of size_t, writers of lines and headers that throw. *)
From Coq Require Import List Bool Arith Ascii.
From Verif Require Import Base LoggerModel LogFileModel CrashModel.
Import ListNotations.

Section FullDisk.
Context {P : Type} (peqb : P -> P -> bool).
(** the disk and the open stream: its path, its buffer and whether it is bad *)
Record wst := WSt { w_disk : bdisk P; w_stream : option (P * bytes * bool) }.
(** [x] is appended to the file *)
Definition append (p : P) (x : bytes) (d : bdisk P) : bdisk P :=
  put_at peqb p (match d p with Some c => Some (c ++ x) | None => None end) d.
(** the operating system takes the first [n] bytes of the buffer *)
Definition w_flush (n : nat) (s : wst) : wst :=
  match w_stream s with
  | Some (p, w, false) => WSt (append p (firstn n w) (w_disk s)) (Some (p, skipn n w, false))
  | _ => s
  end.
(** it takes them and reports an error *)
Definition w_fail (n : nat) (s : wst) : wst :=
  match w_stream s with
  | Some (p, w, false) => WSt (append p (firstn n w) (w_disk s)) (Some (p, w, true))
  | _ => s
  end.
(** opening (760) makes the stream good again *)
Definition w_opened (p : P) (s : wst) : wst := WSt (create peqb p (w_disk s)) (Some (p, [], false)).
Definition w_put (b : ascii) (s : wst) : wst :=
  match w_stream s with Some (p, w, false) => WSt (w_disk s) (Some (p, w ++ [b], false)) | _ => s end.
(** the stream is closed and [x] is what the operating system takes *)
Definition w_closed (x : bytes -> bytes) (s : wst) : wst :=
  match w_stream s with Some (p, w, _) => WSt (append p (x w) (w_disk s)) None | None => s end.
Definition w_removed (p : P) (s : wst) : wst := WSt (put_at peqb p None (w_disk s)) (w_stream s).
Definition w_renamed (p q : P) (s : wst) : wst := WSt (put_at peqb q (w_disk s p) (put_at peqb p None (w_disk s))) (w_stream s).
(** tellp; None is -1 *)
Definition w_tell (s : wst) : option nat :=
  match w_stream s with
  | Some (p, w, false) => Some (length (match w_disk s p with Some c => c | None => [] end) + length w)
  | _ => None
  end.

(** programs; at the end is the number of entries that have been taken from the buffer of the logger *)
Inductive wprog :=
| WEnd (o : outcome) (n : nat)
| WOpen (p : P) (ok fail : wprog)
| WRemove (p : P) (ok fail : wprog)
| WRename (p q : P) (ok fail : wprog)
| WExists (p : P) (f : bool -> wprog) (fail : wprog)
| WTell (f : option nat -> wprog)
| WPut (b : ascii) (k : wprog)
| WClose (k : wprog).

(** [full]: writes may fail *)
Inductive wstep (full : Prop) (s : wst) : wprog -> wst -> wprog -> Prop :=
| w_s_flush n p : wstep full s p (w_flush n s) p
| w_s_fail n p : full -> wstep full s p (w_fail n s) p
| w_s_open p ok fail : wstep full s (WOpen p ok fail) (w_opened p s) ok
| w_s_open_fail p ok fail : wstep full s (WOpen p ok fail) s fail
| w_s_open_bad p ok fail : wstep full s (WOpen p ok fail) (WSt (create peqb p (w_disk s)) (w_stream s)) fail
| w_s_remove p ok fail : wstep full s (WRemove p ok fail) (w_removed p s) ok
| w_s_remove_fail p ok fail : wstep full s (WRemove p ok fail) s fail
| w_s_rename p q ok fail : w_disk s p <> None -> wstep full s (WRename p q ok fail) (w_renamed p q s) ok
| w_s_rename_fail p q ok fail : wstep full s (WRename p q ok fail) s fail
| w_s_exists p f fail : wstep full s (WExists p f fail) s (f (match w_disk s p with Some _ => true | None => false end))
| w_s_exists_fail p f fail : wstep full s (WExists p f fail) s fail
| w_s_tell f : wstep full s (WTell f) s (f (w_tell s))
| w_s_put b k : wstep full s (WPut b k) (w_put b s) k
| w_s_close k : wstep full s (WClose k) (w_closed (fun w => w) s) k
| w_s_close_fail n k : full -> wstep full s (WClose k) (w_closed (firstn n) s) k.
Inductive wrun (full : Prop) (s : wst) (p : wprog) : wst -> wprog -> Prop :=
| w_here : wrun full s p s p
| w_step s1 p1 s2 p2 : wstep full s p s1 p1 -> wrun full s1 p1 s2 p2 -> wrun full s p s2 p2.

(** rotate_file, 769-808 *)
Fixpoint scan_w (path : nat -> P) (limit fuel i num done : nat) (k : nat -> wprog) : wprog :=
  match fuel with
  | 0 => WEnd NoFuel done
  | S fuel =>
      WExists (path i) (fun found =>
        if found then
          if i <? limit then scan_w path limit fuel (S i) (S num) done k
          else WRemove (path i) (scan_w path limit fuel (S i) num done k) (WEnd Threw done)
        else k num) (WEnd Threw done)
  end.
Fixpoint shift_w (path : nat -> P) (i done : nat) (k : wprog) : wprog :=
  match i with 0 => k | S i => WRename (path i) (path (S i)) (shift_w path i done k) (WEnd Threw done) end.
Fixpoint puts_w (l : bytes) (k : wprog) : wprog := match l with [] => k | b :: l => WPut b (puts_w l k) end.
(** the rotation size is reached, 846; -1 is converted to the largest size_t (843) *)
Definition past (rsize : nat) (size : option nat) : bool :=
  negb (rsize =? 0) && match size with Some n => rsize <=? n | None => true end.
(** 854-863 *)
Definition block_w (header : bool) (ht lt : bytes) (size : option nat) : bytes :=
  (if header && match size with Some 0 => true | _ => false end then ht ++ [nl] else []) ++ lt ++ [nl].

(** an entry, the text of its line, the header and the rotation limit at its time *)
Context {E : Type}.
Record item := Item { i_entry : E; i_line : bytes; i_head : bytes; i_limit : nat }.
(** the loop of write_buffer_to_file, 841-863, and the end of the block (864), which closes the stream *)
Fixpoint batch_w (path : nat -> P) (fuel rsize : nat) (header : bool) (es : list item) (done : nat) : wprog :=
  match es with
  | [] => WClose (WEnd Done done)
  | e :: es =>
      let block size := puts_w (block_w header (i_head e) (i_line e) size) (batch_w path fuel rsize header es (S done)) in
      WTell (fun size =>
        if past rsize size then
          WClose (scan_w path (i_limit e) fuel 0 0 done (fun num => shift_w path num done
            (WOpen (path 0) (WTell block) (WEnd Threw done))))
        else block size)
  end.
(** write_buffer_to_file, 810-869; the failures before the file is opened change no log file *)
Definition write_w (path : nat -> P) (fuel rsize : nat) (header : bool) (es : list item) : wprog :=
  WOpen (path 0) (batch_w path fuel rsize header es 0) (WEnd Threw 0).

(** Calls of write_buffer_to_file one after the other, by one process or several of which each but the last may be
    killed, and the entries that they have taken from the buffer (in the case of one that is killed, all that it
    was called with).  [ok]: the items that there may be. *)
Inductive calls (path : nat -> P) (full : Prop) (ok : item -> Prop) (d0 : bdisk P) : list item -> bdisk P -> Prop :=
| c_none : calls path full ok d0 [] d0
| c_returned log d fuel rsize header es s o n : calls path full ok d0 log d -> Forall ok es ->
    wrun full (WSt d None) (write_w path fuel rsize header es) s (WEnd o n) -> calls path full ok d0 (log ++ firstn n es) (w_disk s)
| c_killed log d fuel rsize header es s p : calls path full ok d0 log d -> Forall ok es ->
    wrun full (WSt d None) (write_w path fuel rsize header es) s p -> calls path full ok d0 (log ++ es) (w_disk s).
End FullDisk.
Arguments wst : clear implicits.
Arguments wprog : clear implicits.
Arguments item : clear implicits.
