(** Model of what is on the disk when the process is killed while the logger writes its files
    (/repo/include/pluto/logger.hpp, 758-869).

    LogFileModel.v describes what the files contain when the stream is closed.  Here the stream (838-839) keeps
    bytes in its buffer, the operating system receives any number of them at any time, in order, and the process
    may be killed between any two operations.  What the operating system has received survives; creating,
    renaming and removing a file happens completely or not at all.
    The functions are programs of single operations.  Operations on the file system may throw.
    Not modelled: an operating system that stops (power failure), writes that fail, other programs changing the
    files, several paths of one file, overflow of size_t, writers of lines and headers that throw. *)
From Coq Require Import List Bool Arith Ascii.
From Verif Require Import Base LoggerModel LogFileModel.
Import ListNotations.

Notation bytes := (list ascii).
Definition nl : ascii := ascii_of_nat 10.

Section Crash.
Context {P : Type} (peqb : P -> P -> bool).
Definition bdisk : Type := P -> option bytes.
Definition put_at (p : P) (c : option bytes) (d : bdisk) : bdisk := fun q => if peqb q p then c else d q.

(** what the operating system has, and the open stream: its path and the bytes in its buffer *)
Record st := St { on_disk : bdisk; stream : option (P * bytes) }.

Definition create (p : P) (d : bdisk) : bdisk := match d p with Some _ => d | None => put_at p (Some []) d end.
(** the operating system receives the first [n] bytes of the buffer *)
Definition flush (n : nat) (s : st) : st :=
  match stream s with
  | Some (p, w) =>
      St (put_at p (match on_disk s p with Some c => Some (c ++ firstn n w) | None => None end) (on_disk s)) (Some (p, skipn n w))
  | None => s
  end.
Definition opened_at (p : P) (s : st) : st := St (create p (on_disk s)) (Some (p, [])).       (* 760, ate and app *)
Definition put (b : ascii) (s : st) : st :=
  match stream s with Some (p, w) => St (on_disk s) (Some (p, w ++ [b])) | None => s end.
Definition closed (s : st) : st :=
  match stream s with
  | Some (p, w) => St (put_at p (match on_disk s p with Some c => Some (c ++ w) | None => None end) (on_disk s)) None
  | None => s
  end.
Definition removed (p : P) (s : st) : st := St (put_at p None (on_disk s)) (stream s).
Definition renamed (p q : P) (s : st) : st := St (put_at q (on_disk s p) (put_at p None (on_disk s))) (stream s).
(** tellp; it is called on open streams only *)
Definition tell (s : st) : nat :=
  match stream s with
  | Some (p, w) => length (match on_disk s p with Some c => c | None => [] end) + length w
  | None => 0
  end.

Inductive prog :=
| End (o : outcome)
| Open (p : P) (ok fail : prog)
| Remove (p : P) (ok fail : prog)
| Rename (p q : P) (ok fail : prog)
| Exists (p : P) (f : bool -> prog) (fail : prog)
| Tell (f : nat -> prog)
| Put (b : ascii) (k : prog)
| Close (k : prog).

Inductive pstep (s : st) : prog -> st -> prog -> Prop :=
| s_flush n p : pstep s p (flush n s) p
| s_open p ok fail : pstep s (Open p ok fail) (opened_at p s) ok
| s_open_fail p ok fail : pstep s (Open p ok fail) s fail
| s_open_bad p ok fail : pstep s (Open p ok fail) (St (create p (on_disk s)) (stream s)) fail
| s_remove p ok fail : pstep s (Remove p ok fail) (removed p s) ok
| s_remove_fail p ok fail : pstep s (Remove p ok fail) s fail
| s_rename p q ok fail : on_disk s p <> None -> pstep s (Rename p q ok fail) (renamed p q s) ok
| s_rename_fail p q ok fail : pstep s (Rename p q ok fail) s fail
| s_exists p f fail : pstep s (Exists p f fail) s (f (match on_disk s p with Some _ => true | None => false end))
| s_exists_fail p f fail : pstep s (Exists p f fail) s fail
| s_tell f : pstep s (Tell f) s (f (tell s))
| s_put b k : pstep s (Put b k) (put b s) k
| s_close k : pstep s (Close k) (closed s) k.
Inductive run (s : st) (p : prog) : st -> prog -> Prop :=
| run_here : run s p s p
| run_step s1 p1 s2 p2 : pstep s p s1 p1 -> run s1 p1 s2 p2 -> run s p s2 p2.

(** rotate_file, 769-808 *)
Fixpoint scan_p (path : nat -> P) (limit fuel i num : nat) (k : nat -> prog) : prog :=
  match fuel with
  | 0 => End NoFuel
  | S fuel =>
      Exists (path i) (fun found =>
        if found then
          if i <? limit then scan_p path limit fuel (S i) (S num) k
          else Remove (path i) (scan_p path limit fuel (S i) num k) (End Threw)
        else k num) (End Threw)
  end.
Fixpoint shift_p (path : nat -> P) (i : nat) (k : prog) : prog :=
  match i with 0 => k | S i => Rename (path i) (path (S i)) (shift_p path i k) (End Threw) end.
Fixpoint puts (l : bytes) (k : prog) : prog := match l with [] => k | b :: l => Put b (puts l k) end.
(** 854-863 *)
Definition block (header : bool) (ht lt : bytes) (size : nat) : bytes :=
  (if header && (size =? 0) then ht ++ [nl] else []) ++ lt ++ [nl].
(** one round of the loop of write_buffer_to_file, 841-863 *)
Definition entry_p (path : nat -> P) (fuel limit rsize : nat) (header : bool) (ht lt : bytes) : prog :=
  Tell (fun size =>
    if negb (rsize =? 0) && (rsize <=? size) then
      Close (scan_p path limit fuel 0 0 (fun num => shift_p path num
        (Open (path 0) (Tell (fun size => puts (block header ht lt size) (End Done))) (End Threw))))
    else puts (block header ht lt size) (End Done)).
(** opening the file, 819-839; the failures before it change no log file *)
Definition open_p (path : nat -> P) : prog := Open (path 0) (End Done) (End Threw).
End Crash.
Arguments prog : clear implicits.
Arguments st : clear implicits.
Arguments bdisk : clear implicits.

(** The logger (LoggerModel.v) with its disk.  The texts of headers are among [HT], those of an entry among [LT];
    the rotation limit, the rotation size and whether there is a header are among [L], [R], [H].
    The stream is closed when write_buffer_to_file returns (868): here at the latest when the thread erases the
    entries, opens the next file or leaves the destructor; earlier flushes are possible as at any time. *)
Section System.
Context {P K M : Type} (peqb : P -> P -> bool) (path : K -> nat -> P) (ltb : K -> K -> bool).
Notation entry := (entry K M).
Notation event := (@event K M).
Variables (L R : nat -> Prop) (H : bool -> Prop) (HT : bytes -> Prop) (LT : entry -> bytes -> Prop).
(** the thread is about to open file [k] (819), to write [e] to it (841) *)
Definition opening (s : @logger K M) (k : K) : Prop := exists todo, pc s = LOpen k todo \/ dtor s = DOpen k todo.
Definition writing (s : @logger K M) (k : K) (e : entry) : Prop :=
  exists todo, (exists n, pc s = LWrite k (e :: todo) n) \/ dtor s = DWrite k (e :: todo).
Inductive event_prog (s : @logger K M) : event -> outcome -> prog P -> Prop :=
| q_open k : event_prog s (EOpen k) Done (Close (open_p (path k)))
| q_write k e fuel limit rsize header ht lt : L limit -> R rsize -> H header -> HT ht -> LT e lt ->
    event_prog s (EWrite k e) Done (entry_p (path k) fuel limit rsize header ht lt)
| q_fail_open k : opening s k -> event_prog s (EFail k) Threw (Close (open_p (path k)))
| q_fail_rotate k e fuel limit rsize header ht lt : writing s k e -> L limit -> R rsize -> H header -> HT ht -> LT e lt ->
    event_prog s (EFail k) Threw (entry_p (path k) fuel limit rsize header ht lt)
| q_erase k n : event_prog s (EErase k n) Done (Close (End Done))
| q_destroyed : event_prog s EDestroyed Done (Close (End Done))
| q_other ev : match ev with EOpen _ | EWrite _ _ | EFail _ | EErase _ _ | EDestroyed => False | _ => True end ->
    event_prog s ev Done (End Done).
Inductive csystem (s0 : @logger K M) (d0 : bdisk P) : list event -> @logger K M -> st P -> Prop :=
| cs_nil : csystem s0 d0 [] s0 (St d0 None)
| cs_snoc tr s t e s' t' o p : csystem s0 d0 tr s t -> step ltb s e s' -> event_prog s e o p -> run peqb t p t' (End o) ->
    csystem s0 d0 (tr ++ [e]) s' t'.
(** The process is killed during the event [e] after the events [tr]; [d] is what is on the disk.  A crash during
    an operation that would have failed is one during EOpen or EWrite, where the logger is in the same state. *)
Inductive crashed (s0 : @logger K M) (d0 : bdisk P) (tr : list event) (s : @logger K M) (e : event) (d : bdisk P) : Prop :=
| crash t s' p t' p' : csystem s0 d0 tr s t -> step ltb s e s' -> event_prog s e Done p -> run peqb t p t' p' -> d = on_disk t' ->
    crashed s0 d0 tr s e d.
(** several processes one after the other on the same disk, each killed; each has its own initial values of the
    settings (lvl max flush clock).  [log] are their events. *)
Inductive lives (d0 : bdisk P) : list (list event) -> bdisk P -> Prop :=
| lives_nil : lives d0 [] d0
| lives_snoc log d lvl max flush clock tr s e d' : lives d0 log d ->
    crashed (initial lvl max flush clock) d tr s e d' -> lives d0 (log ++ [tr ++ [e]]) d'.
End System.
