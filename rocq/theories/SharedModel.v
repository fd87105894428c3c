(** Model of several processes that log to the same file with rotation (/repo/include/pluto/logger.hpp 758-867).

    The files are those of OutsideModel.v: inodes, streams that hold them, tagged bytes.  The paths are numbers: 0 is the log
    file, [k] the file that line 780 calls stem_k.  Every operation on the file system is a step of its own, so that the
    operations of different processes interleave; every one that can fail may fail.  A process is identified with its logging
    thread, and the entries it writes with their texts.  Renaming onto an existing file replaces it (POSIX). *)
From Coq Require Import List Bool Arith Ascii.
From Verif Require Import Base LogFileModel CrashModel OutsideModel.
Import ListNotations.

(** where a process is *)
Inductive phase :=
| Ready                             (* before 838 without a stream, at 841 with one *)
| Scanning (lim i num : nat)        (* 778 *)
| Removing (lim i num : nat)        (* 794 *)
| Shifting (i : nat)                (* 797 *)
| Fresh.                            (* 851: the stream is open again *)
Record shared := Shared { files : fs nat; phases : nat -> phase }.

(** [QRemove i k lim o]: process [i], which keeps [lim] files, removes path [k]; it was a name of [o].
    [QRename i k o]: process [i] renames path [k] to path [k]+1, which was a name of [o]. *)
Inductive qevent := QOpen (i : nat) | QPut (i : nat) (l : list tbyte) | QFlush (i : nat) (l rest : list tbyte) | QClose (i : nat)
                  | QRotate (i lim : nat) | QExists (i k : nat) (b : bool) | QRemove (i k lim : nat) (o : option nat)
                  | QRename (i k : nat) (o : option nat) | QFail (i : nat).

(** the log file is opened: it exists or it does not *)
Definition opened (i : nat) (s : fs nat) : fs nat :=
  match dir s 0 with
  | Some o => Fs (dir s) (data s) (next_inode s) (set_nat i (Some (OStream o (length (data s o)) [])) (streams s)) (written s)
  | None => Fs (set_nat 0 (Some (next_inode s)) (dir s)) (set_nat (next_inode s) [] (data s)) (S (next_inode s))
              (set_nat i (Some (OStream (next_inode s) 0 [])) (streams s)) (written s)
  end.
Definition without (i : nat) (s : fs nat) : fs nat := Fs (dir s) (data s) (next_inode s) (set_nat i None (streams s)) (written s).
Definition relinked (d : nat -> option nat) (s : fs nat) : fs nat := Fs d (data s) (next_inode s) (streams s) (written s).
(** [o] loses the name [k] and gets the name [k]+1, which nothing else has any more *)
Definition moved (k o : nat) (d : nat -> option nat) : nat -> option nat := set_nat (S k) (Some o) (set_nat k None (set_nat (S k) None d)).
(** an entry, and a header before it if the file is empty *)
Definition put (i : nat) (f : ostream) (l : list tbyte) (s : fs nat) : fs nat :=
  Fs (dir s) (data s) (next_inode s) (set_nat i (Some (OStream (inode f) (offset f) (buf f ++ l))) (streams s))
     (set_nat i (written s i + length l) (written s)).
Definition tell (f : ostream) : nat := offset f + length (buf f).
Definition can_fail (p : phase) : bool := match p with Ready => false | _ => true end.

(** [RS], [RL]: the rotation sizes and limits that the processes use; [H], [HT], [LT] as in OutsideModel.v *)
Section Shared.
Variables (RS RL : nat -> Prop) (H : bool -> Prop) (HT LT : list ascii -> Prop).
Definition at_phase (i : nat) (p : phase) (s : shared) (f : fs nat) : shared := Shared f (set_nat i p (phases s)).
Inductive qstep (s : shared) : qevent -> shared -> Prop :=
| q_open i : phases s i = Ready -> streams (files s) i = None ->                                         (* 838-839 *)
    qstep s (QOpen i) (at_phase i Ready s (opened i (files s)))
| q_close i f : phases s i = Ready -> streams (files s) i = Some f -> buf f = [] ->                      (* 865, after the last flush *)
    qstep s (QClose i) (at_phase i Ready s (without i (files s)))
| q_flush i f l rest : streams (files s) i = Some f -> buf f = l ++ rest -> l <> [] ->                   (* the stream, at any time *)
    qstep s (QFlush i l rest) (Shared (Fs (dir (files s)) (set_nat (inode f) (data (files s) (inode f) ++ l) (data (files s))) (next_inode (files s))
      (set_nat i (Some (OStream (inode f) (length (data (files s) (inode f) ++ l)) rest)) (streams (files s))) (written (files s))) (phases s))
| q_put i f rsize header ht lt : phases s i = Ready -> streams (files s) i = Some f -> RS rsize -> (rsize = 0 \/ tell f < rsize) ->
    H header -> HT ht -> LT lt ->                                                                        (* 843, 846, 855-863 *)
    let l := tagged i (written (files s) i) (block header ht lt (tell f)) in
    qstep s (QPut i l) (at_phase i Ready s (put i f l (files s)))
| q_rotate i f rsize lim : phases s i = Ready -> streams (files s) i = Some f -> RS rsize -> RL lim -> rsize <> 0 -> rsize <= tell f -> buf f = [] ->
    qstep s (QRotate i lim) (at_phase i (Scanning lim 0 0) s (without i (files s)))                      (* 846-849, 774-777 *)
| q_absent i lim k num : phases s i = Scanning lim k num -> dir (files s) k = None ->                    (* 783-786 *)
    qstep s (QExists i k false) (at_phase i (Shifting num) s (files s))
| q_kept i lim k num o : phases s i = Scanning lim k num -> dir (files s) k = Some o -> k < lim ->       (* 788-792 *)
    qstep s (QExists i k true) (at_phase i (Scanning lim (S k) (S num)) s (files s))
| q_old i lim k num o : phases s i = Scanning lim k num -> dir (files s) k = Some o -> lim <= k ->       (* 788, 794 *)
    qstep s (QExists i k true) (at_phase i (Removing lim k num) s (files s))
| q_remove i lim k num : phases s i = Removing lim k num ->                                              (* 794; a file that is gone is no error *)
    qstep s (QRemove i k lim (dir (files s) k)) (at_phase i (Scanning lim (S k) num) s (relinked (set_nat k None (dir (files s))) (files s)))
| q_rename i k o : phases s i = Shifting (S k) -> dir (files s) k = Some o ->                            (* 797-807 *)
    qstep s (QRename i k (dir (files s) (S k))) (at_phase i (Shifting k) s (relinked (moved k o (dir (files s))) (files s)))
| q_reopen i : phases s i = Shifting 0 ->                                                                (* 797, 850-851 *)
    qstep s (QOpen i) (at_phase i Fresh s (opened i (files s)))
| q_put_fresh i f header ht lt : phases s i = Fresh -> streams (files s) i = Some f -> H header -> HT ht -> LT lt ->   (* 855-863 *)
    let l := tagged i (written (files s) i) (block header ht lt (tell f)) in
    qstep s (QPut i l) (at_phase i Ready s (put i f l (files s)))
| q_fail i : can_fail (phases s i) = true -> streams (files s) i = None ->                               (* an operation of the rotation fails: 866 *)
    qstep s (QFail i) (at_phase i Ready s (files s)).
Inductive qrun (s0 : shared) : list qevent -> shared -> Prop :=
| qrun_nil : qrun s0 [] s0
| qrun_snoc tr s e s' : qrun s0 tr s -> qstep s e s' -> qrun s0 (tr ++ [e]) s'.

(** any files at first, each with one name; no stream, nothing written *)
Definition qinit (s : shared) : Prop := xinit (files s) /\ (forall i, phases s i = Ready) /\
  forall k k' o, dir (files s) k = Some o -> dir (files s) k' = Some o -> k = k'.
End Shared.
