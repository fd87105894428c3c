(** Specification for log files that other programs use. *)
From Coq Require Import List Bool Arith Ascii.
From Verif Require Import CrashModel OutsideModel.
Import ListNotations.

Definition is_of (i : nat) (x : tbyte) : bool := match x with Byte j _ _ => j =? i | Past _ => false end.
Definition number (x : tbyte) : nat := match x with Byte _ n _ => n | Past _ => 0 end.
Definition plain_byte (x : tbyte) : ascii := match x with Byte _ _ b | Past b => b end.
(** the bytes of process [i] in [l] *)
Definition mine (i : nat) (l : list tbyte) : list tbyte := filter (is_of i) l.
(** numbered [n], [n]+1, ... *)
Fixpoint from (n : nat) (l : list tbyte) : Prop := match l with [] => True | x :: l => number x = n /\ from (S n) l end.
Fixpoint ascending (l : list tbyte) : Prop := match l with [] => True | x :: l => Forall (fun y => number x < number y) l /\ ascending l end.

Section Spec.
Context {P : Type}.
Definition puts_of (i : nat) (tr : list (xevent P)) : list (list tbyte) :=
  flat_map (fun e => match e with XPut j l => if j =? i then [l] else [] | _ => [] end) tr.
(** what process [i] has written to its streams, in order *)
Definition put_by (i : nat) (tr : list (xevent P)) : list tbyte := concat (puts_of i tr).
Definition pending (i : nat) (s : fs P) : list tbyte := match streams s i with Some f => buf f | None => [] end.
Definition no_removal (tr : list (xevent P)) : Prop := forall p, ~ In (XRemove p) tr.
Definition linked (s : fs P) (o : nat) : Prop := exists p, dir s p = Some o.
(** whenever the operating system receives bytes it receives all that the stream has: the batches fit into its buffer *)
Definition whole_flushes (tr : list (xevent P)) : Prop := forall i l rest, In (XFlush i l rest) tr -> rest = [].
(** [l] consists of whole lines, each of them one of [T] *)
Definition whole_lines (T : list ascii -> Prop) (l : list ascii) : Prop := exists ls, l = concat (map (fun t => t ++ [nl]) ls) /\ Forall T ls.
End Spec.
