(** Specification for processes that share a log file with rotation. *)
From Coq Require Import List Bool Arith Ascii.
From Verif Require Import OutsideModel OutsideSpec SharedModel.
Import ListNotations.

(** every file has a name *)
Definition all_named (s : shared) : Prop := forall o, o < next_inode (files s) -> linked (files s) o.
(** what process [i] has written to its streams, in order *)
Definition wrote (i : nat) (tr : list qevent) : list tbyte :=
  flat_map (fun e => match e with QPut j l => if j =? i then l else [] | _ => [] end) tr.
(** inode [o] went because a process that keeps [lim] files removed path [k], one that is not among the first [lim] *)
Definition gone_by_limit (tr : list qevent) (o : nat) : Prop := exists i k lim, In (QRemove i k lim (Some o)) tr /\ lim <= k.
(** inode [o] went because a process renamed another file onto it *)
Definition overwritten (tr : list qevent) (o : nat) : Prop := exists i k, In (QRename i k (Some o)) tr.
(** process [i] is between the closing of the full log file and the last renaming *)
Definition rotating (i : nat) (s : shared) : Prop :=
  match phases s i with Scanning _ _ _ | Removing _ _ _ | Shifting (S _) => True | _ => False end.
Definition alone (s : shared) (e : qevent) : Prop := match e with QRotate i _ => forall j, ~ rotating j s | _ => True end.
(** executions in which no process begins to rotate while another one does *)
Inductive one_at_a_time (RS RL : nat -> Prop) (H : bool -> Prop) (HT LT : list ascii -> Prop) (s0 : shared) : list qevent -> shared -> Prop :=
| oaat_nil : one_at_a_time RS RL H HT LT s0 [] s0
| oaat_snoc tr s e s' : one_at_a_time RS RL H HT LT s0 tr s -> qstep RS RL H HT LT s e s' -> alone s e -> one_at_a_time RS RL H HT LT s0 (tr ++ [e]) s'.
Definition flushes_whole (tr : list qevent) : Prop := forall i l rest, In (QFlush i l rest) tr -> rest = [].
