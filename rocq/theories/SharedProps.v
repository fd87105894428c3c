(** Property theorem C179: processes that share a log file and rotate it. *)
From Coq Require Import List Bool Arith Ascii Permutation.
From Verif Require Import Base OutsideModel OutsideSpec OutsideExamples SharedModel SharedSpec SharedProofs SharedExamples.
Import ListNotations.
Local Open Scope char_scope.

(** C179.  If no process begins to rotate while another one does, what a process has written is in its stream or in a file
    that has a name, or in one that was removed because it lay beyond the limit. *)
Theorem processes_rotate_a_log_file_partial : forall RS RL H HT LT s0 tr s i x, qinit s0 -> all_named s0 ->
  one_at_a_time RS RL H HT LT s0 tr s -> In x (wrote i tr) ->
  In x (pending i (files s)) \/ exists o, In x (data (files s) o) /\ (linked (files s) o \/ gone_by_limit tr o).
Proof. exact alone_proof. Qed.
Print Assumptions processes_rotate_a_log_file_partial.
Example processes_rotate_a_log_file_ex : (qinit empty_shared /\ all_named empty_shared) /\
  exists s, one_at_a_time (eq 3) (eq 1) never head_text line_text empty_shared fine_trace s /\
  data (files s) 1 = bb 0 3 ++ aa 1 0 /\ dir (files s) 0 = Some 2 /\ dir (files s) 1 = Some 1 /\ pending 0 (files s) = aa 0 6.
Proof. exact (conj empty_shared_init fine_run). Qed.
Example processes_rotate_a_log_file_failing_ex : exists s, one_at_a_time (eq 3) (eq 1) never head_text line_text empty_shared failed_trace s /\
  data (files s) 0 = aa 0 0 /\ data (files s) 1 = bb 0 3 /\ dir (files s) 0 = Some 1 /\ dir (files s) 1 = Some 0 /\ pending 0 (files s) = [].
Proof. exact failed_run. Qed.
(** otherwise one process may rename the new file of another onto the old one, though the limit allows five old files and
    there is one *)
Theorem processes_rotate_a_log_file_refuted : exists s, qinit empty_shared /\ all_named empty_shared /\
  qrun (eq 3) (eq 5) never head_text line_text empty_shared lost_trace s /\
  In (Byte 0 0 "a") (wrote 0 lost_trace) /\ pending 0 (files s) = [] /\ (forall o, In (Byte 0 0 "a") (data (files s) o) -> ~ linked (files s) o) /\
  (forall i k lim o, ~ In (QRemove i k lim o) lost_trace) /\ (forall k, 2 <= k -> dir (files s) k = None).
Proof. exact lost_shown. Qed.
Print Assumptions processes_rotate_a_log_file_refuted.
(** that is the only way: in every execution what is lost was removed beyond the limit or overwritten by a renaming; and what
    is kept is there once and in each file in order *)
Theorem processes_rotate_a_log_file_otherwise : forall RS RL H HT LT s0 tr s i x, qinit s0 -> all_named s0 ->
  qrun RS RL H HT LT s0 tr s -> In x (wrote i tr) ->
  In x (pending i (files s)) \/ exists o, In x (data (files s) o) /\ (linked (files s) o \/ gone_by_limit tr o \/ overwritten tr o).
Proof. exact conserved_proof. Qed.
Print Assumptions processes_rotate_a_log_file_otherwise.
Theorem processes_rotate_in_order : forall RS RL H HT LT s0 tr s i, qinit s0 -> qrun RS RL H HT LT s0 tr s ->
  Permutation (flat_map (fun o => mine i (data (files s) o)) (seq 0 (next_inode (files s))) ++ pending i (files s)) (wrote i tr) /\ from 0 (wrote i tr) /\
  (forall o, ascending (mine i (data (files s) o))).
Proof. exact ordered_proof. Qed.
Print Assumptions processes_rotate_in_order.
(** whole lines, if the operating system always receives all that a stream holds *)
Theorem processes_rotate_whole_lines : forall RS RL (H : bool -> Prop) (HT LT : list ascii -> Prop) s0 tr s o, qinit s0 ->
  qrun RS RL H HT LT s0 tr s -> flushes_whole tr ->
  exists l, map plain_byte (data (files s) o) = map plain_byte (data (files s0) o) ++ l /\ whole_lines (fun t => HT t \/ LT t) l.
Proof. exact shared_lines_proof. Qed.
Print Assumptions processes_rotate_whole_lines.
