(** Property theorems C178: a logger whose maximum size and flush size are read at different times. *)
From Coq Require Import List Bool Arith ZArith Permutation.
From Verif Require Import Base ListUpdate LoggerModel LoggerSpec LoggerExamples LoggerSplitModel LoggerSplitSpec LoggerSplitProofs LoggerSplitExamples.
Import ListNotations.

(** C178.  What happens is what could happen if both were read at once, with some calls of buffer_max_size(n) coming later; *)
Theorem logger_reads_refine : forall K M (ltb : K -> K -> bool) lvl max flush clock tr (s : @split K M),
  sexec ltb (sinitial lvl max flush clock) tr s -> adding s = None ->
  exists tr', exec ltb (initial lvl max flush clock) tr' (base s) /\ delayed (visible tr) (visible tr').
Proof. exact @split_refines. Qed.
Print Assumptions logger_reads_refine.
(** and the other way round, without moving anything. *)
Theorem logger_reads_allow_the_rest : forall K M (ltb : K -> K -> bool) (b0 : @logger K M) tr b, exec ltb b0 tr b ->
  exists tr', sexec ltb (Split b0 None) tr' (Split b None) /\ visible tr' = visible tr.
Proof. exact @exec_split. Qed.
Print Assumptions logger_reads_allow_the_rest.
(** So C59, C60 and C62 hold too: *)
Theorem logger_reads_write_in_order : forall K M (ltb : K -> K -> bool), strict_total_order ltb ->
  forall lvl max flush clock tr (s : @split K M) k, sexec ltb (sinitial lvl max flush clock) tr s ->
  prefix (written_to ltb k tr) (accepted_for ltb k tr).
Proof. exact @split_order. Qed.
Print Assumptions logger_reads_write_in_order.
Theorem logger_reads_count_every_call : forall K M (ltb : K -> K -> bool) lvl max flush clock tr (s : @split K M),
  sexec ltb (sinitial lvl max flush clock) tr s ->
  NoDup (passes tr) /\ Permutation (passes tr) (acceptances tr ++ discards tr ++ flat_map undecided (calls (base s))) /\
  discarded (base s) = discarded_since_reset tr.
Proof. exact @split_counted. Qed.
Print Assumptions logger_reads_count_every_call.
Theorem logger_reads_flush : forall K M (ltb : K -> K -> bool), strict_total_order ltb ->
  forall lvl max flush clock tr (s : @split K M) k, sexec_calm ltb (sinitial lvl max flush clock) tr s ->
  squiescent ltb s -> dtor (base s) = DNone -> ~ due (flush_size (base s)) (buffer ltb k (lfiles (base s))).
Proof. exact @split_flushed. Qed.
Print Assumptions logger_reads_flush.
Example logger_reads_flush_ex : exists tr s, sexec_calm Nat.ltb (sstart 0 0 5 0) tr s /\ squiescent Nat.ltb s /\ dtor (base s) = DNone /\
  length (written_to Nat.ltb 7 tr) = 1 /\ buffer Nat.ltb 7 (lfiles (base s)) = [].
Proof. exact gap_flush. Qed.
(** a buffer can grow beyond a maximum size set during a call *)
Example logger_reads_refine_ex : exists tr s, sexec_calm Nat.ltb (sstart 0 0 5 0) tr s /\ adding s = None /\ max_size (base s) = 1 /\
  length (buffer Nat.ltb 7 (lfiles (base s))) = 2 /\ exists l1 e l2, tr = l1 ++ EMax 1 :: EAccept e :: l2 /\ acceptances l1 = [0].
Proof. exact gap_execution. Qed.
