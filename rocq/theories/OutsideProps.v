(** Property theorems C174-C176: log files that other programs rename or remove, and log files of several processes.
    Without rotation, and without failures of the file system. *)
From Coq Require Import List Bool Arith Ascii Permutation.
From Verif Require Import Base CrashModel OutsideModel OutsideSpec OutsideProofs OutsideExamples.
Import ListNotations.
Local Open Scope char_scope.

(** C174.  As long as no file is removed, whatever files are renamed and whenever, what any process writes is in files that
    have a path, up to what its stream still holds: all of it, once, and in each file in order. *)
Theorem log_files_may_be_renamed : forall (P : Type) (peqb : P -> P -> bool), (forall p q, peqb p q = true <-> p = q) ->
  forall H HT LT s0 tr s i, xinit s0 -> xrun peqb H HT LT s0 tr s ->
  Permutation (flat_map (fun o => mine i (data s o)) (seq 0 (next_inode s)) ++ pending i s) (put_by i tr) /\ from 0 (put_by i tr) /\
  (forall o, ascending (mine i (data s o))) /\ (forall o, next_inode s <= o -> mine i (data s o) = []) /\
  (no_removal tr -> forall o m b, In (Byte i m b) (data s o) -> linked s o).
Proof. exact renamed_all_proof. Qed.
Print Assumptions log_files_may_be_renamed.
Example log_files_may_be_renamed_ex : xinit empty_fs /\ exists s, xrun Nat.eqb always head_text line_text empty_fs renamed_trace s /\
  no_removal renamed_trace /\ whole_flushes renamed_trace /\
  dir s 7 = Some 1 /\ dir s 8 = Some 0 /\ data s 0 = hd 0 0 ++ aa 0 2 ++ bb 0 5 /\ data s 1 = hd 0 8 ++ aa 0 10.
Proof. exact (conj empty_fs_init renamed_run). Qed.

(** C175.  What a process writes to streams that it opens after the last removal is in files that have a path. *)
Theorem log_files_may_be_removed_partial : forall (P : Type) (peqb : P -> P -> bool), (forall p q, peqb p q = true <-> p = q) ->
  forall H HT LT s0 tr1 s1 tr2 s2 i o m b, xinit s0 -> xrun peqb H HT LT s0 tr1 s1 -> streams s1 i = None ->
  xrun peqb H HT LT s1 tr2 s2 -> no_removal tr2 -> In (Byte i m b) (data s2 o) -> written s1 i <= m -> linked s2 o.
Proof. exact (@kept_proof). Qed.
Print Assumptions log_files_may_be_removed_partial.
Example log_files_may_be_removed_ex : exists tr1 s1 s2, xrun Nat.eqb always head_text line_text empty_fs tr1 s1 /\ streams s1 0 = None /\
  In (XRemove 7) tr1 /\
  xrun Nat.eqb always head_text line_text s1 [XOpen 0 7; XPut 0 (hd 0 5 ++ bb 0 7); XFlush 0 (hd 0 5 ++ bb 0 7) []; XClose 0] s2 /\
  written s1 0 = 5 /\ In (Byte 0 7 "b") (data s2 1) /\ dir s2 7 = Some 1.
Proof. exact removed_between. Qed.
(** a file that is removed while its stream is open takes with it what is written to the stream afterwards *)
Theorem log_files_may_be_removed_refuted : exists s, xrun Nat.eqb always head_text line_text empty_fs
    [XOpen 0 7; XRemove 7; XPut 0 (hd 0 0 ++ aa 0 2); XFlush 0 (hd 0 0 ++ aa 0 2) []; XClose 0] s /\
  data s 0 = hd 0 0 ++ aa 0 2 /\ ~ linked s 0 /\ dir s 7 = None.
Proof. exact removed_run. Qed.
Print Assumptions log_files_may_be_removed_refuted.

(** C176.  If the operating system always receives all that a stream holds, a file that several processes write consists,
    after its old contents, of whole lines; a new file begins with the header. *)
Theorem processes_share_a_log_file_partial : forall (P : Type) (peqb : P -> P -> bool) (H : bool -> Prop) (HT LT : list ascii -> Prop) s0 tr s o,
  xinit s0 -> xrun peqb H HT LT s0 tr s -> whole_flushes tr ->
  exists l, map plain_byte (data s o) = map plain_byte (data s0 o) ++ l /\ whole_lines (fun t => HT t \/ LT t) l.
Proof. exact (@lines_proof). Qed.
Print Assumptions processes_share_a_log_file_partial.
Theorem processes_share_a_header_partial : forall (P : Type) (peqb : P -> P -> bool) (H : bool -> Prop) (HT LT : list ascii -> Prop) t s0 tr s o,
  (forall h, H h -> h = true) -> (forall x, HT x -> x = t) -> xinit s0 -> xrun peqb H HT LT s0 tr s -> whole_flushes tr ->
  next_inode s0 <= o -> data s o <> [] -> exists l, map plain_byte (data s o) = t ++ [nl] ++ l.
Proof. exact (@header_proof). Qed.
Print Assumptions processes_share_a_header_partial.
(** otherwise the lines of two processes can be mixed *)
Theorem processes_share_a_log_file_refuted : exists tr s, xrun Nat.eqb never head_text line_text empty_fs tr s /\ no_removal tr /\
  map plain_byte (data s 0) = ["a"; "b"; "a"; nl; "b"; nl] /\ ~ whole_lines (fun t => head_text t \/ line_text t) (map plain_byte (data s 0)).
Proof. exact mixed_run. Qed.
Print Assumptions processes_share_a_log_file_refuted.
(** and even then there may be more than one header; this execution also meets the hypotheses above *)
Theorem processes_share_one_header_refuted : exists tr s, xrun Nat.eqb always head_text line_text empty_fs tr s /\ no_removal tr /\ whole_flushes tr /\
  map plain_byte (data s 0) = ["h"; nl; "a"; "a"; nl; "h"; nl; "b"; "b"; nl].
Proof. exact two_headers_run. Qed.
Print Assumptions processes_share_one_header_refuted.
