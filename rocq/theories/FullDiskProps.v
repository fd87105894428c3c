(** Property C182: what is in the log files when the disk was full. *)
From Coq Require Import List Bool Arith Ascii String.
From Verif Require Import Base LoggerModel LoggerSpec LogFileModel LogFileSpec LogFileExamples CrashModel CrashSpec CrashExamples FullDiskModel FullDiskSpec FullDiskProofs FullDiskExamples.
Import ListNotations.
Local Open Scope string_scope.
Local Open Scope list_scope.

Theorem full_disk_files_partial : forall P K M (peqb : P -> P -> bool), (forall p q, peqb p q = true <-> p = q) ->
  forall (full : Prop) (path : nat -> P), (forall i j, path i = path j -> i = j) ->
  forall HT (LT : entry K M -> bytes -> Prop) d0 log d,
  calls peqb path full (item_ok HT LT) d0 log d -> files_hold HT LT path (fun c => exists i, d0 (path i) = Some c) log d.
Proof. exact @calls_proof. Qed.
Print Assumptions full_disk_files_partial.
Example full_disk_files_ex : calls Nat.eqb path_id True (item_ok HTx LTx) no_files [item_ab; item_cd] disk3 /\
  disk3 1 = Some (chars ("HEAD" ++ NL ++ "aHEAD" ++ NL ++ "ab")) /\ disk3 0 = Some (chars ("HEAD" ++ NL ++ "cd" ++ NL)).
Proof. exact rotation_example. Qed.

Theorem full_disk_without_rotation_partial : forall P K M (peqb : P -> P -> bool), (forall p q, peqb p q = true <-> p = q) ->
  forall (full : Prop) (path : nat -> P), (forall i j, path i = path j -> i = j) ->
  forall HT (LT : entry K M -> bytes -> Prop) d0 fuel header es s p, Forall (item_ok HT LT) es ->
  wrun peqb full (WSt d0 None) (write_w path fuel 0 header es) s p ->
  let c0 := match d0 (path 0) with Some c => c | None => [] end in
  (forall q, q <> path 0 -> w_disk s q = d0 q) /\
  (w_disk s (path 0) = d0 (path 0) \/ exists w h, w_disk s (path 0) = Some (c0 ++ w) /\ stream_text HT LT (map (@i_entry _) (firstn h es)) w) /\
  (forall o n, p = WEnd o n -> (o = Threw /\ n = 0) \/
    (o = Done /\ n = List.length es /\ (~ full -> exists w, w_disk s (path 0) = Some (c0 ++ w) /\ blocks HT LT (map (@i_entry _) es) w))).
Proof. exact @off_proof. Qed.
Print Assumptions full_disk_without_rotation_partial.
Example full_disk_without_rotation_ex : calls Nat.eqb path_id True (item_ok HTx LTx) no_files [item_ab; item_cd] disk2 /\
  disk1 0 = Some (chars "aab") /\ disk2 0 = Some (chars ("aabcd" ++ NL)).
Proof. exact off_example. Qed.

Theorem full_disk_keeps_lines_whole_refuted : exists log d c, calls Nat.eqb path_id True (item_ok HTx LTx) no_files log d /\ d 0 = Some c /\
  log <> [] /\ forall es, ~ blocks HTx LTx es c.
Proof. exact refuted_proof. Qed.
Print Assumptions full_disk_keeps_lines_whole_refuted.
