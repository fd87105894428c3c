(** Properties C142-C148: what is in the log files when the process is killed. *)
From Coq Require Import List Bool Arith Ascii String ZArith.
From Verif Require Import Base LoggerModel LoggerSpec LogFileModel LogFileSpec LogFileExamples CrashModel CrashSpec CrashMore CrashRefine CrashKeep CrashLines CrashHeaders CrashExamples CrashHeadersEx.
Import ListNotations.
Local Open Scope string_scope.
Local Open Scope list_scope.

(** C142 *)
Theorem logger_crash_loses_only_memory : forall P K M (peqb : P -> P -> bool) (path : K -> nat -> P) (ltb : K -> K -> bool),
  (forall p q, peqb p q = true <-> p = q) -> strict_total_order ltb -> separate path ->
  forall (L R : nat -> Prop) (H : bool -> Prop) HT (LT : entry K M -> bytes -> Prop) k T0 lvl max fl clock d0 tr s ev d,
  (forall n, R n -> n = 0) -> crashed peqb path ltb L R H HT LT (initial lvl max fl clock) d0 tr s ev d -> all_text (path k) d0 T0 ->
  exists kept es W w, accepted_for ltb k tr = kept ++ rev (buffer ltb k (lfiles s)) /\ blocks HT LT kept W /\
  prefix es (rev (buffer ltb k (lfiles s))) /\ torn HT LT es w /\ all_text (path k) d (T0 ++ W ++ w).
Proof. exact @crash_off_proof. Qed.
Print Assumptions logger_crash_loses_only_memory.
Theorem logger_crash_with_rotation : forall P K M (peqb : P -> P -> bool) (path : K -> nat -> P) (ltb : K -> K -> bool),
  (forall p q, peqb p q = true <-> p = q) -> strict_total_order ltb -> separate path ->
  forall (L R : nat -> Prop) (H : bool -> Prop) HT (LT : entry K M -> bytes -> Prop) k n T0 lvl max fl clock d0 tr s ev d,
  (forall i, L i -> i = n) -> crashed peqb path ltb L R H HT LT (initial lvl max fl clock) d0 tr s ev d -> all_text (path k) d0 T0 ->
  (forall i, n < i -> d0 (path k i) = None) ->
  exists T kept es W w, accepted_for ltb k tr = kept ++ rev (buffer ltb k (lfiles s)) /\ blocks HT LT kept W /\
  prefix es (rev (buffer ltb k (lfiles s))) /\ torn HT LT es w /\ all_text (path k) d T /\ suffix_of T (T0 ++ W ++ w) /\
  forall i, n < i -> d (path k i) = None.
Proof. exact @crash_limit_proof. Qed.
Print Assumptions logger_crash_with_rotation.
Theorem logger_crash_any_settings : forall P K M (peqb : P -> P -> bool) (path : K -> nat -> P) (ltb : K -> K -> bool),
  (forall p q, peqb p q = true <-> p = q) -> strict_total_order ltb -> separate path ->
  forall (L R : nat -> Prop) (H : bool -> Prop) HT (LT : entry K M -> bytes -> Prop) k T0 lvl max fl clock d0 tr s ev d,
  crashed peqb path ltb L R H HT LT (initial lvl max fl clock) d0 tr s ev d -> all_text (path k) d0 T0 ->
  exists T kept es W w, accepted_for ltb k tr = kept ++ rev (buffer ltb k (lfiles s)) /\ blocks HT LT kept W /\
  prefix es (rev (buffer ltb k (lfiles s))) /\ torn HT LT es w /\ all_text (path k) d T /\ sublist T (T0 ++ W ++ w).
Proof. exact @crash_any_proof. Qed.
Print Assumptions logger_crash_any_settings.
Example failed_open_ex : exists tr s u,
  csystem path_eqb apath bool_lt (eq 0) (eq 0) (eq false) HTx LTx (initial 0 0 1 0) bdisk0 tr s u /\
  In (EFail true) tr /\ map e_msg (buffer bool_lt true (lfiles s)) = [11] /\ on_disk u log_txt = Some [].
Proof. exact failed_open_example. Qed.
Theorem logger_crash_keeps_closed_files : forall P K M (peqb : P -> P -> bool) (path : K -> nat -> P) (ltb : K -> K -> bool),
  (forall p q, peqb p q = true <-> p = q) -> strict_total_order ltb -> separate path ->
  forall (L R : nat -> Prop) (H : bool -> Prop) HT (LT : entry K M -> bytes -> Prop) k T0 lvl max fl clock d0 tr1 tr2 s ev d,
  (forall n, R n -> n = 0) -> crashed peqb path ltb L R H HT LT (initial lvl max fl clock) d0 (tr1 ++ tr2) s ev d ->
  all_text (path k) d0 T0 -> after_closing tr1 ->
  exists W w es, blocks HT LT (written_to ltb k tr1) W /\ prefix es (written_to ltb k (tr2 ++ [ev])) /\ torn HT LT es w /\
  all_text (path k) d (T0 ++ W ++ w).
Proof. exact @crash_closed_proof. Qed.
Print Assumptions logger_crash_keeps_closed_files.
Theorem logger_crash_keeps_written_entries_refuted : exists tr s ev d,
  crashed path_eqb apath bool_lt (eq 0) (eq 0) (eq false) HTx LTx (initial 0 0 1 0) bdisk0 tr s ev d /\
  map e_msg (accepted_for bool_lt true tr) = [11] /\ map e_msg (written_to bool_lt true (tr ++ [ev])) = [11] /\ d log_txt = Some [].
Proof. exact lost_in_memory. Qed.
Print Assumptions logger_crash_keeps_written_entries_refuted.

(** C143 *)
Theorem logger_crashes_damage_only_end_and_beginning : forall P K M (peqb : P -> P -> bool) (path : K -> nat -> P) (ltb : K -> K -> bool),
  (forall p q, peqb p q = true <-> p = q) -> strict_total_order ltb -> separate path ->
  forall (L R : nat -> Prop) (H : bool -> Prop) HT (LT : entry K M -> bytes -> Prop) k T0 d0 log d,
  (forall n, R n -> n = 0) -> lives peqb path ltb L R H HT LT d0 log d -> all_text (path k) d0 T0 ->
  exists ess ws, List.length ess = List.length log /\
  Forall2 (fun tr x => crash_text ltb HT LT k tr (fst x) (snd x)) log (combine ess ws) /\ all_text (path k) d (T0 ++ List.concat ws) /\
  forall es e, In es ess -> In e (inner es) -> exists lt, LT e lt /\ line_in lt (T0 ++ List.concat ws).
Proof. exact @lines_proof. Qed.
Print Assumptions logger_crashes_damage_only_end_and_beginning.
(** for every file by itself, whatever the rotation settings: it consists of what was in a file before (or nothing)
    and of one part of every process; in the parts, only the first and the last entry can be damaged *)
Theorem logger_crashes_damage_only_ends_of_parts : forall P K M (peqb : P -> P -> bool) (path : K -> nat -> P) (ltb : K -> K -> bool),
  (forall p q, peqb p q = true <-> p = q) -> strict_total_order ltb -> separate path ->
  forall (L R : nat -> Prop) (H : bool -> Prop) HT (LT : entry K M -> bytes -> Prop) k d0 log d,
  lives peqb path ltb L R H HT LT d0 log d -> forall i c, d (path k i) = Some c ->
  exists b ess ws, (b = [] \/ exists j, d0 (path k j) = Some b) /\ List.length ess = List.length log /\
  Forall2 (fun tr x => part_text ltb HT LT k tr (fst x) (snd x)) log (combine ess ws) /\ c = b ++ List.concat ws /\
  forall es e, In es ess -> In e (inner es) -> exists lt, LT e lt /\ line_in lt c.
Proof. exact @file_lines_proof. Qed.
Print Assumptions logger_crashes_damage_only_ends_of_parts.
Example killed_after_rotating_ex : exists tr ev d,
  lives path_eqb apath bool_lt (eq 1) (eq 3) (eq true) HTx LTx
    (put_at path_eqb log_txt (Some (chars "HEAD" ++ [nl] ++ chars "ab" ++ [nl])) bdisk0) [tr ++ [ev]] d /\
  map e_msg (written_to bool_lt true (tr ++ [ev])) = [12] /\
  d log_txt = Some (chars "HEAD" ++ [nl] ++ chars "c") /\ d log_1_txt = Some (chars "HEAD" ++ [nl] ++ chars "ab" ++ [nl]).
Proof. exact killed_after_rotating. Qed.
Theorem logger_restart_keeps_lines_apart_refuted : exists tr1 e1 tr2 e2 d,
  lives path_eqb apath bool_lt (eq 0) (eq 0) (eq false) HTx LTx bdisk0 [tr1 ++ [e1]; tr2 ++ [e2]] d /\
  map e_msg (written_to bool_lt true (tr1 ++ [e1])) = [11] /\ map e_msg (written_to bool_lt true (tr2 ++ [e2])) = [12] /\
  d log_txt = Some (chars "acd" ++ [nl]) /\ (forall e, ~ line_in (line_text e) (chars "acd" ++ [nl])).
Proof. exact merged_lines. Qed.
Print Assumptions logger_restart_keeps_lines_apart_refuted.

(** C144 *)
Theorem logger_crash_keeps_headers : forall P K M (peqb : P -> P -> bool) (path : K -> nat -> P) (ltb : K -> K -> bool),
  (forall p q, peqb p q = true <-> p = q) -> strict_total_order ltb -> separate path ->
  forall (L R : nat -> Prop) (H : bool -> Prop) (HT : bytes -> Prop) (LT : entry K M -> bytes -> Prop) h k lvl max fl clock d0 tr s ev d,
  (forall b, H b -> b = true) -> (forall ht, HT ht -> ht = h) ->
  crashed peqb path ltb L R H HT LT (initial lvl max fl clock) d0 tr s ev d -> (forall i c, d0 (path k i) = Some c -> complete_header h c) ->
  forall i c, d (path k i) = Some c -> begins h c.
Proof. exact @crash_headers. Qed.
Print Assumptions logger_crash_keeps_headers.
Theorem logger_restart_keeps_headers_refuted : exists tr1 e1 tr2 e2 d,
  lives path_eqb apath bool_lt (eq 0) (eq 0) (eq true) HTx LTx bdisk0 [tr1 ++ [e1]; tr2 ++ [e2]] d /\
  d log_txt = Some (chars "HEcd" ++ [nl]) /\ ~ begins (chars "HEAD") (chars "HEcd" ++ [nl]).
Proof. exact lost_header. Qed.
Print Assumptions logger_restart_keeps_headers_refuted.
Theorem logger_crashes_keep_one_header : forall P K M (peqb : P -> P -> bool) (path : K -> nat -> P) (ltb : K -> K -> bool),
  (forall p q, peqb p q = true <-> p = q) -> strict_total_order ltb -> separate path ->
  forall (L R : nat -> Prop) (H : bool -> Prop) (HT : bytes -> Prop) (LT : entry K M -> bytes -> Prop) h k d0 log d,
  (forall b, H b -> b = true) -> (forall ht, HT ht -> ht = h) ->
  lives peqb path ltb L R H HT LT d0 log d -> (forall i c, d0 (path k i) = Some c -> header_first h LT c) ->
  forall i c, d (path k i) = Some c -> header_first h LT c.
Proof. exact @lives_header_first. Qed.
Print Assumptions logger_crashes_keep_one_header.
Example logger_crashes_keep_one_header_ex : exists log d,
  lives path_eqb apath bool_lt (eq 0) (eq 0) (eq true) HTx LTx bdisk0 log d /\ List.length log = 2 /\
  (forall i c, bdisk0 (apath true i) = Some c -> header_first (chars "HEAD") LTx c) /\
  d log_txt = Some (chars "HEcd" ++ [nl]) /\ header_first (chars "HEAD") LTx (chars "HEcd" ++ [nl]).
Proof. exact part_of_header. Qed.
Example header_first_excludes_ex : ~ header_first (chars "HEAD") LTx (chars "ab" ++ [nl] ++ chars "HEAD" ++ [nl]) /\
  ~ header_first (chars "HEAD") LTx (chars "HEAD" ++ [nl] ++ chars "ab" ++ [nl] ++ chars "HEAD" ++ [nl]).
Proof. exact header_first_excludes. Qed.

(** C145 *)
Theorem logger_crashes_keep_files_small : forall P K M (peqb : P -> P -> bool) (path : K -> nat -> P) (ltb : K -> K -> bool),
  (forall p q, peqb p q = true <-> p = q) -> strict_total_order ltb -> separate path ->
  forall (L R : nat -> Prop) (H : bool -> Prop) (HT : bytes -> Prop) (LT : entry K M -> bytes -> Prop) r a b k d0 log d,
  (forall n, R n -> 0 < n <= r) -> (forall ht, HT ht -> List.length ht <= a) -> (forall x lt, LT x lt -> List.length lt <= b) ->
  lives peqb path ltb L R H HT LT d0 log d -> (forall i c, d0 (path k i) = Some c -> List.length c < r + a + b + 2) ->
  forall i c, d (path k i) = Some c -> List.length c < r + a + b + 2.
Proof. exact @lives_small. Qed.
Print Assumptions logger_crashes_keep_files_small.

(** C146 *)
Theorem logger_crashes_without_rotation : forall P K M (peqb : P -> P -> bool) (path : K -> nat -> P) (ltb : K -> K -> bool),
  (forall p q, peqb p q = true <-> p = q) -> strict_total_order ltb -> separate path ->
  forall (L R : nat -> Prop) (H : bool -> Prop) HT (LT : entry K M -> bytes -> Prop) k T0 d0 log d,
  (forall n, R n -> n = 0) -> lives peqb path ltb L R H HT LT d0 log d -> all_text (path k) d0 T0 ->
  exists ws, Forall2 (fun tr w => exists es, crash_text ltb HT LT k tr es w) log ws /\ all_text (path k) d (T0 ++ List.concat ws).
Proof. exact @lives_off_proof. Qed.
Print Assumptions logger_crashes_without_rotation.
Theorem logger_crashes_with_rotation : forall P K M (peqb : P -> P -> bool) (path : K -> nat -> P) (ltb : K -> K -> bool),
  (forall p q, peqb p q = true <-> p = q) -> strict_total_order ltb -> separate path ->
  forall (L R : nat -> Prop) (H : bool -> Prop) HT (LT : entry K M -> bytes -> Prop) k n T0 d0 log d,
  (forall i, L i -> i = n) -> lives peqb path ltb L R H HT LT d0 log d -> all_text (path k) d0 T0 -> (forall i, n < i -> d0 (path k i) = None) ->
  exists T ws, all_text (path k) d T /\ Forall2 (fun tr w => exists es, crash_text ltb HT LT k tr es w) log ws /\
  suffix_of T (T0 ++ List.concat ws) /\ forall i, n < i -> d (path k i) = None.
Proof. exact @lives_limit_proof. Qed.
Print Assumptions logger_crashes_with_rotation.
Theorem logger_crashes_any_settings : forall P K M (peqb : P -> P -> bool) (path : K -> nat -> P) (ltb : K -> K -> bool),
  (forall p q, peqb p q = true <-> p = q) -> strict_total_order ltb -> separate path ->
  forall (L R : nat -> Prop) (H : bool -> Prop) HT (LT : entry K M -> bytes -> Prop) k T0 d0 log d,
  lives peqb path ltb L R H HT LT d0 log d -> all_text (path k) d0 T0 ->
  exists T ws, all_text (path k) d T /\ Forall2 (fun tr w => exists es, crash_text ltb HT LT k tr es w) log ws /\ sublist T (T0 ++ List.concat ws).
Proof. exact @lives_any_proof. Qed.
Print Assumptions logger_crashes_any_settings.

(** C147 *)
Theorem logger_stream_buffer_changes_nothing : forall P K M (peqb : P -> P -> bool) (path : K -> nat -> P) (ltb : K -> K -> bool),
  (forall p q, peqb p q = true <-> p = q) -> strict_total_order ltb -> separate path ->
  forall (L R : nat -> Prop) (H : bool -> Prop) HT (LT : entry K M -> bytes -> Prop) lvl max fl clock d0 b0 tr s u,
  csystem peqb path ltb L R H HT LT (initial lvl max fl clock) b0 tr s u -> (forall p, b0 p = option_map bytes_of (d0 p)) ->
  exists d, system peqb path L R H ltb (initial lvl max fl clock) d0 tr s d /\ forall p, on_disk (closed peqb u) p = option_map bytes_of (d p).
Proof. exact @refine_proof. Qed.
Print Assumptions logger_stream_buffer_changes_nothing.

(** C148 *)
Theorem logger_crash_retains_text : forall P K M (peqb : P -> P -> bool) (path : K -> nat -> P) (ltb : K -> K -> bool),
  (forall p q, peqb p q = true <-> p = q) -> strict_total_order ltb -> separate path ->
  forall (L R : nat -> Prop) (H : bool -> Prop) HT (LT : entry K M -> bytes -> Prop) n r k,
  (forall i, L i -> n <= i) -> (forall i, R i -> i = 0 \/ r <= i) -> forall T0 lvl max fl clock d0 tr s ev d,
  crashed peqb path ltb L R H HT LT (initial lvl max fl clock) d0 tr s ev d -> all_text (path k) d0 T0 ->
  (forall i c, 0 < i -> d0 (path k i) = Some c -> r <= List.length c) ->
  exists T, all_text (path k) d T /\
  (n * r <= List.length T \/ exists kept es W w, accepted_for ltb k tr = kept ++ rev (buffer ltb k (lfiles s)) /\ blocks HT LT kept W /\
    prefix es (rev (buffer ltb k (lfiles s))) /\ torn HT LT es w /\ T = T0 ++ W ++ w).
Proof. exact @crash_retains_proof. Qed.
Print Assumptions logger_crash_retains_text.
Theorem logger_crashes_retain_text : forall P K M (peqb : P -> P -> bool) (path : K -> nat -> P) (ltb : K -> K -> bool),
  (forall p q, peqb p q = true <-> p = q) -> strict_total_order ltb -> separate path ->
  forall (L R : nat -> Prop) (H : bool -> Prop) HT (LT : entry K M -> bytes -> Prop) n r k,
  (forall i, L i -> n <= i) -> (forall i, R i -> i = 0 \/ r <= i) -> forall T0 d0 log d,
  lives peqb path ltb L R H HT LT d0 log d -> all_text (path k) d0 T0 -> (forall i c, 0 < i -> d0 (path k i) = Some c -> r <= List.length c) ->
  exists T, all_text (path k) d T /\
  (n * r <= List.length T \/ exists ws, Forall2 (fun tr w => exists es, crash_text ltb HT LT k tr es w) log ws /\ T = T0 ++ List.concat ws).
Proof. exact @lives_retain_proof. Qed.
Print Assumptions logger_crashes_retain_text.
