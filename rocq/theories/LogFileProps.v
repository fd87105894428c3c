(** Property theorems C64, C65 and C85-C93: the files of the logger.

    [path i] is the path of the i-th file of a log file; [path 0] is the current one.  Paths are any type with
    decidable equality; C87 is about the paths the logger uses. *)
From Coq Require Import List Bool Arith ZArith Ascii String.
From Verif Require Import Base LoggerModel LoggerSpec LoggerExamples
  LogFileModel LogFileSpec LogFileProofs LogFileFailing LogFileSystem LogFilePaths LogFileExamples.
Import ListNotations.

(** C64 *)
Theorem rotation_moves_every_file : forall P E (peqb : P -> P -> bool), (forall p q, peqb p q = true <-> p = q) ->
  forall path : nat -> P, (forall i j, path i = path j -> i = j) ->
  forall ok limit fuel c (d : @disk P E) o c' d', rotate peqb path ok limit fuel c d = (o, c', d') -> o = Done ->
  exists m, run_of path d m /\ rotated path limit m d d'.
Proof. exact @rotate_spec. Qed.
Print Assumptions rotation_moves_every_file.
Example rotation_ex : exists (d : @disk (list ascii) nat) c' d', d log_txt = Some [Old "newest"] /\ d (chars "/v/log_1.txt") = Some [Old "older"] /\
  d (chars "/v/log_2.txt") = Some [Old "oldest"] /\ d (chars "/v/other") = Some [Old "x"] /\
  rotate path_eqb (file_path log_txt) always 2 4 0 d = (Done, c', d') /\
  d' log_txt = None /\ d' (chars "/v/log_1.txt") = Some [Old "newest"] /\ d' (chars "/v/log_2.txt") = Some [Old "older"] /\
  d' (chars "/v/log_3.txt") = None /\ d' (chars "/v/other") = Some [Old "x"].
Proof. exact rotate_example. Qed.

(** C65.  One entry: [c'] is the content of the file it is appended to; [d1] is the disk before that. *)
Theorem logger_writes_an_entry : forall P E (peqb : P -> P -> bool), (forall p q, peqb p q = true <-> p = q) ->
  forall path : nat -> P, (forall i j, path i = path j -> i = j) ->
  forall ok fuel limit rsize header ht lt (e : E) d d' c,
  write_entry peqb path ok fuel limit rsize header ht lt e d = (Done, d') -> d (path 0) = Some c ->
  exists c' d1, (rsize = 0 \/ String.length (text_of c') < rsize) /\
  d' (path 0) = Some (c' ++ (if header && (String.length (text_of c') =? 0) then [Head ht] else []) ++ [Line e lt]) /\
  (forall p, p <> path 0 -> d' p = d1 p) /\
  ((c' = c /\ d1 = d) \/ (c' = [] /\ 0 < rsize <= String.length (text_of c) /\ exists m, run_of path d m /\ rotated path limit m d d1)).
Proof. exact @entry_text_spec. Qed.
Print Assumptions logger_writes_an_entry.
(** A batch, complete or interrupted by a failing operation: [n] entries have been written.  [fixed] is the
    rotation limit if it is the same for all entries. *)
Theorem logger_writes_a_batch : forall P E (peqb : P -> P -> bool), (forall p q, peqb p q = true <-> p = q) ->
  forall path : nat -> P, (forall i j, path i = path j -> i = j) ->
  forall fixed fuel rsize header (l : list (item E)) d o n d',
  (forall lim i, fixed = Some lim -> In i l -> i_limit i = lim) ->
  write_batch peqb path fuel rsize header l d = (o, n, d') ->
  ((forall fs, all_files path d fs -> exists fs', all_files path d' fs' /\
     sublist (all_lines fs') (all_lines fs ++ map i_entry (firstn n l)) /\
     (forall lim, fixed = Some lim -> (forall i, lim < i -> d (path i) = None) ->
       suffix_of (all_lines fs') (all_lines fs ++ map i_entry (firstn n l))) /\
     (rsize = 0 -> all_lines fs' = all_lines fs ++ map i_entry (firstn n l))) /\
   (forall lim, fixed = Some lim -> forall i, lim < i -> d (path i) = None -> d' (path i) = None) /\
   (forall p, (forall j, p <> path j) -> d' p = d p)) /\
  (o = Done -> n = List.length l) /\
  (header = true -> (forall i c, d (path i) = Some c -> headed c) -> forall i c, d' (path i) = Some c -> headed c).
Proof. exact @write_batch_kept. Qed.
Print Assumptions logger_writes_a_batch.
Example batch_ex : exists d', write_batch path_eqb (file_path log_txt) 10 20 true [entry_of 1; entry_of 2; entry_of 3] (one_disk []) = (Done, 3, d') /\
  d' log_txt = Some [Head "H"; Line 3 "0123456789"] /\ d' log_1_txt = Some [Head "H"; Line 1 "0123456789"; Line 2 "0123456789"] /\
  all_files (file_path log_txt) (one_disk []) [].
Proof. exact batch_example. Qed.
Example paths_ex : (forall p q, path_eqb p q = true <-> p = q) /\ (forall i j, file_path log_txt i = file_path log_txt j -> i = j).
Proof. exact (conj path_eqb_true (path_inj_proof log_txt)). Qed.
(** In every execution.  The rotation limits are among [L], the rotation sizes among [R]. *)
Theorem logger_files_are_in_order : forall P K M (peqb : P -> P -> bool) (path : K -> nat -> P) (ltb : K -> K -> bool),
  (forall p q, peqb p q = true <-> p = q) -> strict_total_order ltb -> separate path ->
  forall (L R : nat -> Prop) (H : bool -> Prop) lvl max flush clock d0 tr (s : @logger K M) d k fs0,
  system peqb path L R H ltb (initial lvl max flush clock) d0 tr s d -> all_files (path k) d0 fs0 ->
  exists fs, all_files (path k) d fs /\ sublist (all_lines fs) (all_lines fs0 ++ written_to ltb k tr) /\
    sublist (all_lines fs) (all_lines fs0 ++ accepted_for ltb k tr).
Proof. exact @files_proof. Qed.
Print Assumptions logger_files_are_in_order.
Theorem logger_drops_only_the_oldest : forall P K M (peqb : P -> P -> bool) (path : K -> nat -> P) (ltb : K -> K -> bool),
  (forall p q, peqb p q = true <-> p = q) -> strict_total_order ltb -> separate path ->
  forall (L R : nat -> Prop) (H : bool -> Prop) limit lvl max flush clock d0 tr (s : @logger K M) d k fs0, (forall n, L n -> n = limit) ->
  system peqb path L R H ltb (initial lvl max flush clock) d0 tr s d -> all_files (path k) d0 fs0 ->
  (forall i, limit < i -> d0 (path k i) = None) ->
  (forall i, limit < i -> d (path k i) = None) /\
  exists fs, all_files (path k) d fs /\ suffix_of (all_lines fs) (all_lines fs0 ++ written_to ltb k tr).
Proof. exact @files_limit_proof. Qed.
Print Assumptions logger_drops_only_the_oldest.
Theorem logger_drops_nothing_without_rotation : forall P K M (peqb : P -> P -> bool) (path : K -> nat -> P) (ltb : K -> K -> bool),
  (forall p q, peqb p q = true <-> p = q) -> strict_total_order ltb -> separate path ->
  forall (L R : nat -> Prop) (H : bool -> Prop) lvl max flush clock d0 tr (s : @logger K M) d k fs0, (forall n, R n -> n = 0) ->
  system peqb path L R H ltb (initial lvl max flush clock) d0 tr s d -> all_files (path k) d0 fs0 ->
  exists fs, all_files (path k) d fs /\ all_lines fs = all_lines fs0 ++ written_to ltb k tr.
Proof. exact @files_off_proof. Qed.
Print Assumptions logger_drops_nothing_without_rotation.
Theorem logger_writes_small_files : forall P K M (peqb : P -> P -> bool) (path : K -> nat -> P) (ltb : K -> K -> bool),
  (forall p q, peqb p q = true <-> p = q) -> separate path ->
  forall (L R : nat -> Prop) (H : bool -> Prop) lvl max flush clock d0 tr (s : @logger K M) d k e s' d',
  system peqb path L R H ltb (initial lvl max flush clock) d0 tr s d ->
  step ltb s (EWrite k e) s' -> disk_step peqb path L R H d (EWrite k e) d' ->
  exists c header ht lt rsize, R rsize /\ H header /\ (rsize = 0 \/ String.length (text_of c) < rsize) /\
  d' (path k 0) = Some (c ++ (if header && (String.length (text_of c) =? 0) then [Head ht] else []) ++ [Line e lt]).
Proof. exact @written_proof. Qed.
Print Assumptions logger_writes_small_files.
Example system_ex : exists tr1 s1 d1 s2 tr2 s d,
  system path_eqb apath (eq 1) (eq 20) (eq true) bool_lt (initial 0 0 2 0) (fun _ => None) tr1 s1 d1 /\
  step bool_lt s1 EDestroy s2 /\ system path_eqb apath (eq 1) (eq 20) (eq true) bool_lt s2 d1 tr2 s d /\ dtor s = DDone /\
  (forall k, ~ In (EFail k) tr2) /\ map e_msg (accepted_for bool_lt true (tr1 ++ EDestroy :: tr2)) = [11; 12; 13] /\
  option_map (fun c => map e_msg (lines_of c)) (d (chars "/v/log.txt")) = Some [13] /\
  option_map (fun c => map e_msg (lines_of c)) (d (chars "/v/log_1.txt")) = Some [11; 12].
Proof. exact system_example. Qed.
Example system_hypotheses_ex : separate apath /\ strict_total_order bool_lt.
Proof. exact (conj apath_separate bool_order). Qed.

(** C85.  [ok] says which operations fail. *)
Theorem rotation_that_fails_loses_nothing : forall P E (peqb : P -> P -> bool), (forall p q, peqb p q = true <-> p = q) ->
  forall path : nat -> P, (forall i j, path i = path j -> i = j) ->
  forall ok limit fuel c d o c' (d' : @disk P E) fs, rotate peqb path ok limit fuel c d = (o, c', d') -> all_files path d fs ->
  (exists older older', fs = older ++ files_below path limit d /\ all_files path d' (older' ++ files_below path limit d) /\ sublist older' older) /\
  (forall p, (forall j, p <> path j) -> d' p = d p).
Proof. exact @rotate_keeps_proof. Qed.
Print Assumptions rotation_that_fails_loses_nothing.
Example rotation_fails_ex : exists (d : @disk (list ascii) nat) ok c' d', d log_txt = Some [Old "newest"] /\ d log_1_txt = Some [Old "older"] /\
  rotate path_eqb (file_path log_txt) ok 5 4 0 d = (Threw, c', d') /\
  d' log_txt = Some [Old "newest"] /\ d' log_1_txt = None /\ d' (chars "/v/log_2.txt") = Some [Old "older"] /\
  (exists fs, all_files (file_path log_txt) d fs /\ fs = [[Old "older"]; [Old "newest"]]).
Proof. exact rotate_fails_example. Qed.

(** C86 *)
Theorem logger_files_contain_everything : forall P K M (peqb : P -> P -> bool) (path : K -> nat -> P) (ltb : K -> K -> bool),
  (forall p q, peqb p q = true <-> p = q) -> strict_total_order ltb -> separate path ->
  forall (L R : nat -> Prop) (H : bool -> Prop) limit lvl max flush clock d0 tr1 (s1 : @logger K M) d1 s2 tr2 s d k fs0, (forall n, L n -> n = limit) ->
  system peqb path L R H ltb (initial lvl max flush clock) d0 tr1 s1 d1 -> step ltb s1 EDestroy s2 ->
  system peqb path L R H ltb s2 d1 tr2 s d -> dtor s = DDone -> ~ In (EFail k) tr2 ->
  all_files (path k) d0 fs0 -> (forall i, limit < i -> d0 (path k i) = None) ->
  exists fs, all_files (path k) d fs /\ suffix_of (all_lines fs) (all_lines fs0 ++ accepted_for ltb k (tr1 ++ EDestroy :: tr2)) /\
    ((forall n, R n -> n = 0) -> all_lines fs = all_lines fs0 ++ accepted_for ltb k (tr1 ++ EDestroy :: tr2)).
Proof. exact @all_logged_proof. Qed.
Print Assumptions logger_files_contain_everything.

(** C87 *)
Theorem numbered_path_zero : forall p, file_path p 0 = p.
Proof. exact path_zero_proof. Qed.
Print Assumptions numbered_path_zero.
Theorem numbered_paths_differ : forall p i j, file_path p i = file_path p j -> i = j.
Proof. exact path_inj_proof. Qed.
Print Assumptions numbered_paths_differ.
Theorem numbered_paths_stay_in_the_directory : forall p i, directory (file_path p i) = directory p.
Proof. exact path_dir_proof. Qed.
Print Assumptions numbered_paths_stay_in_the_directory.
Theorem numbered_path_name : forall p i, filename p <> dots -> 0 < i ->
  extension (filename (file_path p i)) = extension (filename p) /\
  stem (filename (file_path p i)) = stem (filename p) ++ number_mark i.
Proof. exact path_name_proof. Qed.
Print Assumptions numbered_path_name.
Theorem numbered_paths_of_different_logs_differ : forall p q i j, filename p <> dots -> filename q <> dots ->
  ~ numbered (stem (filename p)) -> ~ numbered (stem (filename q)) -> file_path p i = file_path q j -> p = q /\ i = j.
Proof. exact path_separate_proof. Qed.
Print Assumptions numbered_paths_of_different_logs_differ.
Example numbered_ex : file_path (chars "/v/log.txt") 12 = chars "/v/log_12.txt" /\ file_path (chars "/a.b/.log") 3 = chars "/a.b/.log_3" /\
  ~ numbered (stem (filename (chars "/v/log.txt"))) /\ filename (chars "/v/log.txt") <> dots.
Proof. exact numbered_example. Qed.

(** C88 *)
Theorem logs_with_numbered_names_refuted : exists (d : @disk (list ascii) nat) c' d', log_txt <> log_1_txt /\ d log_1_txt = Some [Old "other log"] /\
  rotate path_eqb (file_path log_txt) always 5 4 0 d = (Done, c', d') /\
  d' log_1_txt <> d log_1_txt /\ d' (chars "/v/log_2.txt") = Some [Old "other log"].
Proof. exact overlap. Qed.
Print Assumptions logs_with_numbered_names_refuted.
(** writing to one log file, with rotation, does not touch the current file of another whose name is not numbered *)
Theorem logs_leave_others_alone_partial : forall E p q fuel rsize header (l : list (item E)) d o n d',
  p <> q -> filename p <> dots -> ~ numbered (stem (filename q)) ->
  write_batch path_eqb (file_path p) fuel rsize header l d = (o, n, d') -> d' q = d q.
Proof. exact @other_current_proof. Qed.
Print Assumptions logs_leave_others_alone_partial.
(** nor any of its files if neither name is numbered *)
Theorem logs_leave_others_files_alone_partial : forall E p q fuel rsize header (l : list (item E)) d o n d' i,
  p <> q -> filename p <> dots -> filename q <> dots -> ~ numbered (stem (filename p)) -> ~ numbered (stem (filename q)) ->
  write_batch path_eqb (file_path p) fuel rsize header l d = (o, n, d') -> d' (file_path q i) = d (file_path q i).
Proof. exact @other_files_proof. Qed.
Print Assumptions logs_leave_others_files_alone_partial.
Example logs_leave_others_alone_ex : exists d', chars "/v/log.txt" <> chars "/v/log1.txt" /\ filename (chars "/v/log.txt") <> dots /\
  ~ numbered (stem (filename (chars "/v/log1.txt"))) /\
  write_batch path_eqb (file_path (chars "/v/log.txt")) 10 5 false [@Item nat 7 "H" "line" 2 always]
    (one_disk [(chars "/v/log.txt", "full file"%string); (chars "/v/log1.txt", "other log"%string)]) = (Done, 1, d') /\
  d' (chars "/v/log_1.txt") = Some [Old "full file"] /\ d' (chars "/v/log1.txt") = Some [Old "other log"].
Proof. exact no_overlap. Qed.

(** C89 *)
Theorem rotation_respects_the_limit : forall P E (peqb : P -> P -> bool), (forall p q, peqb p q = true <-> p = q) ->
  forall path : nat -> P, (forall i j, path i = path j -> i = j) ->
  forall ok limit fuel c d c' d', rotate peqb path ok limit fuel c d = (Done, c', d') ->
  (forall i, d (path (S i)) <> None -> d (path i) <> None :> option (list (chunk E))) -> (exists i, d (path i) = None) ->
  forall i, limit < i -> d' (path i) = None.
Proof. exact @gapless_proof. Qed.
Print Assumptions rotation_respects_the_limit.
Theorem rotation_leaves_files_after_a_gap_refuted : exists (d : @disk (list ascii) nat) c' d',
  rotate path_eqb (file_path log_txt) always 1 4 0 d = (Done, c', d') /\ d log_1_txt = None /\ d' (chars "/v/log_2.txt") = Some [Old "stale"].
Proof. exact stale_files. Qed.
Print Assumptions rotation_leaves_files_after_a_gap_refuted.
Example rotation_limit_zero_ex : exists (d : @disk (list ascii) nat) c' d', d log_txt = Some [Old "a"] /\
  rotate path_eqb (file_path log_txt) always 0 4 0 d = (Done, c', d') /\ forall i, d' (file_path log_txt i) = None.
Proof. exact limit_zero. Qed.

(** C90 *)
Theorem logger_files_begin_with_a_header : forall P K M (peqb : P -> P -> bool) (path : K -> nat -> P) (ltb : K -> K -> bool),
  (forall p q, peqb p q = true <-> p = q) -> strict_total_order ltb -> separate path ->
  forall (L R : nat -> Prop) (H : bool -> Prop) lvl max flush clock d0 tr (s : @logger K M) d, (forall b, H b -> b = true) ->
  system peqb path L R H ltb (initial lvl max flush clock) d0 tr s d ->
  (forall k i c, d0 (path k i) = Some c -> headed c) -> forall k i c, d (path k i) = Some c -> headed c.
Proof. exact @headed_proof. Qed.
Print Assumptions logger_files_begin_with_a_header.

(** C91.  [l] lists all existing files. *)
Theorem rotation_terminates : forall P E (peqb : P -> P -> bool), (forall p q, peqb p q = true <-> p = q) ->
  forall path : nat -> P, (forall i j, path i = path j -> i = j) ->
  forall ok limit c (d : @disk P E) l, (forall p, d p <> None -> In p l) ->
  fst (fst (rotate peqb path ok limit (S (List.length l)) c d)) <> NoFuel /\
  ((forall c, ok c = true) -> fst (fst (rotate peqb path ok limit (S (List.length l)) c d)) = Done).
Proof. exact @rotate_finite. Qed.
Print Assumptions rotation_terminates.
Theorem logger_writes_whole_batches : forall P E (peqb : P -> P -> bool), (forall p q, peqb p q = true <-> p = q) ->
  forall path : nat -> P, (forall i j, path i = path j -> i = j) ->
  forall fuel rsize header (l : list (item E)) d b, (forall i c, In i l -> i_ok i c = true) ->
  (forall i, b <= i -> d (path i) = None) -> S b + List.length l < fuel ->
  fst (fst (write_batch peqb path fuel rsize header l d)) = Done.
Proof. exact @write_batch_done. Qed.
Print Assumptions logger_writes_whole_batches.

(** C92 *)
Theorem logger_failing_write_loses_entries_refuted : exists l d', (forall x, In x l -> i_ok (fst x) = always) /\
  write_batch_io path_eqb (file_path log_txt) 10 0 false l (one_disk []) = (Done, List.length l, d') /\
  map (fun x => i_entry (fst x)) l = [1; 2] /\ d' log_txt = Some [Line 1 "0123456789"] /\ forall i, d' (file_path log_txt (S i)) = None.
Proof. exact disk_full. Qed.
Print Assumptions logger_failing_write_loses_entries_refuted.
Theorem logger_good_writes_lose_nothing : forall P E (peqb : P -> P -> bool) (path : nat -> P) fuel rsize header
  (l : list (item E * (nat -> bool))) d, (forall x i, In x l -> snd x i = true) ->
  write_batch_io peqb path fuel rsize header l d = write_batch peqb path fuel rsize header (map fst l) d.
Proof. exact @write_batch_io_good. Qed.
Print Assumptions logger_good_writes_lose_nothing.
(** without rotation: exactly the entries before the first failing write get to the file *)
Theorem logger_failing_write_loses_the_rest_partial : forall P E (peqb : P -> P -> bool) (path : nat -> P) fuel header
  (l1 l2 : list (item E * (nat -> bool))) x d,
  (forall y i, In y l1 -> snd y i = true) -> (forall i, snd x i = false) ->
  exists d', write_batch peqb path fuel 0 header (map fst l1) d = (Done, List.length l1, d') /\
  write_batch_io peqb path fuel 0 header (l1 ++ x :: l2) d = (Done, List.length (l1 ++ x :: l2), d').
Proof. exact @bad_stream_proof. Qed.
Print Assumptions logger_failing_write_loses_the_rest_partial.
(** one entry, with the stream in any state [good]: [c'] is the content of the file it is appended to, [fresh]
    whether that has just been started; [g] is the state of the stream afterwards *)
Theorem logger_failing_write_of_an_entry : forall P E (peqb : P -> P -> bool), (forall p q, peqb p q = true <-> p = q) ->
  forall path : nat -> P, (forall i j, path i = path j -> i = j) ->
  forall ok w fuel limit rsize (header good : bool) ht lt (e : E) d c g d',
  write_entry_io peqb path ok w fuel limit rsize header good ht lt e d = (Done, g, d') -> d (path 0) = Some c ->
  exists (fresh : bool) c' d1,
  (if fresh then c' = [] /\ rsize <> 0 /\ (good = false \/ rsize <= String.length (text_of c)) /\ exists m, run_of path d m /\ rotated path limit m d d1
   else c' = c /\ d1 = d /\ (rsize = 0 \/ good = true /\ String.length (text_of c) < rsize)) /\
  g = (if header && (fresh || good) && (String.length (text_of c') =? 0) then w 0 else fresh || good) && w 1 /\
  d' (path 0) = Some (c' ++ (if header && (fresh || good) && (String.length (text_of c') =? 0) && w 0 then [Head ht] else []) ++
    (if g then [Line e lt] else [])) /\
  (forall p, p <> path 0 -> d' p = d1 p).
Proof. exact @entry_io_spec. Qed.
Print Assumptions logger_failing_write_of_an_entry.
(** a batch, complete or interrupted, with any pattern of failing writes.  [es] are the entries written: with rotation,
    those whose own line (and header, if one is written) could be written; without, those up to the first that
    could not.  Nothing is dropped if the files fit the rotation limit. *)
Theorem logger_failing_writes_lose_no_others : forall P E (peqb : P -> P -> bool), (forall p q, peqb p q = true <-> p = q) ->
  forall path : nat -> P, (forall i j, path i = path j -> i = j) ->
  forall fixed fuel rsize header (l : list (item E * (nat -> bool))) d o n d' fs,
  (forall lim x, fixed = Some lim -> In x l -> i_limit (fst x) = lim) ->
  write_batch_io peqb path fuel rsize header l d = (o, n, d') -> all_files path d fs ->
  (o = Done -> n = List.length l) /\ exists es fs',
  (let entries := map (fun x => i_entry (fst x)) in
   let written := if rsize =? 0 then upto else @filter (item E * (nat -> bool)) in
   sublist (entries (written (fun x => (negb header || snd x 0) && snd x 1) (firstn n l))) es /\
   sublist es (entries (written (fun x => snd x 1) (firstn n l)))) /\
  all_files path d' fs' /\ sublist (all_lines fs') (all_lines fs ++ es) /\
  (forall lim, fixed = Some lim -> (forall i, lim < i -> d (path i) = None) -> suffix_of (all_lines fs') (all_lines fs ++ es)) /\
  (rsize = 0 -> all_lines fs' = all_lines fs ++ es) /\
  (forall b, (forall i, b <= i -> d (path i) = None) -> (forall x, In x l -> b + List.length l < i_limit (fst x)) ->
    all_lines fs' = all_lines fs ++ es).
Proof. exact @failing_batch_proof. Qed.
Print Assumptions logger_failing_writes_lose_no_others.
Example failing_writes_ex : exists l d', List.length l = 4 /\ (forall x, In x l -> i_ok (fst x) = always /\ i_limit (fst x) = 5) /\
  write_batch_io path_eqb (file_path log_txt) 10 1000 true l (one_disk []) = (Done, List.length l, d') /\
  map (fun x => i_entry (fst x)) (filter (fun x => snd x 1) l) = [1; 3; 4] /\
  map (fun x => i_entry (fst x)) (filter (fun x => (negb true || snd x 0) && snd x 1) l) = [1; 4] /\
  all_files (file_path log_txt) (one_disk []) [] /\
  d' log_txt = Some [Head "H"; Line 4 "0123456789"] /\ d' (file_path log_txt 1) = Some [] /\ d' (file_path log_txt 2) = Some [Head "H"; Line 1 "0123456789"].
Proof. exact failing_example. Qed.
(** with rotation: the entry after the lost one rotates the file although it is far smaller than the rotation size *)
Theorem logger_rotates_only_large_files_refuted : exists l d', (forall x, In x l -> i_ok (fst x) = always) /\
  write_batch_io path_eqb (file_path log_txt) 10 1000 false l (one_disk []) = (Done, List.length l, d') /\
  map (fun x => i_entry (fst x)) l = [1; 2; 3] /\ d' log_txt = Some [Line 3 "0123456789"] /\
  d' (file_path log_txt 1) = Some [Line 1 "0123456789"].
Proof. exact small_rotated. Qed.
Print Assumptions logger_rotates_only_large_files_refuted.

(** C93 *)
Theorem logger_touches_only_its_files : forall P K M (peqb : P -> P -> bool) (path : K -> nat -> P) (ltb : K -> K -> bool),
  (forall p q, peqb p q = true <-> p = q) -> strict_total_order ltb -> separate path ->
  forall (L R : nat -> Prop) (H : bool -> Prop) lvl max flush clock d0 tr (s : @logger K M) d p,
  system peqb path L R H ltb (initial lvl max flush clock) d0 tr s d -> (forall k i, p <> path k i) -> d p = d0 p.
Proof. exact @files_other_proof. Qed.
Print Assumptions logger_touches_only_its_files.
