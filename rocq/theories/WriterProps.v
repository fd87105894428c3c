(** Properties C107-C111: writers that throw, and where the files are. *)
From Coq Require Import List Bool Arith String.
From Verif Require Import LoggerModel LoggerSpec LogFileModel LogFileSpec WriterModel WriterSpec WriterProofs WriterExamples.
Import ListNotations.
Open Scope string_scope.

(** C107.  [n] entries leave the buffer; the lines of the first [k] are added to the file. *)
Theorem batch_entries_are_in_the_file_refuted : exists d',
  write_batch_w Nat.eqb the_path 1 0 true [plain 1 (Wrote "a"); plain 2 (FsError "b"); plain 3 (Wrote "c")] no_files = (Caught, 2, d') /\
  d' 0 = Some [Head "header"; Line 1 "a"; Old "b"].
Proof. exact lost_entry. Qed.
Print Assumptions batch_entries_are_in_the_file_refuted.
Theorem batch_loses_only_the_entry_that_threw : forall P E (peqb : P -> P -> bool), (forall p q, peqb p q = true <-> p = q) ->
  forall path fuel header (l : list (job E)) d o n d', write_batch_w peqb path fuel 0 header l d = (o, n, d') ->
  exists c1 k, d' (path 0) = Some (match d (path 0) with Some c => c | None => [] end ++ c1)%list /\ lines_of c1 = map j_entry (firstn k l) /\
  n <= List.length l /\ (o = Ended -> n = List.length l) /\
  (n = k \/ n = S k /\ o <> Ended /\ exists j, nth_error l k = Some j /\ forall t, j_line j <> Wrote t).
Proof. exact @batch_lines. Qed.
Print Assumptions batch_loses_only_the_entry_that_threw.
Theorem batch_entries_are_in_the_file_partial : forall P E (peqb : P -> P -> bool), (forall p q, peqb p q = true <-> p = q) ->
  forall path fuel header (l : list (job E)) d o n d', (forall j, In j l -> exists t, j_line j = Wrote t) ->
  write_batch_w peqb path fuel 0 header l d = (o, n, d') ->
  exists c1, d' (path 0) = Some (match d (path 0) with Some c => c | None => [] end ++ c1)%list /\ lines_of c1 = map j_entry (firstn n l).
Proof. exact @batch_good. Qed.
Print Assumptions batch_entries_are_in_the_file_partial.
(** the same with rotation: what is in the files afterwards, as in C65 *)
Theorem rotating_batch_loses_only_the_entry_that_threw : forall P E (peqb : P -> P -> bool), (forall p q, peqb p q = true <-> p = q) ->
  forall path : nat -> P, (forall i j, path i = path j -> i = j) ->
  forall fixed fuel rsize header (l : list (job E)) d o n d', (forall lim j, fixed = Some lim -> In j l -> j_limit j = lim) ->
  write_batch_w peqb path fuel rsize header l d = (o, n, d') ->
  exists k,
  ((forall fs, all_files path d fs -> exists fs', all_files path d' fs' /\
     sublist (all_lines fs') (all_lines fs ++ map j_entry (firstn k l)) /\
     (forall lim, fixed = Some lim -> (forall i, lim < i -> d (path i) = None) ->
       suffix_of (all_lines fs') (all_lines fs ++ map j_entry (firstn k l))) /\
     (rsize = 0 -> all_lines fs' = (all_lines fs ++ map j_entry (firstn k l))%list)) /\
   (forall lim, fixed = Some lim -> forall i, lim < i -> d (path i) = None -> d' (path i) = None) /\
   (forall p, (forall j, p <> path j) -> d' p = d p)) /\
  n <= List.length l /\ (o = Ended -> n = List.length l) /\
  (n = k \/ n = S k /\ o <> Ended /\ exists j, nth_error l k = Some j /\ forall t, j_line j <> Wrote t).
Proof. exact @batch_kept_w. Qed.
Print Assumptions rotating_batch_loses_only_the_entry_that_threw.
Theorem rotating_batch_entries_are_in_the_files_partial : forall P E (peqb : P -> P -> bool), (forall p q, peqb p q = true <-> p = q) ->
  forall path : nat -> P, (forall i j, path i = path j -> i = j) ->
  forall fixed fuel rsize header (l : list (job E)) d o n d', (forall lim j, fixed = Some lim -> In j l -> j_limit j = lim) ->
  (forall j, In j l -> exists t, j_line j = Wrote t) -> write_batch_w peqb path fuel rsize header l d = (o, n, d') ->
  (forall fs, all_files path d fs -> exists fs', all_files path d' fs' /\
     sublist (all_lines fs') (all_lines fs ++ map j_entry (firstn n l)) /\
     (forall lim, fixed = Some lim -> (forall i, lim < i -> d (path i) = None) ->
       suffix_of (all_lines fs') (all_lines fs ++ map j_entry (firstn n l))) /\
     (rsize = 0 -> all_lines fs' = (all_lines fs ++ map j_entry (firstn n l))%list)) /\
   (forall lim, fixed = Some lim -> forall i, lim < i -> d (path i) = None -> d' (path i) = None) /\
   (forall p, (forall j, p <> path j) -> d' p = d p).
Proof. exact @batch_kept_good. Qed.
Print Assumptions rotating_batch_entries_are_in_the_files_partial.
Example rotating_batch_ex : exists d', write_batch_w Nat.eqb the_path 5 3 true [limited 1 (Wrote "aa"); limited 2 (Wrote "bb"); limited 3 (FsError "cc")] no_files = (Caught, 3, d') /\
  d' 0 = Some [Head "header"; Old "cc"] /\ d' 1 = Some [Head "header"; Line 2 "bb"] /\ d' 2 = Some [Head "header"; Line 1 "aa"] /\ d' 3 = None.
Proof. exact rotating_loss. Qed.
(** without exceptions the batches are those of C65, C85, C86, ... also with rotation *)
Theorem writers_that_do_not_throw : forall P E (peqb : P -> P -> bool) path fuel rsize header (l : list (job E)) d,
  (forall j, In j l -> exists t u, j_head j = Wrote t /\ j_line j = Wrote u) ->
  write_batch_w peqb path fuel rsize header l d =
  match write_batch peqb path fuel rsize header (map item_of l) d with (o, n, d') => (ending_of o, n, d') end.
Proof. exact @batch_plain. Qed.
Print Assumptions writers_that_do_not_throw.
Example batch_entries_ex : exists d', write_batch_w Nat.eqb the_path 1 0 true [plain 1 (Wrote "a"); plain 2 (Wrote "b")] no_files = (Ended, 2, d') /\
  d' 0 = Some [Head "header"; Line 1 "a"; Line 2 "b"].
Proof. exact good_batch. Qed.

(** C108 *)
Theorem writer_exceptions_are_contained_refuted : forall P E (peqb : P -> P -> bool) path fuel header (l1 : list (job E)) j t l2 d,
  (forall i, In i l1 -> exists u v, j_head i = Wrote u /\ j_line i = Wrote v) -> (exists u, j_head j = Wrote u) -> j_line j = OtherError t ->
  exists d', write_batch_w peqb path fuel 0 header (l1 ++ j :: l2) d = (Terminated, S (List.length l1), d').
Proof. exact @terminates_always. Qed.
Print Assumptions writer_exceptions_are_contained_refuted.
Theorem header_writer_exceptions_are_contained_refuted : forall P E (peqb : P -> P -> bool), (forall p q, peqb p q = true <-> p = q) ->
  forall path fuel (j : job E) t l d, d (path 0) = None \/ d (path 0) = Some [] -> j_head j = OtherError t ->
  exists d', write_batch_w peqb path fuel 0 true (j :: l) d = (Terminated, 0, d').
Proof. exact @header_terminates. Qed.
Print Assumptions header_writer_exceptions_are_contained_refuted.
Example header_writer_exceptions_ex : exists d', write_batch_w Nat.eqb the_path 1 0 true [Job 1 (OtherError "hea") (Wrote "a") 0 ok_always] no_files = (Terminated, 0, d') /\
  d' 0 = Some [Old "hea"].
Proof. exact terminated_by_header. Qed.
Theorem writer_exceptions_are_contained_partial : forall P E (peqb : P -> P -> bool) path fuel rsize header (l : list (job E)) d n d',
  (forall j, In j l -> only_fs (j_head j) /\ only_fs (j_line j)) -> write_batch_w peqb path fuel rsize header l d <> (Terminated, n, d').
Proof. exact @terminates_only. Qed.
Print Assumptions writer_exceptions_are_contained_partial.
Example writer_exceptions_ex : exists d', write_batch_w Nat.eqb the_path 1 0 true [plain 1 (Wrote "a"); plain 2 (OtherError "")] no_files = (Terminated, 2, d').
Proof. exact terminated. Qed.

(** C109 *)
Theorem failed_header_is_written_again_refuted : exists d1 d2,
  write_batch_w Nat.eqb the_path 1 0 true [Job 1 (FsError "hea") (Wrote "a") 0 ok_always] no_files = (Caught, 0, d1) /\
  write_batch_w Nat.eqb the_path 1 0 true [plain 1 (Wrote "a")] d1 = (Ended, 1, d2) /\ d2 0 = Some [Old "hea"; Line 1 "a"].
Proof. exact broken_header. Qed.
Print Assumptions failed_header_is_written_again_refuted.
Theorem failed_header_keeps_the_file_empty_partial : forall P E (peqb : P -> P -> bool), (forall p q, peqb p q = true <-> p = q) ->
  forall path fuel (j : job E) l d, d (path 0) = None \/ d (path 0) = Some [] -> j_head j = FsError "" ->
  exists d', write_batch_w peqb path fuel 0 true (j :: l) d = (Caught, 0, d') /\ size_at (path 0) d' = 0 /\ d' (path 0) <> None.
Proof. exact @head_again. Qed.
Print Assumptions failed_header_keeps_the_file_empty_partial.
(** with rotation: at the beginning of a batch, and after rotating *)
Theorem failed_header_keeps_the_file_empty_rotating_partial : forall P E (peqb : P -> P -> bool), (forall p q, peqb p q = true <-> p = q) ->
  forall (path : nat -> P) fuel rsize (j : job E) l d, size_at (path 0) d = 0 -> j_head j = FsError "" ->
  exists d', write_batch_w peqb path fuel rsize true (j :: l) d = (Caught, 0, d') /\ size_at (path 0) d' = 0 /\ d' (path 0) <> None.
Proof. exact @head_again_rotating. Qed.
Print Assumptions failed_header_keeps_the_file_empty_rotating_partial.
Theorem failed_header_after_rotation_partial : forall P E (peqb : P -> P -> bool), (forall p q, peqb p q = true <-> p = q) ->
  forall path : nat -> P, (forall i j, path i = path j -> i = j) ->
  forall fuel rsize (j : job E) l d c1 d1, 0 < rsize <= size_at (path 0) d -> j_head j = FsError "" ->
  rotate peqb path (j_ok j) (j_limit j) fuel 0 d = (Done, c1, d1) -> j_ok j c1 = true ->
  exists d' m, write_batch_w peqb path fuel rsize true (j :: l) d = (Caught, 0, d') /\ size_at (path 0) d' = 0 /\ d' (path 0) <> None /\
  run_of path d m /\ rotated path (j_limit j) m d d1 /\ forall p, p <> path 0 -> d' p = d1 p.
Proof. exact @head_again_rotated. Qed.
Print Assumptions failed_header_after_rotation_partial.
Theorem header_is_written_to_an_empty_file_rotating : forall P E (peqb : P -> P -> bool), (forall p q, peqb p q = true <-> p = q) ->
  forall (path : nat -> P) fuel rsize (j : job E) l d t u, size_at (path 0) d = 0 -> j_head j = Wrote t -> j_line j = Wrote u ->
  exists d1 c, d1 (path 0) = Some (c ++ [Head t; Line (j_entry j) u])%list /\ size c = 0 /\ (forall p, p <> path 0 -> d1 p = d p) /\
  write_batch_w peqb path fuel rsize true (j :: l) d = match write_batch_w peqb path fuel rsize true l d1 with (o, n, d') => (o, S n, d') end.
Proof. exact @head_first_rotating. Qed.
Print Assumptions header_is_written_to_an_empty_file_rotating.
Example failed_header_rotating_ex : exists d1 d2,
  write_batch_w Nat.eqb the_path 5 3 true [limited 1 (Wrote "aa"); Job 2 (FsError "") (Wrote "bb") 2 ok_always; limited 3 (Wrote "cc")] no_files = (Caught, 1, d1) /\
  d1 0 = Some [Old ""] /\ d1 1 = Some [Head "header"; Line 1 "aa"] /\ size_at 0 d1 = 0 /\
  write_batch_w Nat.eqb the_path 5 3 true [limited 2 (Wrote "bb")] d1 = (Ended, 1, d2) /\ d2 0 = Some [Old ""; Head "header"; Line 2 "bb"] /\ d2 1 = d1 1.
Proof. exact header_rotating. Qed.
Theorem header_is_written_to_an_empty_file : forall P E (peqb : P -> P -> bool), (forall p q, peqb p q = true <-> p = q) ->
  forall path fuel (j : job E) l d t u, size_at (path 0) d = 0 -> d (path 0) <> None -> j_head j = Wrote t -> j_line j = Wrote u ->
  exists o n d' c c', write_batch_w peqb path fuel 0 true (j :: l) d = (o, n, d') /\ d (path 0) = Some c /\ size c = 0 /\
  d' (path 0) = Some (c ++ Head t :: Line (j_entry j) u :: c')%list.
Proof. exact @head_first. Qed.
Print Assumptions header_is_written_to_an_empty_file.
Example failed_header_ex : exists d1 d2, write_batch_w Nat.eqb the_path 1 0 true [Job 1 (FsError "") (Wrote "a") 0 ok_always] no_files = (Caught, 0, d1) /\
  write_batch_w Nat.eqb the_path 1 0 true [plain 1 (Wrote "a")] d1 = (Ended, 1, d2) /\ d2 0 = Some [Old ""; Head "header"; Line 1 "a"].
Proof. exact header_again. Qed.

(** C110.  The results of the batches are the directory of the opened file or a failure. *)
Theorem log_file_stays_where_it_was_first_written : forall D N (deqb : D -> D -> bool) (place : D -> N -> D) name hs s, p_file s = new_file ->
  exists r, p_opened (happens deqb place name hs s) = (p_opened s ++ r)%list /\ List.length r = batches hs /\
  forall x, In x r -> x = None \/ x = Some (place (first_cwd (p_cwd s) hs) name).
Proof. exact @place_proof. Qed.
Print Assumptions log_file_stays_where_it_was_first_written.
Example log_file_stays_ex :
  p_opened (happens Nat.eqb Nat.add 10 [ChangeDir 2; WriteBatch; ChangeDir 3; WriteBatch; SetCreateDirs false; WriteBatch] (start_in 1 true)) = [Some 12; Some 12; Some 12].
Proof. exact late_resolution. Qed.

(** C111 *)
Theorem create_dirs_lets_every_batch_open_refuted :
  p_opened (happens Nat.eqb Nat.add 10 [WriteBatch; RemoveDir 11; WriteBatch; WriteBatch] (start_in 1 true)) = [Some 11; None; None].
Proof. exact removed. Qed.
Print Assumptions create_dirs_lets_every_batch_open_refuted.
(** from the first batch that is written with create_dirs set *)
Theorem create_dirs_lets_every_batch_open_partial : forall D N (deqb : D -> D -> bool), (forall a b, deqb a b = true <-> a = b) ->
  forall (place : D -> N -> D) name hs1 hs2 s, p_file s = new_file -> no_creating_batch (p_create s) hs1 -> creating (p_create s) hs1 = true ->
  Forall (keeps_dir (place (first_cwd (p_cwd s) (hs1 ++ [WriteBatch])) name)) hs2 ->
  p_opened (happens deqb place name (hs1 ++ WriteBatch :: hs2) s) =
    (p_opened (happens deqb place name hs1 s) ++ repeat (Some (place (first_cwd (p_cwd s) (hs1 ++ [WriteBatch])) name)) (S (batches hs2)))%list.
Proof. exact @directory_proof. Qed.
Print Assumptions create_dirs_lets_every_batch_open_partial.
Theorem without_create_dirs_no_directory_is_made : forall D N (deqb : D -> D -> bool) (place : D -> N -> D) name hs s,
  p_file s = new_file -> no_creating_batch (p_create s) hs ->
  forall d, In d (p_made (happens deqb place name hs s)) -> In d (p_made s) \/ In (MakeDir d) hs.
Proof. exact @no_directory. Qed.
Print Assumptions without_create_dirs_no_directory_is_made.
Example create_dirs_ex : no_creating_batch false [WriteBatch; SetCreateDirs true; ChangeDir 7] /\
  p_opened (happens Nat.eqb Nat.add 10 ([WriteBatch; SetCreateDirs true; ChangeDir 7] ++ [WriteBatch; WriteBatch]) (start_in 1 false)) = [None; Some 11; Some 11].
Proof. exact created_later. Qed.
