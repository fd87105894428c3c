(** Concrete batches with writers that throw, and directories. *)
From Coq Require Import List Bool Arith String.
From Verif Require Import LogFileModel LogFileSpec WriterModel WriterSpec WriterProofs.
Import ListNotations.
Open Scope string_scope.

Definition the_path (i : nat) : nat := i.
Definition ok_always (_ : nat) : bool := true.
Definition plain (e : nat) (w : writing) : job nat := Job e (Wrote "header") w 0 ok_always.
Definition no_files : @disk nat nat := fun _ => None.
(** the second log writer throws a filesystem_error: entry 2 is counted as written, but it is not in the file *)
Lemma lost_entry : exists d', write_batch_w Nat.eqb the_path 1 0 true [plain 1 (Wrote "a"); plain 2 (FsError "b"); plain 3 (Wrote "c")] no_files = (Caught, 2, d') /\
  d' 0 = Some [Head "header"; Line 1 "a"; Old "b"].
Proof. eexists. split; reflexivity. Qed.
Lemma terminated : exists d', write_batch_w Nat.eqb the_path 1 0 true [plain 1 (Wrote "a"); plain 2 (OtherError "")] no_files = (Terminated, 2, d').
Proof. eexists. reflexivity. Qed.
Lemma terminated_by_header : exists d', write_batch_w Nat.eqb the_path 1 0 true [Job 1 (OtherError "hea") (Wrote "a") 0 ok_always] no_files = (Terminated, 0, d') /\
  d' 0 = Some [Old "hea"].
Proof. eexists. split; reflexivity. Qed.
(** a header that fails half-way is never completed *)
Lemma broken_header : exists d1 d2, write_batch_w Nat.eqb the_path 1 0 true [Job 1 (FsError "hea") (Wrote "a") 0 ok_always] no_files = (Caught, 0, d1) /\
  write_batch_w Nat.eqb the_path 1 0 true [plain 1 (Wrote "a")] d1 = (Ended, 1, d2) /\ d2 0 = Some [Old "hea"; Line 1 "a"].
Proof. eexists. eexists. repeat split. Qed.
Lemma good_batch : exists d', write_batch_w Nat.eqb the_path 1 0 true [plain 1 (Wrote "a"); plain 2 (Wrote "b")] no_files = (Ended, 2, d') /\
  d' 0 = Some [Head "header"; Line 1 "a"; Line 2 "b"].
Proof. eexists. split; reflexivity. Qed.
Lemma header_again : exists d1 d2, write_batch_w Nat.eqb the_path 1 0 true [Job 1 (FsError "") (Wrote "a") 0 ok_always] no_files = (Caught, 0, d1) /\
  write_batch_w Nat.eqb the_path 1 0 true [plain 1 (Wrote "a")] d1 = (Ended, 1, d2) /\ d2 0 = Some [Old ""; Head "header"; Line 1 "a"].
Proof. eexists. eexists. repeat split. Qed.
(** with rotation: files of at least 3 characters are rotated, at most 2 are kept *)
Definition limited (e : nat) (w : writing) : job nat := Job e (Wrote "header") w 2 ok_always.
Lemma rotating_loss : exists d', write_batch_w Nat.eqb the_path 5 3 true [limited 1 (Wrote "aa"); limited 2 (Wrote "bb"); limited 3 (FsError "cc")] no_files = (Caught, 3, d') /\
  d' 0 = Some [Head "header"; Old "cc"] /\ d' 1 = Some [Head "header"; Line 2 "bb"] /\ d' 2 = Some [Head "header"; Line 1 "aa"] /\ d' 3 = None.
Proof. eexists. repeat split. Qed.
Lemma header_rotating : exists d1 d2,
  write_batch_w Nat.eqb the_path 5 3 true [limited 1 (Wrote "aa"); Job 2 (FsError "") (Wrote "bb") 2 ok_always; limited 3 (Wrote "cc")] no_files = (Caught, 1, d1) /\
  d1 0 = Some [Old ""] /\ d1 1 = Some [Head "header"; Line 1 "aa"] /\ size_at 0 d1 = 0 /\
  write_batch_w Nat.eqb the_path 5 3 true [limited 2 (Wrote "bb")] d1 = (Ended, 1, d2) /\ d2 0 = Some [Old ""; Head "header"; Line 2 "bb"] /\ d2 1 = d1 1.
Proof. eexists. eexists. repeat split. Qed.

(** the working directory is 1; names are resolved to directory cwd + name *)
Definition start_in (cwd : nat) (create : bool) : @place_state nat := PlaceState new_file create cwd [] [].
Lemma removed : p_opened (happens Nat.eqb Nat.add 10 [WriteBatch; RemoveDir 11; WriteBatch; WriteBatch] (start_in 1 true)) = [Some 11; None; None].
Proof. reflexivity. Qed.
Lemma late_resolution : p_opened (happens Nat.eqb Nat.add 10 [ChangeDir 2; WriteBatch; ChangeDir 3; WriteBatch; SetCreateDirs false; WriteBatch] (start_in 1 true)) = [Some 12; Some 12; Some 12].
Proof. reflexivity. Qed.
Lemma created_later : no_creating_batch false [WriteBatch; SetCreateDirs true; ChangeDir 7] /\
  p_opened (happens Nat.eqb Nat.add 10 ([WriteBatch; SetCreateDirs true; ChangeDir 7] ++ [WriteBatch; WriteBatch]) (start_in 1 false)) = [None; Some 11; Some 11].
Proof. repeat split. Qed.
