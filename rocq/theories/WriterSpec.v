(** Specification vocabulary for writers that throw and for the place of the file. *)
From Coq Require Import List String.
From Verif Require Import LogFileModel WriterModel.

(** the writer throws nothing but filesystem_error *)
Definition only_fs (w : writing) : Prop := forall t, w <> OtherError t.
(** what LogFileModel.v says of writers that do not throw *)
Definition text_of (w : writing) : string := match w with Wrote t | FsError t | OtherError t => t end.
Definition item_of {E} (j : job E) : item E := Item _ (j_entry j) (text_of (j_head j)) (text_of (j_line j)) (j_limit j) (j_ok j).
Definition ending_of (o : outcome) : ending := match o with Done => Ended | Threw => Caught | NoFuel => Unfinished end.
(** the working directory at the time of the first batch *)
Fixpoint first_cwd {D} (cwd : D) (hs : list (@happening D)) : D :=
  match hs with nil => cwd | cons WriteBatch _ => cwd | cons (ChangeDir d) hs => first_cwd d hs | cons _ hs => first_cwd cwd hs end.
(** the setting create_dirs in the end *)
Fixpoint creating {D} (b : bool) (hs : list (@happening D)) : bool :=
  match hs with nil => b | cons (SetCreateDirs b) hs => creating b hs | cons _ hs => creating b hs end.
(** no batch is written while create_dirs is set *)
Fixpoint no_creating_batch {D} (b : bool) (hs : list (@happening D)) : Prop :=
  match hs with
  | nil => True
  | cons WriteBatch hs => b = false /\ no_creating_batch b hs
  | cons (SetCreateDirs b) hs => no_creating_batch b hs
  | cons _ hs => no_creating_batch b hs
  end.
(** the directory [d] is not removed *)
Definition keeps_dir {D} (d : D) (h : @happening D) : Prop := h <> RemoveDir d.
(** the number of batches *)
Fixpoint batches {D} (hs : list (@happening D)) : nat :=
  match hs with nil => 0 | cons WriteBatch hs => S (batches hs) | cons _ hs => batches hs end.
