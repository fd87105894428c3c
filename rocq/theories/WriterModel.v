(** Model of write_buffer_to_file (/repo/include/pluto/logger.hpp, 810-869) with writers of lines and headers that
    may throw, and of how it finds its file (819-839).  The disk is that of LogFileModel.v. *)
From Coq Require Import List Bool Arith String.
From Verif Require Import LogFileModel.
Import ListNotations.

(** what a call of log_writer() or header_writer() does: the text it writes, and whether it then throws a
    filesystem_error or another exception *)
Inductive writing := Wrote (t : string) | FsError (t : string) | OtherError (t : string).
(** how write_buffer_to_file ends: normally; with a filesystem_error that is caught (866); with another exception, which
    leaves the logging thread's function or the destructor, so that std::terminate is called *)
Inductive ending := Ended | Caught | Terminated | Unfinished.

Section Writer.
Context {P E : Type} (peqb : P -> P -> bool).
Notation disk := (@disk P E).
Record job := Job { j_entry : E; j_head : writing; j_line : writing; j_limit : nat; j_ok : nat -> bool }.

Definition add (path : nat -> P) (c : chunk E) (d : disk) : disk := append peqb (path 0) [c] d.
(** 854-863; the boolean: itWritten has been decremented (861) *)
Definition emit_w (path : nat -> P) (header : bool) (j : job) (d : disk) : ending * bool * disk :=
  let line (d : disk) :=
    match j_line j with
    | Wrote t => (Ended, true, add path (Line (j_entry j) t) d)
    | FsError t => (Caught, true, add path (Old t) d)
    | OtherError t => (Terminated, true, add path (Old t) d)
    end in
  if header && (size_at (path 0) d =? 0) then
    match j_head j with
    | Wrote t => line (add path (Head t) d)
    | FsError t => (Caught, false, add path (Old t) d)
    | OtherError t => (Terminated, false, add path (Old t) d)
    end
  else line d.
(** 841-863 *)
Definition write_entry_w (path : nat -> P) (fuel rsize : nat) (header : bool) (j : job) (d : disk) : ending * bool * disk :=
  if negb (rsize =? 0) && (rsize <=? size_at (path 0) d) then
    match rotate peqb path (j_ok j) (j_limit j) fuel 0 d with
    | (Done, c, d) => if j_ok j c then emit_w path header j (open_file peqb (path 0) d) else (Caught, false, d)
    | (Threw, _, d) => (Caught, false, d)
    | (NoFuel, _, d) => (Unfinished, false, d)
    end
  else emit_w path header j d.
(** the entries from the oldest on; the number of entries that itWritten has passed (they are erased from the buffer, 920) *)
Fixpoint write_all_w (path : nat -> P) (fuel rsize : nat) (header : bool) (l : list job) (d : disk) : ending * nat * disk :=
  match l with
  | [] => (Ended, 0, d)
  | j :: l =>
      match write_entry_w path fuel rsize header j d with
      | (Ended, _, d) => match write_all_w path fuel rsize header l d with (o, n, d) => (o, S n, d) end
      | (o, passed, d) => (o, if passed then 1 else 0, d)
      end
  end.
Definition write_batch_w (path : nat -> P) (fuel rsize : nat) (header : bool) (l : list job) (d : disk) : ending * nat * disk :=
  write_all_w path fuel rsize header l (open_file peqb (path 0) d).
End Writer.
Arguments job : clear implicits.

(** ** The file's path and directory, 819-839 and 352-353.  [D] are directories, [place cwd name] is the directory of
    filesystem::absolute(name), [made] the directories that exist.  create_directories and opening a file in an
    existing directory succeed. *)
Section Place.
Context {D N : Type} (deqb : D -> D -> bool) (place : D -> N -> D).
Record file_state := FileState { path_dir : option D (* filePath, empty at first *); dirs_created : bool }.
Definition new_file : file_state := FileState None false.
Definition is_made (d : D) (made : list D) : bool := existsb (deqb d) made.
(** the directory of the opened file, or None if opening fails *)
Definition open_at (create_dirs : bool) (cwd : D) (name : N) (f : file_state) (made : list D) : option D * file_state * list D :=
  let dir := match path_dir f with Some d => d | None => place cwd name end in
  let create := create_dirs && negb (dirs_created f) in
  let made := if create then dir :: made else made in
  (if is_made dir made then Some dir else None, FileState (Some dir) (dirs_created f || create), made).

(** what happens to one log file: batches are written, and the rest of the program changes the setting, the working
    directory and the directories *)
Inductive happening := WriteBatch | SetCreateDirs (b : bool) | ChangeDir (d : D) | MakeDir (d : D) | RemoveDir (d : D).
Record place_state := PlaceState { p_file : file_state; p_create : bool; p_cwd : D; p_made : list D; p_opened : list (option D) (* results of the batches *) }.
Definition happen (name : N) (h : happening) (s : place_state) : place_state :=
  match h with
  | WriteBatch =>
      match open_at (p_create s) (p_cwd s) name (p_file s) (p_made s) with
      | (r, f, made) => PlaceState f (p_create s) (p_cwd s) made (p_opened s ++ [r])
      end
  | SetCreateDirs b => PlaceState (p_file s) b (p_cwd s) (p_made s) (p_opened s)
  | ChangeDir d => PlaceState (p_file s) (p_create s) d (p_made s) (p_opened s)
  | MakeDir d => PlaceState (p_file s) (p_create s) (p_cwd s) (d :: p_made s) (p_opened s)
  | RemoveDir d => PlaceState (p_file s) (p_create s) (p_cwd s) (filter (fun x => negb (deqb d x)) (p_made s)) (p_opened s)
  end.
Definition happens (name : N) (hs : list happening) (s : place_state) : place_state := fold_left (fun s h => happen name h s) hs s.
End Place.
