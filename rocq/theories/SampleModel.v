(** Model of the writers of lines and headers in the example programs (/repo/examples): those of log_split_levels
    (log_split_levels.cpp, 20-61) and those of log_with_setters (log_with_setters.cpp, 24-37), which are also in
    log_with_macros (log_with_macros.cpp, 43-56).  The streams and entries are those of LogTextModel.v; [pid] is
    what process_id returns (platform.hpp, 38-45), a number.  [%] and duration_cast truncate. *)
From Coq Require Import Ascii String List Bool Arith ZArith.
From Verif Require Import Base LogTextModel.
Import ListNotations.
Open Scope list_scope.

(** log_split_levels.cpp, 20-40 *)
Definition split_ops (pid : Z) (e : log_line) : list op :=
  [Right; SetFill "0"; Raw (put_time (t_local e)); SetW 6; Num (Z.rem (t_micros e) 1000000); Str (chars "|");
   SetFill " "; SetW 7; Num pid; Str (chars "|"); SetW 7; Num (l_thread e); Str (chars "|");
   Left; SetW 20; Str (firstn 20 (file_name (l_file e))); Str (chars "|");
   Right; SetW 5; Num (l_line e); Str (chars "|");
   Left; SetW 20; Str (firstn 20 (l_function e)); Str (chars "|"); Str (l_message e)].
Definition split_log_writer (pid : Z) (e : log_line) (s : stream) : stream := write_ops (split_ops pid e) s.
(** log_split_levels.cpp, 42-61 *)
Definition split_header_ops : list op :=
  [Left; SetFill " "; SetW 26; Str (chars "Timestamp"); Str (chars "|"); SetW 7; Str (chars "PID"); Str (chars "|");
   SetW 7; Str (chars "TID"); Str (chars "|"); SetW 20; Str (chars "File Name"); Str (chars "|");
   SetW 5; Str (chars "Line"); Str (chars "|"); SetW 20; Str (chars "Function"); Str (chars "|"); Str (chars "Message"); Str [newline];
   SetFill "-"; SetW 26; Str []; Str (chars "+"); SetW 7; Str []; Str (chars "+"); SetW 7; Str []; Str (chars "+");
   SetW 20; Str []; Str (chars "+"); SetW 5; Str []; Str (chars "+"); SetW 20; Str []; Str (chars "+"); SetW 7; Str []; SetFill " "].
Definition split_header_writer (s : stream) : stream := write_ops split_header_ops s.
(** the file of a level: "logs/log_"#level".log" (log_split_levels.cpp, 10-18); the operand is the name of the level *)
Definition split_file (l : Z) : text := chars "logs/log_" ++ chars (log_level_to_c_str l) ++ chars ".log".

(** log_with_setters.cpp, 24-37 *)
Definition setters_ops (pid : Z) (e : log_line) : list op :=
  [Str (chars "["); Raw (put_time (t_local e)); Num (Z.rem (Z.quot (t_micros e) 1000) 1000); Str (chars "] ");
   Str (chars "["); Num pid; Str (chars ":"); Num (l_thread e); Str (chars "] ");
   Str (chars "["); Str (file_name (l_file e)); Str (chars ":"); Num (l_line e); Str (chars "] ");
   Str (chars "["); Str (chars (log_level_to_shortened (l_level e))); Str (chars "] "); Str (l_message e)].
Definition setters_log_writer (pid : Z) (e : log_line) (s : stream) : stream := write_ops (setters_ops pid e) s.
