(** Model of the text that pluto::logger writes (/repo/include/pluto/logger.hpp): the names of the log levels
    (219-289), the default writers of lines and headers (421-472), writef (621-664) and streamer (297-345).
    Characters are bytes. *)
From Coq Require Import Ascii String List Bool Arith ZArith.
From Verif Require Import Base.
Import ListNotations.
Open Scope list_scope.

Notation text := (list ascii).
Definition chars (s : string) : text := list_ascii_of_string s.

(** * Output streams
    The parts of std::ostream that matter here: width (std::setw; reset by every formatted output), fill
    (std::setfill) and adjustfield (std::left, std::right).  The base is decimal, without showpos, and the locale
    has no digit grouping. *)
Record stream := Stream { out : text; width : nat; fill : ascii; to_left : bool }.
Inductive op :=
| SetW (n : nat) | SetFill (c : ascii) | Left | Right
| Str (t : text)       (* a string or a character *)
| Num (z : Z)
| Raw (t : text).      (* std::put_time: not padded, and it leaves the width alone *)

Definition digit (d : Z) : ascii := ascii_of_N (Z.to_N (48 + d)).
Fixpoint dec_digits (fuel : nat) (n : Z) : text :=
  match fuel with
  | 0 => []
  | S f => if (n <? 10)%Z then [digit n] else dec_digits f (n / 10)%Z ++ [digit (n mod 10)%Z]
  end.
Definition dec (z : Z) : text :=
  if (z <? 0)%Z then "-"%char :: dec_digits (S (Z.to_nat (Z.log2 (- z)))) (- z)
  else dec_digits (S (Z.to_nat (Z.log2 z))) z.

Definition put (t : text) (s : stream) : stream :=
  let pad := repeat (fill s) (width s - length t) in
  Stream (out s ++ if to_left s then t ++ pad else pad ++ t) 0 (fill s) (to_left s).
Definition apply (s : stream) (o : op) : stream :=
  match o with
  | SetW n => Stream (out s) n (fill s) (to_left s)
  | SetFill c => Stream (out s) (width s) c (to_left s)
  | Left => Stream (out s) (width s) (fill s) true
  | Right => Stream (out s) (width s) (fill s) false
  | Str t => put t s
  | Num z => put (dec z) s
  | Raw t => Stream (out s ++ t) (width s) (fill s) (to_left s)
  end.
Definition write_ops (l : list op) (s : stream) : stream := fold_left apply l s.

(** * The names of the levels, 219-289; a level is a signed char *)
Definition log_level_to_c_str (l : Z) : string :=
  match l with
  | -1 => "level" | 0 => "verbose" | 1 => "trace" | 2 => "debug" | 3 => "info" | 4 => "notice" | 5 => "warning"
  | 6 => "error" | 7 => "critical" | 8 => "fatal" | _ => "unknown"
  end%Z%string.
Definition log_level_to_title (l : Z) : string :=
  match l with
  | -1 => "Level" | 0 => "Verbose" | 1 => "Trace" | 2 => "Debug" | 3 => "Info" | 4 => "Notice" | 5 => "Warning"
  | 6 => "Error" | 7 => "Critical" | 8 => "Fatal" | _ => "Unknown"
  end%Z%string.
Definition log_level_to_shortened (l : Z) : string :=
  match l with
  | -1 => "LVL" | 0 => "VRB" | 1 => "TRC" | 2 => "DBG" | 3 => "INF" | 4 => "NTC" | 5 => "WRN"
  | 6 => "ERR" | 7 => "CRT" | 8 => "FTL" | _ => "UNK"
  end%Z%string.
Definition log_level_to_char (l : Z) : ascii :=
  match l with
  | -1 => "L" | 0 => "V" | 1 => "T" | 2 => "D" | 3 => "I" | 4 => "N" | 5 => "W"
  | 6 => "E" | 7 => "C" | 8 => "F" | _ => "?"
  end%Z%char.

(** * default_log_writer, 421-443
    [t_local] is the broken-down local time of the seconds of the time (localtime_r is not modelled); its fields
    are as std::put_time uses them: %Y the year, the others with two digits.  [t_micros] is the time since the
    epoch in microseconds. *)
Record tm := Tm { year : Z; month : Z; day : Z; hour : Z; minute : Z; second : Z }.
Record log_line := LogLine {
  t_local : tm; t_micros : Z; l_thread : Z; l_level : Z; l_file : text; l_line : Z; l_function : text; l_message : text }.
Definition two (n : Z) : text := [digit (n / 10); digit (n mod 10)]%Z.
(** "%Y-%m-%d %H:%M:%S." *)
Definition put_time (t : tm) : text :=
  dec (year t) ++ chars "-" ++ two (month t) ++ chars "-" ++ two (day t) ++ chars " " ++
  two (hour t) ++ chars ":" ++ two (minute t) ++ chars ":" ++ two (second t) ++ chars ".".
(** file_name (platform.hpp 24-36; also SmallModel.v): the part after the last slash or backslash *)
Definition is_slash (c : ascii) : bool := Ascii.eqb c "\" || Ascii.eqb c "/".
Fixpoint base_name (cur rest : text) : text :=
  match rest with [] => cur | c :: rest => base_name (if is_slash c then rest else cur) rest end.
Definition file_name (p : text) : text := base_name p p.
(** [hide] is PLUTO_LOGGER_HIDE_SOURCE_INFO.  [%] on integers truncates. *)
Definition log_ops (hide : bool) (e : log_line) : list op :=
  [Right; SetFill "0"; Raw (put_time (t_local e)); SetW 6; Num (Z.rem (t_micros e) 1000000); Str (chars "|");
   SetFill " "; SetW 7; Num (l_thread e); Str (chars "|");
   Left; SetW 8; Str (chars (log_level_to_title (l_level e))); Str (chars "|")] ++
  (if hide then [] else
  [SetW 20; Str (firstn 20 (file_name (l_file e))); Str (chars "|");
   Right; SetW 5; Num (l_line e); Str (chars "|");
   Left; SetW 20; Str (firstn 20 (l_function e)); Str (chars "|")]) ++
  [Str (l_message e)].
Definition default_log_writer (hide : bool) (e : log_line) (s : stream) : stream := write_ops (log_ops hide e) s.

(** default_header_writer, 445-472 *)
Definition newline : ascii := "010"%char.
Definition header_ops (hide : bool) : list op :=
  [Left; SetFill " "; SetW 26; Str (chars "Timestamp"); Str (chars "|"); Right; SetW 7; Str (chars "TID"); Str (chars "|");
   Left; SetW 8; Str (chars (log_level_to_title (-1))); Str (chars "|")] ++
  (if hide then [] else
  [SetW 20; Str (chars "File Name"); Str (chars "|"); Right; SetW 5; Str (chars "Line"); Str (chars "|");
   Left; SetW 20; Str (chars "Function"); Str (chars "|")]) ++
  [Str (chars "Message"); Str [newline]; SetFill "-"; SetW 26; Str []; Str (chars "+"); SetW 7; Str []; Str (chars "+");
   SetW 8; Str []; Str (chars "+")] ++
  (if hide then [] else
  [SetW 20; Str []; Str (chars "+"); SetW 5; Str []; Str (chars "+"); SetW 20; Str []; Str (chars "+")]) ++
  [SetW 7; Str []; SetFill " "].
Definition default_header_writer (hide : bool) (s : stream) : stream := write_ops (header_ops hide) s.

(** a line or a header as the logger writes it, 857-858 and 862-863; [writer] is any function on streams *)
Definition write_line (writer : stream -> stream) (s : stream) : stream := put [newline] (writer s).

(** * writef, 621-664
    [vsnprintf n t]: the formatted text is [t]; at most n-1 characters and a terminating NUL are stored in the
    buffer.  [None]: an error (a negative result), also when the text has more than INT_MAX characters.
    [alloc] says whether message.resize succeeds. *)
Definition int_max : Z := 2147483647.
Definition vsnprintf (n : nat) (t : option text) : Z * text :=
  match t with
  | Some t => if (Z.of_nat (length t) <=? int_max)%Z then
      (Z.of_nat (length t), match n with 0 => [] | S n => firstn n t ++ ["000"%char] end) else (-1, [])%Z
  | None => (-1, [])%Z
  end.
(** std::string::resize *)
Definition resize (n : nat) (t : text) : text := firstn n t ++ repeat "000"%char (n - length t).
(** storing [b] at the beginning of the buffer [t] *)
Definition store (b t : text) : text := b ++ skipn (length b) t.
Definition writef_message (scheme : text) (formatted : option text) (alloc : bool) : outcome text :=
  let messageLength := fst (vsnprintf 0 formatted) in
  if (0 <? messageLength)%Z then
    if (messageLength =? int_max)%Z then Ub else          (* messageLength + 1 overflows *)
    if alloc then
      let message := resize (Z.to_nat messageLength + 1) [] in
      let (n, b) := vsnprintf (length message) formatted in
      Ret (if (n =? messageLength)%Z then resize (Z.to_nat messageLength) (store b message) else scheme)
    else Ret scheme
  else Ret scheme.

(** * streamer, 297-345
    [active]: m_logger is not null; [written]: m_stream.str(); [added]: the messages given to add_log_to_buffer,
    newest first.  [SEnd pass]: end(), also in the destructor, when should_log returns [pass]. *)
Record streamer := Streamer { active : bool; written : text; added : list text }.
Inductive sop := SPut (t : text) | SEnd (pass : bool).
Definition sstep (s : streamer) (o : sop) : streamer :=
  match o with
  | SPut t => Streamer (active s) (written s ++ t) (added s)                                      (* 339-344 *)
  | SEnd pass =>                                                                                  (* 330-337 *)
      if active s && pass then Streamer false (written s) (written s :: added s) else s
  end.
Definition srun (l : list sop) : streamer := fold_left sstep l (Streamer true [] []).
(** the whole life of a streamer: operations and the destructor (317-320) *)
Definition slife (l : list sop) (pass : bool) : list text := added (srun (l ++ [SEnd pass])).
