(** Specification of reading a log file back (C181). *)
From Coq Require Import Ascii String List Bool Arith ZArith.
From Verif Require Import Base LogTextModel LogTextSpec.
Import ListNotations.
Open Scope list_scope.

(** the entries agree in all that a line has room for: names of files and functions in 20 characters, a time to the
    microsecond *)
Definition same_visible (hide : bool) (e e' : log_line) : Prop :=
  t_local e = t_local e' /\ (t_micros e mod 1000000 = t_micros e' mod 1000000)%Z /\ l_thread e = l_thread e' /\
  log_level_to_title (l_level e) = log_level_to_title (l_level e') /\ l_message e = l_message e' /\
  (hide = false -> l_line e = l_line e' /\ cell 20 (l_function e) = cell 20 (l_function e') /\
     forall f f', last_part (l_file e) f -> last_part (l_file e') f' -> cell 20 f = cell 20 f').
(** a year of four digits, not before 1970, a message of one line *)
Definition readable (e : log_line) : Prop := plain_tm (t_local e) /\ (0 <= t_micros e)%Z /\ ~ In newline (l_message e).
(** the entries, written one after the other to a stream *)
Definition write_all (hide : bool) (l : list log_line) (s : stream) : stream :=
  fold_left (fun s e => write_line (default_log_writer hide e) s) l s.
