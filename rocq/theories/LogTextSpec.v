(** Specification vocabulary for the text of the logger. *)
From Coq Require Import Ascii String List Bool Arith ZArith.
From Verif Require Import Base LogTextModel.
Import ListNotations.
Open Scope list_scope.

Definition pad_right (n : nat) (t : text) : text := t ++ repeat " "%char (n - length t).
Definition pad_left (c : ascii) (n : nat) (t : text) : text := repeat c (n - length t) ++ t.
(** a line, cell by cell *)
Definition log_row (hide : bool) (e : log_line) : text :=
  put_time (t_local e) ++ pad_left "0" 6 (dec (Z.rem (t_micros e) 1000000)) ++ chars "|" ++
  pad_left " " 7 (dec (l_thread e)) ++ chars "|" ++
  pad_right 8 (chars (log_level_to_title (l_level e))) ++ chars "|" ++
  (if hide then [] else
   pad_right 20 (firstn 20 (file_name (l_file e))) ++ chars "|" ++
   pad_left " " 5 (dec (l_line e)) ++ chars "|" ++
   pad_right 20 (firstn 20 (l_function e)) ++ chars "|") ++
  l_message e.
(** the number that digits stand for *)
Definition value (t : text) : Z := fold_left (fun n c => 10 * n + (Z.of_N (N_of_ascii c) - 48))%Z t 0%Z.

(** [t] consists of cells of the given widths, each followed by [sep], and [rest] *)
Definition columns (widths : list nat) (sep : ascii) (t rest : text) : Prop :=
  exists cells, map (@length ascii) cells = widths /\ t = flat_map (fun c => c ++ [sep]) cells ++ rest.
Definition widths (hide : bool) : list nat := if hide then [26; 7; 8] else [26; 7; 8; 20; 5; 20].

(** a time whose year has four digits *)
Definition plain_tm (t : tm) : Prop :=
  (1000 <= year t <= 9999 /\ 0 <= month t <= 99 /\ 0 <= day t <= 99 /\ 0 <= hour t <= 99 /\ 0 <= minute t <= 99 /\ 0 <= second t <= 99)%Z.
(** the conditions for the columns to line up *)
Definition fits_columns (e : log_line) : Prop :=
  (plain_tm (t_local e) /\ 0 <= t_micros e /\ 0 <= l_thread e < 10000000 /\ -9999 <= l_line e <= 99999)%Z.

(** the last component of a path *)
Definition last_part (p b : text) : Prop :=
  (exists d, p = d ++ b /\ (d = [] \/ exists d' c, d = d' ++ [c] /\ is_slash c = true)) /\ forallb (fun c => negb (is_slash c)) b = true.

(** lower case *)
Definition lower (c : ascii) : ascii :=
  let n := N_of_ascii c in if ((65 <=? n) && (n <=? 90))%N then ascii_of_N (n + 32) else c.

(** what is streamed by [l] *)
Definition streamed (l : list sop) : text := flat_map (fun o => match o with SPut t => t | SEnd _ => [] end) l.

(** [t] is the decimal text of [z] without leading zeros *)
Definition digits (t : text) : Prop := Forall (fun c => (48 <= N_of_ascii c <= 57)%N) t.
Definition number (z : Z) (t : text) : Prop := t <> [] /\ digits t /\ value t = z /\ (hd_error t = Some "0"%char -> length t = 1).
Definition signed (z : Z) (t : text) : Prop := number z t \/ (z < 0)%Z /\ exists t', t = "-"%char :: t' /\ number (- z) t'.
(** [t] is [z] written with [n] digits *)
Definition padded (n : nat) (z : Z) (t : text) : Prop := length t = n /\ digits t /\ value t = z.
(** [t] in [n] characters, cut or filled up with spaces *)
Definition cell (n : nat) (t : text) : text := firstn n (t ++ repeat " "%char n).
(** what a line shows: local time, microseconds, thread, level, source and message, field by field *)
Definition shows (hide : bool) (e : log_line) (t : text) : Prop :=
  exists y mo d h mi s us th file ln,
  number (year (t_local e)) y /\ padded 2 (month (t_local e)) mo /\ padded 2 (day (t_local e)) d /\
  padded 2 (hour (t_local e)) h /\ padded 2 (minute (t_local e)) mi /\ padded 2 (second (t_local e)) s /\
  padded 6 (t_micros e mod 1000000) us /\ number (l_thread e) th /\ last_part (l_file e) file /\ signed (l_line e) ln /\
  t = y ++ chars "-" ++ mo ++ chars "-" ++ d ++ chars " " ++ h ++ chars ":" ++ mi ++ chars ":" ++ s ++ chars "." ++ us ++ chars "|" ++
      repeat " "%char (7 - length th) ++ th ++ chars "|" ++ cell 8 (chars (log_level_to_title (l_level e))) ++ chars "|" ++
      (if hide then [] else
       cell 20 file ++ chars "|" ++ repeat " "%char (5 - length ln) ++ ln ++ chars "|" ++ cell 20 (l_function e) ++ chars "|") ++
      l_message e.
