(** Model of the programs of /repo/tests/logger_tests.cpp: one thread logs to one file with a logger that has its
    default settings, waits, and reads the file; between two tests the file is removed.

    The steps of the logger are those of LoggerModel; nothing fails.  What the program sees in a file that is being
    written (a part of it may still be in the stream's buffer, C147) is not modelled: here it sees all. *)
From Coq Require Import Ascii String List Bool Arith ZArith.
From Verif Require Import Base LoggerModel LogTextModel LogFileModel LogDefaultsModel.
Import ListNotations.
Open Scope list_scope.

(** the source_info (174-194 of logger.hpp) and the message of an entry *)
Record source := Source { s_file : text; s_line : Z; s_function : text; s_message : text }.

Definition is_ws (c : ascii) : bool := let n := N_of_ascii c in ((9 <=? n) && (n <=? 13) || (n =? 32))%N.
(** the lines read by [while (logFile >> std::ws && std::getline(logFile, lastLog))], 46 and 64; [cur] is what getline
    has read of a line *)
Fixpoint lines_from (cur : option text) (t : text) : list text :=
  match t, cur with
  | [], None => []
  | [], Some l => [l]
  | c :: t, None => if is_ws c then lines_from None t else lines_from (Some [c]) t
  | c :: t, Some l => if Ascii.eqb c newline then l :: lines_from None t else lines_from (Some (l ++ [c])) t
  end.
(** 36-53 *)
Definition count_logs (t : text) : nat := List.length (lines_from None t).
(** 55-68 *)
Definition last_log (t : text) : text := last (lines_from None t) [].
(** 70-76: after the last bar, or all of it *)
Definition last_log_message (t : text) : text := after_last "|"%char (last_log t).

Section Test.
Variable hide : bool.
(** localtime_r of a time in microseconds; what is written for a thread *)
Variable local : Z -> tm.
Variable thread_id : nat -> Z.
Notation logger := (@logger unit source).
Notation entry := (entry unit source).
Notation event := (@event unit source).

Definition view (e : entry) : log_line :=
  let m := e_msg e in
  LogLine (local (e_time e)) (e_time e) (thread_id (e_thread e)) (e_level e) (s_file m) (s_line m) (s_function m) (s_message m).
(** the file, as the stream that has written it *)
Definition file := option stream.
Definition content (f : file) : text := match f with Some s => out s | None => [] end.
(** what the steps of the logger do to it (810-869); with the default settings the header is on and nothing is rotated.
    What is written to a file that has been removed is gone. *)
Definition on_file (ev : event) (f : file) : file :=
  match ev with
  | EOpen _ => Some (Stream (content f) 0 " " false)
  | EWrite _ e =>
      match f with
      | Some s =>
          let s := match out s with [] => write_line (default_header_writer hide) s | _ => s end in
          Some (write_line (default_log_writer hide (view e)) s)
      | None => None
      end
  | _ => f
  end.

Inductive statement := Log (l : Z) (m : source) | LastMessage | Count | Remove.
Inductive value := Text (t : text) | Number (n : nat).
Definition read (c : statement) (f : file) : option value :=
  match c with
  | LastMessage => Some (Text (last_log_message (content f)))
  | Count => Some (Number (count_logs (content f)))
  | _ => None
  end.

Definition less (_ _ : unit) : bool := false.
(** when the sleep before reading may end *)
Variable sleeps : logger -> Prop.
(** [run s f prog tr s' f' rest seen]: from [s] and the file [f], with [prog] to be run, to [s'] and [f'], with [rest]
    left to be run; [tr] are the events and [seen] the values read on the way, in order *)
Inductive run : logger -> file -> list statement -> list event -> logger -> file -> list statement -> list value -> Prop :=
| run_here s f prog : run s f prog [] s f prog []
| run_other s f prog e s1 tr s' f' rest seen : internal less s e s1 \/ other s e s1 ->
    run s1 (on_file e f) prog tr s' f' rest seen -> run s f prog (e :: tr) s' f' rest seen
| run_log s f l m prog tr s' f' rest seen : calls s = [] ->
    let e := Entry (next_id s) 0 tt l 0%Z m in
    run (set_next (S (next_id s)) (set_calls [CEnter e] s)) f prog tr s' f' rest seen ->
    run s f (Log l m :: prog) (ECall e :: tr) s' f' rest seen
| run_read s f c prog v tr s' f' rest seen : calls s = [] -> sleeps s -> read c f = Some v ->
    run s f prog tr s' f' rest seen -> run s f (c :: prog) tr s' f' rest (v :: seen)
| run_remove s f prog tr s' f' rest seen : calls s = [] ->
    run s None prog tr s' f' rest seen -> run s f (Remove :: prog) tr s' f' rest seen.
End Test.

(** * The tests *)
(** 78-212: each message is read back; TearDown (27-33) *)
Definition messages_test (l : list (Z * source)) : list statement := flat_map (fun m => [Log (fst m) (snd m); LastMessage]) l ++ [Remove].
(** 214-290: all of them are counted *)
Definition count_test (l : list (Z * source)) : list statement := map (fun m => Log (fst m) (snd m)) l ++ [Count; Remove].
(** several tests, one after the other *)
Inductive test := Messages (l : list (Z * source)) | Counts (l : list (Z * source)).
Definition suite (l : list test) : list statement := flat_map (fun t => match t with Messages l => messages_test l | Counts l => count_test l end) l.
