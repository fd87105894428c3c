(** Model of the logging macros (/repo/include/pluto/logger.hpp, 92-140) and of the calls they make: write
    (599-609), writef (621-664), format (679-692), stream (707-717) and the streamer (297-345).

    The answers of should_log (594-597) are arbitrary, because other threads may change the level or destroy the
    logger: [checks n] is the n-th answer.  [adds n] says whether the n-th call of add_log_to_buffer (720-756)
    succeeds; it can throw std::bad_alloc, and then has added nothing (the entry is put into the list last).
    What is modelled of the text of a message is only how it comes about: [fmt] is the formatting done by writef
    or format (or the identity, for write), [None] when it throws. *)
From Coq Require Import List Bool Arith Ascii.
Import ListNotations.

Definition text : Type := list ascii.
(** An operand of a macro: an expression with its value as text, or one that throws, from its evaluation or from
    its operator<<; in the latter case after some output. *)
Inductive operand := Gives (t : text) | Fails (t : text).

Inductive event :=
| ELogger                     (* the macro's argument [logger] is evaluated *)
| EEval (i : nat)             (* operand number i is evaluated; number 0 is [file] *)
| ECheck (b : bool)           (* should_log returns b *)
| EAdd (file msg : text).     (* an entry is added to the buffer *)

Inductive outcome := Fine | Threw | Terminated.

Record state := State { nchecks : nat; nadds : nat; trace : list event }.
Definition start : state := State 0 0 [].
Definition emit (e : event) (s : state) : state := State (nchecks s) (nadds s) (trace s ++ [e]).

Section Macros.
Variables (checks adds : nat -> bool).

(** should_log, 594-597 *)
Definition should_log (s : state) : bool * state :=
  let b := checks (nchecks s) in (b, State (S (nchecks s)) (nadds s) (trace s ++ [ECheck b])).
(** add_log_to_buffer, 720-756 *)
Definition add_log_to_buffer (file msg : text) (s : state) : bool * state :=
  let s' := State (nchecks s) (S (nadds s)) (trace s) in
  if adds (nadds s) then (true, emit (EAdd file msg) s') else (false, s').

(** the operands, evaluated in the order [ord]: that of function arguments is up to the compiler *)
Fixpoint evaluate (ord : list nat) (ops : list operand) (s : state) : bool * state :=
  match ord with
  | [] => (true, s)
  | i :: ord =>
      let s := emit (EEval i) s in
      match nth_error ops i with
      | Some (Gives _) => evaluate ord ops s
      | _ => (false, s)
      end
  end.
Definition value_of (o : operand) : text := match o with Gives t | Fails t => t end.

(** write, writef, format: 599-609, 621-664, 679-692 *)
Definition write_call (fmt : list text -> option text) (file : text) (args : list text) (s : state) : outcome * state :=
  let (b, s) := should_log s in
  if b then
    match fmt args with
    | None => (Threw, s)
    | Some m => let (ok, s) := add_log_to_buffer file m s in (if ok then Fine else Threw, s)
    end
  else (Fine, s).
(** PLUTO_LOG_WRITE_WITH, PLUTO_LOG_WRITEF_WITH, PLUTO_LOG_FORMAT_WITH, 92-125 *)
Definition log_write (fmt : list text -> option text) (ord : list nat) (file : operand) (args : list operand) (s : state)
    : outcome * state :=
  let (b, s) := should_log (emit ELogger s) in
  if b then
    let (ok, s) := evaluate ord (file :: args) (emit ELogger s) in
    if ok then write_call fmt (value_of file) (map value_of args) s else (Threw, s)
  else (Fine, s).

(** streamer::end, 330-337; the first component says whether m_logger is not null *)
Definition streamer_end (live : bool) (file buf : text) (s : state) : outcome * bool * state :=
  if live then
    let (b, s) := should_log s in
    if b then
      let (ok, s) := add_log_to_buffer file buf s in
      if ok then (Fine, false, s) else (Threw, true, s)
    else (Fine, true, s)
  else (Fine, false, s).
(** ~streamer, 317-320, which is noexcept; [o] is how the full expression ends otherwise *)
Definition streamer_destroy (o : outcome) (live : bool) (file buf : text) (s : state) : outcome * state :=
  match streamer_end live file buf s with
  | (Fine, _, s) => (o, s)
  | (_, _, s) => (Terminated, s)
  end.
(** the operator<< of the streamer (339-344), applied to the operands from left to right (number [i] on) *)
Fixpoint stream_all (i : nat) (args : list operand) (buf : text) (s : state) : bool * text * state :=
  match args with
  | [] => (true, buf, s)
  | Gives t :: args => stream_all (S i) args (buf ++ t) (emit (EEval i) s)
  | Fails t :: _ => (false, buf ++ t, emit (EEval i) s)
  end.
(** PLUTO_LOG_STREAM_WITH, 130-138 *)
Definition log_stream (file : operand) (args : list operand) (s : state) : outcome * state :=
  let (b, s) := should_log (emit ELogger s) in
  if b then
    let s := emit (EEval 0) (emit ELogger s) in
    match file with
    | Fails _ => (Threw, s)
    | Gives f =>
        match stream_all 1 args [] s with
        | (false, buf, s) => streamer_destroy Threw true f buf s
        | (true, buf, s) =>
            match streamer_end true f buf s with
            | (o, live, s) => streamer_destroy o live f buf s
            end
        end
    end
  else (Fine, s).
End Macros.
