(** Model of the programs of /repo/tests/stopwatch_tests.cpp.  Instants are in nanoseconds; the clock of the stopwatch counts
    periods of [tick] nanoseconds and does not go back.  A statement is at an instant not before the one of the statement
    before it, and a sleep takes at least as long as it says. *)
From Coq Require Import List Bool ZArith.
From Verif Require Import StopwatchModel.
Import ListNotations.
Open Scope Z_scope.

Inductive statement :=
| Do (e : event)               (* a call whose result is not used *)
| Running                      (* is_running() *)
| TimeOf                       (* time() *)
| StopTime                     (* stop_and_time() *)
| In (unit : Z)                (* in_nanoseconds() and the like *)
| Part (unit rollover : Z)     (* nanoseconds_part() and the like *)
| Sleep (d : Z)
| Copy                         (* a copy is made *)
| Other (c : statement).       (* on the copy *)
Inductive value := Flag (b : bool) | Num (z : Z).

(** at clock reading [now]: the stopwatch afterwards and what is seen *)
Definition act (tick now : Z) (c : statement) (s : stopwatch) : stopwatch * list value :=
  match c with
  | Do e => (match e with
             | Construct b => construct b now | Start => start now s | Stop => stop now s
             | StopAndTime => fst (stop_and_time now s) | Reset => reset s | Restart => restart now s | Read => s end, [])
  | Running => (s, [Flag (m_isRunning s)])
  | TimeOf => (s, [Num (time now s)])
  | StopTime => let '(s, z) := stop_and_time now s in (s, [Num z])
  | In unit => (s, [Num (count tick unit now s)])
  | Part unit rollover => (s, [Num (count_rollover tick unit rollover now s)])
  | Sleep _ | Copy | Other _ => (s, [])
  end.
Definition act2 (tick now : Z) (c : statement) (p : stopwatch * stopwatch) : (stopwatch * stopwatch) * list value :=
  let '(s, s2) := p in
  match c with
  | Copy => ((s, s), [])
  | Other c => let '(s2, v) := act tick now c s2 in ((s, s2), v)
  | _ => let '(s, v) := act tick now c s in ((s, s2), v)
  end.
Definition takes (c : statement) : Z := match c with Sleep d => d | _ => 0 end.

(** [exec tick x p prog l seen]: from instant [x] and the stopwatches [p], with the statements ending at the instants [l] *)
Inductive exec (tick : Z) : Z -> stopwatch * stopwatch -> list statement -> list Z -> list value -> Prop :=
| exec_nil x p : exec tick x p [] [] []
| exec_cons x p c prog x' l seen : x + takes c <= x' ->
    exec tick x' (fst (act2 tick (x' / tick) c p)) prog l seen ->
    exec tick x p (c :: prog) (x' :: l) (snd (act2 tick (x' / tick) c p) ++ seen).
Definition nothing : stopwatch * stopwatch := (Sw 0 0 false, Sw 0 0 false).

(** * The tests *)
(** the first lines of most of them *)
Definition started (d : Z) : list statement := [Do (Construct true); Running; Sleep d].
(** 18-29 *)
Definition test_sanity := started sec ++ [Do Stop; Running; In sec; Part sec 60].
(** 31-41 *)
Definition test_construct_stopped := [Do (Construct false); Running; Sleep ms; TimeOf; Running].
(** 43-53 *)
Definition test_construct_started := started ms ++ [TimeOf; Running].
(** 55-69 *)
Definition test_copy_constructor := started ms ++ [Do Stop; Running; Copy; Running; Other Running; TimeOf; Other TimeOf].
(** 71-87 *)
Definition test_time_call_does_not_start := started ms ++ [Do Stop; TimeOf; Running; Sleep ms; TimeOf; Running].
(** 89-104 *)
Definition test_time_call_does_not_stop := started ms ++ [TimeOf; Running; Sleep ms; TimeOf; Running].
(** 106-129 *)
Definition test_reset := started ms ++ [Do Reset; Running; In ns; In us; In ms; In sec; In minute; In hour;
  Part ns 1000; Part us 1000; Part ms 1000; Part sec 60; Part minute 60; In hour].
(** 131-145 *)
Definition test_restart_does_restart := started ms ++ [TimeOf; Running; Do Restart; TimeOf; Running].
(** 147-163 *)
Definition test_start_does_not_restart := started ms ++ [TimeOf; Running; Sleep ms; Do Start; TimeOf; Running].
(** 165-182 *)
Definition test_stop_when_stopped := started ms ++ [Do Stop; TimeOf; Running; Sleep ms; Do Stop; TimeOf; Running].
(** 184-201 *)
Definition test_stop_then_restart := started ms ++ [Do Stop; TimeOf; Running; Do Restart; Running; TimeOf; Running].
(** 203-222 *)
Definition test_stop_then_start := started ms ++ [Do Stop; TimeOf; Running; Do Start; Running; Sleep ms; TimeOf; Running].
(** 224-239 *)
Definition test_stop_and_time_when_stopped := started ms ++ [StopTime; Running; Sleep ms; StopTime; Running].
(** 241-257 *)
Definition test_stop_and_time_then_restart := started ms ++ [StopTime; Running; Do Restart; Running; StopTime; Running].
(** 259-277 *)
Definition test_stop_and_time_then_start := started ms ++ [StopTime; Running; Do Start; Running; Sleep ms; StopTime; Running].
