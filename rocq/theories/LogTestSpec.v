(** What the tests of /repo/tests/logger_tests.cpp should read. *)
From Coq Require Import Ascii String List Bool Arith ZArith.
From Verif Require Import Base LoggerModel LoggerSpec LogTextModel LogTextSpec LogTestModel.
Import ListNotations.
Open Scope list_scope.

(** what is read by a program that has logged [since] since the file was last removed *)
Fixpoint expected (since : list text) (prog : list statement) : list value :=
  match prog with
  | [] => []
  | Log _ m :: prog => expected (since ++ [s_message m]) prog
  | LastMessage :: prog => Text (last since []) :: expected since prog
  | Count :: prog => Number (match since with [] => 0 | _ => 2 + List.length since end) :: expected since prog
  | Remove :: prog => expected [] prog
  end.
Definition bar : ascii := "|"%char.
(** names and messages of one line, messages without bars *)
Definition neat (m : source) : Prop :=
  ~ In newline (s_file m) /\ ~ In newline (s_function m) /\ ~ In newline (s_message m) /\ ~ In bar (s_message m).
Definition neat_program (prog : list statement) : Prop := forall l m, In (Log l m) prog -> (0 <= l)%Z /\ neat m.
(** the file is not removed right after something has been logged *)
Definition tidy (prog : list statement) : Prop := forall a l m b, prog <> a ++ Log l m :: Remove :: b.
(** the sleep lasts until the logger is at rest; until a certain time *)
Definition at_rest (s : @logger unit source) : Prop := quiescent less s.
Definition until (time : Z) (s : @logger unit source) : Prop := (time <= now s)%Z.
(** a file with these entries *)
Definition written_file (hide : bool) (l : list log_line) (t : text) : Prop :=
  exists s, out s = [] /\ t = out (fold_left (fun s e => write_line (default_log_writer hide e) s) l (write_line (default_header_writer hide) s)).
(** nothing but white space follows the end of a line in the message *)
Definition single_line (m : text) : Prop := forall a b, m = a ++ newline :: b -> forallb is_ws b = true.
(** the assertions of the tests *)
Definition test_reads (t : test) : list value :=
  match t with
  | Messages l => map (fun m => Text (s_message (snd m))) l
  | Counts [] => [Number 0]
  | Counts l => [Number (List.length l + 2)]
  end.
Definition tests_pass (l : list test) (seen : list value) : Prop := seen = flat_map test_reads l.
Definition neat_tests (l : list test) : Prop := forall t, In t l ->
  Forall (fun m => (0 <= fst m)%Z /\ neat (snd m)) (match t with Messages l | Counts l => l end).
