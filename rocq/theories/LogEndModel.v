(** The logger and its files with the default writers (/repo/include/pluto/logger.hpp, 421-472 and 810-869): LogFileModel's
    transition system, in which the texts of headers and lines are arbitrary, with those of LogTextModel.  The header is
    always on (its default, C170).  What the writers put into a stream does not depend on what it was used for (C68, C187). *)
From Coq Require Import Ascii String List Bool Arith ZArith.
From Verif Require Import Base LoggerModel LogTextModel LogFileModel.
Import ListNotations.
Open Scope list_scope.

(** what a writer puts into a new stream *)
Definition put_by (w : stream -> stream) : string := string_of_list_ascii (out (w (Stream [] 0 " " false))).

Section System.
Context {P K M : Type} (peqb : P -> P -> bool) (path : K -> nat -> P).
Variable hide : bool.
(** the log_message (196-220) of an entry *)
Variable view : entry K M -> log_line.
Variables L R : nat -> Prop.
Notation disk := (@disk P (entry K M)).
Definition head : string := put_by (default_header_writer hide).
Definition line (e : entry K M) : string := put_by (default_log_writer hide (view e)).
(** [disk_step] of LogFileModel with these texts *)
Inductive text_step (d : disk) : @event K M -> disk -> Prop :=
| t_open k : text_step d (EOpen k) (open_file peqb (path k 0) d)
| t_write k e ok fuel limit rsize d' : L limit -> R rsize ->
    write_entry peqb (path k) ok fuel limit rsize true head (line e) e d = (Done, d') -> text_step d (EWrite k e) d'
| t_fail k (created : bool) : text_step d (EFail k) (if created then open_file peqb (path k 0) d else d)
| t_fail_rotate k e ok fuel limit rsize d' (created : bool) : L limit -> R rsize ->
    write_entry peqb (path k) ok fuel limit rsize true head (line e) e d = (Threw, d') ->
    text_step d (EFail k) (if created then open_file peqb (path k 0) d' else d')
| t_other ev : match ev with EOpen _ | EWrite _ _ | EFail _ => False | _ => True end -> text_step d ev d.
Inductive text_system (ltb : K -> K -> bool) (s0 : @logger K M) (d0 : disk) : list (@event K M) -> @logger K M -> disk -> Prop :=
| ts_nil : text_system ltb s0 d0 [] s0 d0
| ts_snoc tr s d e s' d' : text_system ltb s0 d0 tr s d -> step ltb s e s' -> text_step d e d' -> text_system ltb s0 d0 (tr ++ [e]) s' d'.
End System.
