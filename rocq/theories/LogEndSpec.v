(** What is in the files of a logger with the default writers. *)
From Coq Require Import Ascii String List Bool Arith ZArith.
From Verif Require Import Base LoggerModel LogTextModel LogFileModel LogFileSpec LogTestSpec.
Import ListNotations.
Open Scope list_scope.

(** the bytes of a file with these entries: none, or the header and the lines of the entries, in order, as the writers put
    them into one stream *)
Definition bytes_for {E : Type} (hide : bool) (view : E -> log_line) (es : list E) (c : list (chunk E)) : Prop :=
  (es = [] /\ text_of c = EmptyString) \/ (es <> [] /\ written_file hide (map view es) (list_ascii_of_string (text_of c))).
Definition files_for {E : Type} (hide : bool) (view : E -> log_line) (fs : list (list (chunk E))) (ess : list (list E)) : Prop :=
  Forall2 (fun c es => bytes_for hide view es c) fs ess.
