(** The initial settings of pluto::logger when no macro is defined by the user (/repo/include/pluto/logger.hpp). *)
From Coq Require Import List Bool Arith ZArith.
From Verif Require Import Base LoggerModel.
Import ListNotations.

Record settings := Settings { st_level : Z; st_dirs : bool; st_header : bool; st_max : nat; st_flush : nat; st_size : nat; st_limit : nat }.

(** 56-83; verbose is 0 (155) *)
Definition defaults : settings :=
  {| st_level := 0; st_dirs := true; st_header := true; st_max := 0; st_flush := 1; st_size := 0; st_limit := 0 |}.
(** the logger of the constructor (376-379) *)
Definition new_logger {K M : Type} (d : settings) (clock : Z) : @logger K M := initial (st_level d) (st_max d) (st_flush d) clock.
