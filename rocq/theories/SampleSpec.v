(** Specification vocabulary for the writers of the examples (C183). *)
From Coq Require Import Ascii String List Bool Arith ZArith.
From Verif Require Import Base LogTextModel LogTextSpec.
Import ListNotations.
Open Scope list_scope.

Definition split_widths : list nat := [26; 7; 7; 20; 5; 20].
(** the milliseconds of the second *)
Definition millis (e : log_line) : Z := ((t_micros e / 1000) mod 1000)%Z.
(** the digits [f] after a decimal point stand for [ms] thousandths *)
Definition fraction (f : text) (ms : Z) : Prop := (value f * 1000 = ms * 10 ^ Z.of_nat (length f))%Z.
