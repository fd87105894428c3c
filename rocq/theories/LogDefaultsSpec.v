(** The defaults as documented in /repo/docs/logger.md (44-60), and what a logger that loses nothing does. *)
From Coq Require Import List Bool Arith ZArith.
From Verif Require Import Base LoggerModel LoggerSpec LogDefaultsModel.
Import ListNotations.

Definition documented : settings := Settings 0 true true 0 1 0 1.

(** the settings are left as they are *)
Definition unchanged {K M : Type} (tr : list (@event K M)) : Prop := (forall z, ~ In (ELevel z) tr) /\ (forall n, ~ In (EMax n) tr).
