(** Which encoding form each C++ string type holds, and what it means for two strings of different
    types to hold the same text. *)
From Coq Require Import ZArith List Bool.
From Verif Require Import Base UnicodeModel UnicodeSpec.
Import ListNotations.
Open Scope Z_scope.

(** what the units of each string type are: UTF-8, UTF-16 or UTF-32 *)
Definition seq_of (p : platform) (s : str_type) : Z -> list Z -> Prop :=
  match s with
  | SChar | SChar8 => seq8
  | SChar16 => seq16
  | SChar32 => seq32
  | SWide => if wchar_32 p then seq32 else seq16
  end.

Definition text (p : platform) (s : str_type) (a : list Z) : Prop :=
  Forall (holds (et_bits (et_of p s)) (et_signed (et_of p s))) a /\
  well_formed (seq_of p s) (map (pattern (et_bits (et_of p s))) a).

Definition same_text (p : platform) (s s' : str_type) (a m : list Z) : Prop :=
  exists cs, encodes (seq_of p s) cs (map (pattern (et_bits (et_of p s))) a) /\
             encodes (seq_of p s') cs (map (pattern (et_bits (et_of p s'))) m).
