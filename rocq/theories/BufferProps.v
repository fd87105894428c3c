(** Property C106: the logging thread reads a buffer without the mutex. *)
From Coq Require Import List Bool Arith.
From Verif Require Import BufferModel BufferSpec BufferProofs BufferExamples.
Import ListNotations.

(** C106.  [ns] are the nodes of the buffer when the mutex is unlocked, [es] its entries, newest first. *)
Theorem buffer_reading_has_no_data_race : forall E (m : memory E) ns es tr s x y,
  ns <> [] -> holds m ns es -> exec (unlocked m) tr s -> In x tr -> In y tr -> ~ conflict x y.
Proof. exact @race_free. Qed.
Print Assumptions buffer_reading_has_no_data_race.
Theorem buffer_is_read_from_back_to_front : forall E (m : memory E) ns es tr s,
  ns <> [] -> holds m ns es -> exec (unlocked m) tr s ->
  (exists rest, rev es = entries s ++ rest) /\ (rdr s = At (first s) -> entries s = rev es).
Proof. exact @reads_proof. Qed.
Print Assumptions buffer_is_read_from_back_to_front.
Theorem buffer_reading_is_never_stuck : forall E (m : memory E) ns es tr s,
  ns <> [] -> holds m ns es -> exec (unlocked m) tr s -> rdr s <> At (first s) ->
  exists ev s', step s [(Reader, Read, ev)] s'.
Proof. exact @never_stuck. Qed.
Print Assumptions buffer_reading_is_never_stuck.
(** erasing what was read leaves the entries added meanwhile and those not read *)
Theorem buffer_erase_removes_what_was_read : forall E (m : memory E) ns es tr s it,
  ns <> [] -> holds m ns es -> exec (unlocked m) tr s -> caller s = Idle -> rdr s = At it ->
  exists ns' es1 es2 m', es = es1 ++ es2 /\ entries s = rev es2 /\ holds (mem s) (ns' ++ ns) (given s ++ es) /\
  erase (length ns) it (mem s) = Some m' /\ holds m' (ns' ++ firstn (length es1) ns) (given s ++ es1).
Proof. exact @erase_proof. Qed.
Print Assumptions buffer_erase_removes_what_was_read.
Example buffer_reading_ex : holds two [2; 1] [20; 10] /\
  exists tr s, exec (unlocked two) tr s /\ caller s = Idle /\ rdr s = At (first s) /\ first s = 2 /\ entries s = [10; 20] /\ given s = [30] /\
  tr = [(Call, Read, Next 0); (Reader, Read, Prev 0); (Call, Write, Data 3); (Call, Write, Next 3); (Reader, Read, Data 1); (Call, Read, Prev 2); (Call, Write, Prev 3);
        (Reader, Read, Prev 1); (Call, Write, Next 0); (Call, Write, Prev 2); (Call, Read, Size); (Call, Write, Size); (Reader, Read, Data 2)].
Proof. exact (conj two_holds interleaved). Qed.
Example buffer_erase_ex : exists tr s m', exec (unlocked two) tr s /\ caller s = Idle /\ rdr s = At 1 /\ entries s = [10] /\ given s = [30] /\
  erase 2 1 (mem s) = Some m' /\ holds m' [3; 2] [30; 20].
Proof. exact interleaved_erased. Qed.
