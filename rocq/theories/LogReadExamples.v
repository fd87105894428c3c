(** Concrete log files that are read back. *)
From Coq Require Import Ascii String List Bool Arith ZArith Lia.
From Verif Require Import Base LogTextModel LogTextSpec LogTextProofs LogTextExamples LogReadSpec LogReadProofs.
Import ListNotations.
Local Open Scope list_scope.

(** names that differ only after 20 characters, a file name and a function with separators, a line break in the name of a
    function, a thread and a line with more digits than their columns *)
Definition odd := LogLine sample_tm 1709247909000042 12345678901 5 (chars "C:\a|b.cpp") 1234567 (chars "operator|" ++ [newline]) (chars "x|y").
Definition long1 := LogLine sample_tm 1709247909000042 1 3 (chars "/src/a_very_long_file_name.cpp") 1 (chars "f") (chars "m").
Definition long2 := LogLine sample_tm 1709247909000042 1 3 (chars "\a_very_long_file_name.hpp") 1 (chars "f  ") (chars "m").
Lemma odd_case : readable odd /\ readable sample /\ out (write_all false [odd] (Stream [] 0 " " false)) =
  chars "2024-02-29 23:05:09.000042|12345678901|Warning |a|b.cpp             |1234567|operator|" ++ [newline] ++ chars "          |x|y" ++ [newline].
Proof.
  assert (P : plain_tm sample_tm) by (unfold plain_tm; cbn; lia).
  split; [split; [exact P|split; [cbn; lia|cbn; intuition discriminate]]|].
  split; [split; [exact P|split; [cbn; lia|cbn; intuition discriminate]]|]. vm_compute. reflexivity.
Qed.
Lemma long_case : same_visible false long1 long2 /\ long1 <> long2 /\ ~ same_visible false odd sample.
Proof.
  split; [|split; [discriminate|]].
  - unfold same_visible. do 5 (split; [reflexivity|]). intros _. split; [reflexivity|]. split; [reflexivity|].
    intros f f' F F'. apply last_part_unique in F. apply last_part_unique in F'. subst. vm_compute. reflexivity.
  - intros (_ & _ & T & _). discriminate T.
Qed.
(** an entry with a line break and two entries *)
Definition first_line := LogLine sample_tm 0 1 3 (chars "a.cpp") 7 (chars "f") (chars "a").
Definition second_line := LogLine sample_tm 0 1 8 (chars "a.cpp") 7 (chars "f") (chars "forged").
Lemma forged_case s : out (write_all true [two_lines] s) = out (write_all true [first_line; second_line] s).
Proof. rewrite !write_all_out. reflexivity. Qed.
Lemma forged_proof : exists l l', Forall (fun e => plain_tm (t_local e) /\ (0 <= t_micros e)%Z) (l ++ l') /\
  (forall s, out (write_all true l s) = out (write_all true l' s)) /\ ~ Forall2 (same_visible true) l l'.
Proof.
  exists [two_lines], [first_line; second_line]. split; [|split; [exact forged_case|intros F; inversion F as [|? ? ? ? _ X]; inversion X]].
  assert (P : plain_tm sample_tm) by (unfold plain_tm; cbn; lia). repeat constructor; try exact P; cbn; try lia; apply P.
Qed.
