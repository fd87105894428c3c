(** Concrete files for C144: what [header_first] admits and what it does not. *)
From Coq Require Import List Bool Arith Ascii String ZArith Lia.
From Verif Require Import Base LoggerModel LoggerSpec LogFileModel LogFileSpec LogFileExamples CrashModel CrashSpec CrashHeaders CrashExamples.
Import ListNotations.
Local Open Scope string_scope.
Local Open Scope list_scope.

(** the second process adds its line to a part of the header that the first one left *)
Lemma part_of_header : exists log d,
  lives path_eqb apath bool_lt (eq 0) (eq 0) (eq true) HTx LTx bdisk0 log d /\ List.length log = 2 /\
  (forall i c, bdisk0 (apath true i) = Some c -> header_first (chars "HEAD") LTx c) /\
  d log_txt = Some (chars "HEcd" ++ [nl]) /\ header_first (chars "HEAD") LTx (chars "HEcd" ++ [nl]).
Proof.
  destruct lost_header as (tr1 & e1 & tr2 & e2 & d & Li & D & _). exists [tr1 ++ [e1]; tr2 ++ [e2]], d.
  split; [exact Li|]. split; [reflexivity|]. split; [discriminate|]. split; [exact D|].
  right. exists (chars "HE"), (chars "cd" ++ [nl]). split; [discriminate|]. split; [exists (chars "AD" ++ [nl]); reflexivity|]. split; [reflexivity|].
  exists [chars "cd" ++ [nl]]. split; [reflexivity|]. constructor; [|constructor].
  exists (Entry 0 0 true 0%Z 0%Z 12), (chars "cd"). split; [reflexivity|]. exists []. reflexivity.
Qed.
Lemma line_chars e lt : LTx e lt -> Forall (fun c => c <> "H"%char) (lt ++ [nl]).
Proof. intros ->. unfold line_text. destruct (Nat.eqb (e_msg e) 11); repeat constructor; discriminate. Qed.
Lemma parts_chars w : parts_of_lines LTx w -> Forall (fun c => c <> "H"%char) w.
Proof.
  intros (xs & -> & F). induction F as [|x xs (e & lt & Hl & r & E) F IH]; cbn; [constructor|]. apply Forall_app. split; [|exact IH].
  pose proof (line_chars e lt Hl) as G. rewrite E in G. apply Forall_app in G. apply G.
Qed.
(** a line before the header, a second header *)
Lemma header_first_excludes : ~ header_first (chars "HEAD") LTx (chars "ab" ++ [nl] ++ chars "HEAD" ++ [nl]) /\
  ~ header_first (chars "HEAD") LTx (chars "HEAD" ++ [nl] ++ chars "ab" ++ [nl] ++ chars "HEAD" ++ [nl]).
Proof.
  split; intros [X|(q & w & N & (r & P) & E & Pw)]; try discriminate.
  - destruct q; [congruence|]. cbn in P, E. injection P as <- P. discriminate.
  - apply parts_chars in Pw. rewrite Forall_forall in Pw. apply (Pw "H"%char); [|reflexivity].
    assert (L : List.length q <= 5) by (apply (f_equal (@List.length ascii)) in P; rewrite !app_length in P; cbn in P; lia).
    destruct q as [|? [|? [|? [|? [|? [|? ?]]]]]]; try (cbn in L; lia); try congruence; cbn in E; injection E; intros; subst; cbn; auto 12.
Qed.
