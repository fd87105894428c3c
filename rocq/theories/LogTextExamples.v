(** Concrete texts of the logger. *)
From Coq Require Import Ascii String List Bool Arith ZArith Lia.
From Verif Require Import Base ListUpdate LoggerModel LoggerSpec LoggerProofs LoggerExamples LogTextModel LogTextSpec LogTextProofs.
Import ListNotations.
Open Scope list_scope.

Definition sample_tm := Tm 2024 2 29 23 5 9.
Definition sample := LogLine sample_tm 1709247909000042 1234 5 (chars "/src/a_very_long_file_name.cpp") 77 (chars "run") (chars "disk almost full").
Lemma sample_row : fits_columns sample /\
  out (default_log_writer false sample (Stream [] 3 "x" true)) =
  chars "2024-02-29 23:05:09.000042|   1234|Warning |a_very_long_file_nam|   77|run                 |disk almost full".
Proof. split; [unfold fits_columns, plain_tm, sample; cbn; lia|vm_compute; reflexivity]. Qed.
Lemma sample_header : out (default_header_writer false (Stream [] 0 " " false)) =
  chars "Timestamp                 |    TID|Level   |File Name           | Line|Function            |Message" ++ [newline] ++
  chars "--------------------------+-------+--------+--------------------+-----+--------------------+-------".
Proof. vm_compute. reflexivity. Qed.

(** a time before 1970: the microseconds get a sign *)
Definition before_epoch := LogLine (Tm 1969 12 31 23 59 59) (-123456) 1234 5 (chars "a.cpp") 77 (chars "run") (chars "m").
Lemma before_epoch_row : plain_tm (t_local before_epoch) /\ (0 <= l_thread before_epoch < 10000000)%Z /\ (0 <= l_line before_epoch <= 99999)%Z /\
  ~ columns (widths true) "|" (log_row true before_epoch) (l_message before_epoch) /\
  log_row true before_epoch = chars "1969-12-31 23:59:59.-123456|   1234|Warning |m".
Proof.
  split; [unfold plain_tm; cbn; lia|]. split; [cbn; lia|]. split; [cbn; lia|]. split; [|vm_compute; reflexivity].
  intros (cells & W & E). apply (f_equal (@length ascii)) in E. rewrite app_length in E.
  assert (L : length (flat_map (fun c => c ++ ["|"%char]) cells) = fold_right (fun x n => S x + n) 0 (map (@length ascii) cells)).
  { clear. induction cells as [|c l IH]; [reflexivity|]. cbn. rewrite !app_length, IH. cbn. lia. }
  rewrite L, W in E. vm_compute in E. discriminate.
Qed.
(** a message with a line break is two lines *)
Definition two_lines := LogLine sample_tm 0 1 3 (chars "a.cpp") 7 (chars "f") (chars "a" ++ [newline] ++ chars "2024-02-29 23:05:09.000000|      1|Fatal   |forged").
Lemma two_lines_row : fits_columns two_lines /\ out (write_line (default_log_writer true two_lines) (Stream [] 0 " " false)) =
  chars "2024-02-29 23:05:09.000000|      1|Info    |a" ++ [newline] ++ chars "2024-02-29 23:05:09.000000|      1|Fatal   |forged" ++ [newline].
Proof. split; [unfold fits_columns, plain_tm, two_lines; cbn; lia|vm_compute; reflexivity]. Qed.
Lemma one_line_ex : plain_tm (t_local sample) /\ ~ In newline (l_file sample) /\ ~ In newline (l_function sample) /\ ~ In newline (l_message sample).
Proof. split; [unfold plain_tm; cbn; lia|]. cbn. intuition discriminate. Qed.

(** writef("%s", "") *)
Lemma writef_empty : writef_message (chars "%s") (Some []) true = Ret (chars "%s").
Proof. reflexivity. Qed.
Lemma writef_longest : forall scheme t alloc, Z.of_nat (length t) = int_max -> writef_message scheme (Some t) alloc = Ub.
Proof.
  intros scheme t alloc H. unfold writef_message, vsnprintf. rewrite H, Z.leb_refl. cbn [fst]. rewrite Z.eqb_refl. reflexivity.
Qed.
Lemma writef_longest_exists : exists t : text, Z.of_nat (length t) = int_max.
Proof. exists (repeat "a"%char (Z.to_nat int_max)). rewrite repeat_length, Z2Nat.id; [reflexivity|unfold int_max; lia]. Qed.
Lemma writef_ex : writef_message (chars "%d-%s") (Some (chars "7-x")) true = Ret (chars "7-x").
Proof. vm_compute. reflexivity. Qed.

(** end() while the level is too high, then more text, then the destructor when the level has been lowered *)
Lemma streamer_end_later : slife [SPut (chars "a"); SEnd false; SPut (chars "b")] true = [chars "ab"].
Proof. reflexivity. Qed.
Lemma streamer_ex : slife [SPut (chars "a"); SPut (chars "b"); SEnd true; SPut (chars "c"); SEnd true] true = [chars "ab"] /\
  slife [SPut (chars "a"); SEnd false] false = [].
Proof. split; reflexivity. Qed.

(** an entry of level off is logged while the level is off *)
Lemma off_execution : exists tr s e, exec_nat (start 9 0 5 0) tr s /\ (forall z, ~ In (ELevel z) tr) /\ In (EAccept e) tr.
Proof.
  pose proof (exec_nil Nat.ltb (start 9 0 5 0)) as E.
  eapply exec_go in E; [|left; eapply (c_call _ 0 7 9%Z 1); first [reflexivity | cbn; tauto]|reflexivity|reflexivity].
  eapply exec_go in E; [|right; left; eapply (p_check _ _ _ []); reflexivity|reflexivity|reflexivity].
  eapply exec_go in E; [|right; left; eapply (p_time _ _ _ []); reflexivity|reflexivity|reflexivity].
  eapply exec_go in E; [|right; left; eapply (p_add _ _ _ []); reflexivity|reflexivity|reflexivity].
  do 3 eexists. split; [exact E|]. split; [cbn; intros z; intuition discriminate|]. cbn. do 3 right. left. reflexivity.
Qed.
