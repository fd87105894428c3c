From Coq Require Import Ascii String List Bool Arith ZArith Lia.
From Verif Require Import Base LogTextModel LogTextSpec LogTextProofs StampSpec SampleModel SampleSpec.
Import ListNotations.
Open Scope nat_scope.
Open Scope list_scope.

Ltac run_ops := cbn [app fold_left apply put out width fill to_left chars list_ascii_of_string]; unfold put; cbn [out width fill to_left length Nat.sub repeat];
  rewrite ?app_nil_r; do 3 (rewrite <- ?app_assoc; cbn [app]).
Definition split_row (pid : Z) (e : log_line) : text :=
  put_time (t_local e) ++ pad_left "0" 6 (dec (Z.rem (t_micros e) 1000000)) ++ chars "|" ++
  pad_left " " 7 (dec pid) ++ chars "|" ++ pad_left " " 7 (dec (l_thread e)) ++ chars "|" ++
  pad_right 20 (firstn 20 (file_name (l_file e))) ++ chars "|" ++ pad_left " " 5 (dec (l_line e)) ++ chars "|" ++
  pad_right 20 (firstn 20 (l_function e)) ++ chars "|" ++ l_message e.
Lemma split_row_proof pid e s : out (split_log_writer pid e s) = out s ++ split_row pid e.
Proof.
  unfold split_log_writer, write_ops, split_ops, split_row, pad_left, pad_right.
  set (m := dec (Z.rem (t_micros e) 1000000)). set (p := dec pid). set (th := dec (l_thread e)). set (li := dec (l_line e)).
  set (fi := firstn 20 (file_name (l_file e))). set (fu := firstn 20 (l_function e)).
  run_ops. reflexivity.
Qed.
Lemma split_aligned_proof pid e s : fits_columns e -> (0 <= pid < 10000000)%Z ->
  exists t, out (split_log_writer pid e s) = out s ++ t /\ columns split_widths "|" t (l_message e).
Proof.
  intros (T & Mi & Th & Li) Hp. exists (split_row pid e). split; [apply split_row_proof|].
  assert (L1 : length (put_time (t_local e) ++ pad_left "0" 6 (dec (Z.rem (t_micros e) 1000000))) = 26).
  { rewrite app_length, time_length, pad_left_length; [reflexivity| |exact T]. apply dec_length. cbn. rewrite Z.rem_mod_nonneg by lia. apply Z.mod_pos_bound. lia. }
  assert (L0 : length (pad_left " " 7 (dec pid)) = 7) by (apply pad_left_length, dec_length; cbn; lia).
  assert (L2 : length (pad_left " " 7 (dec (l_thread e))) = 7) by (apply pad_left_length, dec_length; cbn; lia).
  assert (L4 : length (pad_right 20 (firstn 20 (file_name (l_file e)))) = 20) by apply pad_right_length, firstn_le_length.
  assert (L5 : length (pad_left " " 5 (dec (l_line e))) = 5).
  { apply pad_left_length. destruct (Z.ltb_spec (l_line e) 0); [apply dec_neg_length|apply dec_length]; cbn; lia. }
  assert (L6 : length (pad_right 20 (firstn 20 (l_function e))) = 20) by apply pad_right_length, firstn_le_length.
  unfold columns, split_row.
  exists [put_time (t_local e) ++ pad_left "0" 6 (dec (Z.rem (t_micros e) 1000000)); pad_left " " 7 (dec pid); pad_left " " 7 (dec (l_thread e));
    pad_right 20 (firstn 20 (file_name (l_file e))); pad_left " " 5 (dec (l_line e)); pad_right 20 (firstn 20 (l_function e))].
  split; [cbn [map split_widths]; rewrite L0, L1, L2, L4, L5, L6; reflexivity|]. cbn [flat_map]. rewrite app_nil_r. do 3 (rewrite <- ?app_assoc; cbn [app]). reflexivity.
Qed.
Lemma split_header_proof s : exists t1 t2, out (split_header_writer s) = out s ++ t1 ++ [newline] ++ t2 /\
  columns split_widths "|" t1 (chars "Message") /\ columns split_widths "+" t2 (repeat "-"%char 7) /\ ~ In newline t1 /\ ~ In newline t2.
Proof.
  exists (pad_right 26 (chars "Timestamp") ++ chars "|" ++ pad_right 7 (chars "PID") ++ chars "|" ++ pad_right 7 (chars "TID") ++ chars "|" ++
      pad_right 20 (chars "File Name") ++ chars "|" ++ pad_right 5 (chars "Line") ++ chars "|" ++ pad_right 20 (chars "Function") ++ chars "|" ++ chars "Message"),
    (repeat "-"%char 26 ++ chars "+" ++ repeat "-"%char 7 ++ chars "+" ++ repeat "-"%char 7 ++ chars "+" ++
      repeat "-"%char 20 ++ chars "+" ++ repeat "-"%char 5 ++ chars "+" ++ repeat "-"%char 20 ++ chars "+" ++ repeat "-"%char 7).
  split; [cbn; rewrite <- !app_assoc; reflexivity|]. split; [|split; [|split; cbn; intuition discriminate]].
  - exists [pad_right 26 (chars "Timestamp"); pad_right 7 (chars "PID"); pad_right 7 (chars "TID"); pad_right 20 (chars "File Name"); pad_right 5 (chars "Line"); pad_right 20 (chars "Function")]. split; reflexivity.
  - exists [repeat "-"%char 26; repeat "-"%char 7; repeat "-"%char 7; repeat "-"%char 20; repeat "-"%char 5; repeat "-"%char 20]. split; reflexivity.
Qed.
Lemma split_file_proof l l' : (0 <= l <= 8)%Z -> (0 <= l' <= 8)%Z -> split_file l = split_file l' -> l = l'.
Proof.
  intros H H' E. unfold split_file in E. apply app_inv_head, app_inv_tail in E. apply level_names_proof; try lia. left.
  rewrite <- (string_of_list_ascii_of_string (log_level_to_c_str l)), <- (string_of_list_ascii_of_string (log_level_to_c_str l')). unfold chars in E. rewrite E. reflexivity.
Qed.

(** log_with_setters *)
Lemma setters_row_proof pid e s : width s = 0 ->
  out (setters_log_writer pid e s) = out s ++ chars "[" ++ put_time (t_local e) ++ dec (Z.rem (Z.quot (t_micros e) 1000) 1000) ++ chars "] [" ++
    dec pid ++ chars ":" ++ dec (l_thread e) ++ chars "] [" ++ file_name (l_file e) ++ chars ":" ++ dec (l_line e) ++ chars "] [" ++
    chars (log_level_to_shortened (l_level e)) ++ chars "] " ++ l_message e /\ width (setters_log_writer pid e s) = 0.
Proof.
  intros W. unfold setters_log_writer, write_ops, setters_ops.
  set (m := dec (Z.rem (Z.quot (t_micros e) 1000) 1000)). set (p := dec pid). set (th := dec (l_thread e)). set (li := dec (l_line e)).
  set (le := chars (log_level_to_shortened (l_level e))).
  destruct s as [o w f [|]]; cbn [width out] in *; subst w; run_ops; split; reflexivity.
Qed.
Lemma millis_rem e : (0 <= t_micros e)%Z -> Z.rem (Z.quot (t_micros e) 1000) 1000 = millis e.
Proof.
  intros H. unfold millis. rewrite Z.quot_div_nonneg by lia. apply Z.rem_mod_nonneg; [apply Z.div_pos; lia|lia].
Qed.
Lemma fraction_proof z : (0 <= z < 1000)%Z -> fraction (dec z) z <-> (z = 0 \/ 100 <= z)%Z.
Proof.
  intros H. unfold fraction. rewrite dec_value_proof by lia. split.
  - intros E. destruct (Z.eq_dec z 0); [auto|]. right. assert (E' : (1000 = 10 ^ Z.of_nat (length (dec z)))%Z) by nia.
    destruct (Z.lt_ge_cases z 100) as [L|]; [|lia]. exfalso. assert (X : length (dec z) <= 2) by (apply (dec_length z 1); cbn; lia).
    destruct (length (dec z)) as [|[|[|k]]]; cbn in E'; lia.
  - intros [->|L]; [reflexivity|]. assert (X : length (dec z) <= 3) by (apply (dec_length z 2); cbn; lia). assert (Y : 2 < length (dec z)) by (apply dec_long; cbn; lia).
    replace (length (dec z)) with 3 by lia. reflexivity.
Qed.
Theorem setters_proof pid e s : width s = 0 -> (0 <= t_micros e)%Z ->
  exists f rest, out (setters_log_writer pid e s) = out s ++ chars "[" ++ put_time (t_local e) ++ f ++ chars "] " ++ rest /\ number (millis e) f /\
  (fraction f (millis e) <-> millis e = 0 \/ 100 <= millis e)%Z.
Proof.
  intros W M. destruct (setters_row_proof pid e s W) as [E _]. rewrite millis_rem in E by exact M.
  assert (B : (0 <= millis e < 1000)%Z) by (apply Z.mod_pos_bound; lia).
  exists (dec (millis e)). eexists. split; [rewrite E; change (chars "] [") with (chars "] " ++ chars "["); rewrite <- (app_assoc (chars "] ") (chars "[")); reflexivity|].
  split; [apply number_proof; lia|apply fraction_proof, B].
Qed.
Theorem setters_shows_proof pid e s : width s = 0 -> (0 <= t_micros e)%Z -> (0 <= pid)%Z -> (0 <= l_thread e)%Z ->
  exists ms p th file ln, number (millis e) ms /\ number pid p /\ number (l_thread e) th /\ last_part (l_file e) file /\ signed (l_line e) ln /\
  out (setters_log_writer pid e s) = out s ++ chars "[" ++ put_time (t_local e) ++ ms ++ chars "] [" ++ p ++ chars ":" ++ th ++ chars "] [" ++
    file ++ chars ":" ++ ln ++ chars "] [" ++ chars (log_level_to_shortened (l_level e)) ++ chars "] " ++ l_message e /\
  width (setters_log_writer pid e s) = 0.
Proof.
  intros W M Hp Ht. destruct (setters_row_proof pid e s W) as [E E']. rewrite millis_rem in E by exact M.
  assert (B : (0 <= millis e < 1000)%Z) by (apply Z.mod_pos_bound; lia).
  exists (dec (millis e)), (dec pid), (dec (l_thread e)), (file_name (l_file e)), (dec (l_line e)).
  split; [apply number_proof; lia|]. split; [apply number_proof, Hp|]. split; [apply number_proof, Ht|]. split; [apply file_name_proof|]. split; [apply signed_proof|]. auto.
Qed.
