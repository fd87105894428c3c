From Coq Require Import Ascii String List Bool Arith ZArith Lia.
From Verif Require Import Base LogTextModel LogTextSpec.
Import ListNotations.
Open Scope list_scope.

(** * Rows *)
Lemma row_proof hide e s : out (default_log_writer hide e s) = out s ++ log_row hide e.
Proof.
  unfold default_log_writer, write_ops, log_ops, log_row, pad_left, pad_right.
  set (m := dec (Z.rem (t_micros e) 1000000)). set (th := dec (l_thread e)). set (li := dec (l_line e)).
  set (ti := chars (log_level_to_title (l_level e))). set (fi := firstn 20 (file_name (l_file e))). set (fu := firstn 20 (l_function e)).
  destruct hide; cbn [app fold_left apply put out width fill to_left chars list_ascii_of_string]; unfold put; cbn [out width fill to_left length Nat.sub repeat];
    fold m th li; rewrite ?app_nil_r; do 3 (rewrite <- ?app_assoc; cbn [app]); reflexivity.
Qed.

(** after a line or header the stream is as before for the next one *)
Lemma header_proof hide s : out (default_header_writer hide s) = out s ++
  pad_right 26 (chars "Timestamp") ++ chars "|" ++ pad_left " " 7 (chars "TID") ++ chars "|" ++ pad_right 8 (chars "Level") ++ chars "|" ++
  (if hide then [] else pad_right 20 (chars "File Name") ++ chars "|" ++ pad_left " " 5 (chars "Line") ++ chars "|" ++ pad_right 20 (chars "Function") ++ chars "|") ++
  chars "Message" ++ [newline] ++
  repeat "-"%char 26 ++ chars "+" ++ repeat "-"%char 7 ++ chars "+" ++ repeat "-"%char 8 ++ chars "+" ++
  (if hide then [] else repeat "-"%char 20 ++ chars "+" ++ repeat "-"%char 5 ++ chars "+" ++ repeat "-"%char 20 ++ chars "+") ++ repeat "-"%char 7.
Proof. destruct hide; cbn; rewrite <- !app_assoc; reflexivity. Qed.

(** * Numbers *)
Lemma ten k : (10 ^ Z.of_nat (S k) = 10 * 10 ^ Z.of_nat k)%Z.
Proof. rewrite Nat2Z.inj_succ, Z.pow_succ_r by lia. reflexivity. Qed.
Lemma digits_length fuel : forall n k, (0 <= n < 10 ^ Z.of_nat (S k))%Z -> length (dec_digits fuel n) <= S k.
Proof.
  induction fuel as [|f IH]; intros n k H; cbn [dec_digits]; [cbn; lia|]. destruct (Z.ltb_spec n 10); [cbn; lia|].
  rewrite app_length. cbn [length]. rewrite ten in H. destruct k as [|k]; [cbn in H; lia|].
  specialize (IH (n / 10)%Z k). enough (length (dec_digits f (n / 10)) <= S k) by lia. apply IH. split; [apply Z.div_pos; lia|].
  apply Z.div_lt_upper_bound; lia.
Qed.
Lemma digit_value d : (0 <= d <= 9)%Z -> (Z.of_N (N_of_ascii (digit d)) - 48 = d)%Z.
Proof.
  intros H. unfold digit. rewrite N_ascii_embedding by lia. rewrite Z2N.id by lia. lia.
Qed.
Lemma value_snoc t c : value (t ++ [c]) = (10 * value t + (Z.of_N (N_of_ascii c) - 48))%Z.
Proof. unfold value. rewrite fold_left_app. reflexivity. Qed.
Lemma digits_value fuel : forall n, (0 <= n < 2 ^ Z.of_nat fuel)%Z -> value (dec_digits fuel n) = n.
Proof.
  induction fuel as [|f IH]; intros n H; cbn [dec_digits]; [cbn in H |- *; lia|]. destruct (Z.ltb_spec n 10).
  - change [digit n] with ([] ++ [digit n]). rewrite value_snoc, digit_value by lia. cbn. lia.
  - rewrite value_snoc, digit_value by (pose proof (Z.mod_pos_bound n 10); lia). rewrite IH.
    + pose proof (Z.div_mod n 10). lia.
    + rewrite Nat2Z.inj_succ, Z.pow_succ_r in H by lia. split; [apply Z.div_pos; lia|]. apply Z.div_lt_upper_bound; lia.
Qed.
Lemma fuel_enough n : (0 <= n)%Z -> (n < 2 ^ Z.of_nat (S (Z.to_nat (Z.log2 n))))%Z.
Proof.
  intros H. rewrite Nat2Z.inj_succ, Z2Nat.id by apply Z.log2_nonneg. destruct (Z.eq_dec n 0) as [->|]; [reflexivity|]. apply Z.log2_spec. lia.
Qed.
(** [dec] writes the number *)
Lemma dec_value_proof z : (0 <= z)%Z -> value (dec z) = z.
Proof. intros H. unfold dec. destruct (Z.ltb_spec z 0); [lia|]. apply digits_value. split; [exact H|apply fuel_enough, H]. Qed.
Lemma dec_neg_proof z : (z < 0)%Z -> exists t, dec z = "-"%char :: t /\ value t = (- z)%Z.
Proof.
  intros H. unfold dec. destruct (Z.ltb_spec z 0); [|lia]. eexists. split; [reflexivity|]. apply digits_value. split; [lia|apply fuel_enough; lia].
Qed.
Definition is_digit (c : ascii) : Prop := exists d, (0 <= d <= 9)%Z /\ c = digit d.
Lemma digits_digits fuel : forall n, (0 <= n)%Z -> Forall is_digit (dec_digits fuel n).
Proof.
  induction fuel as [|f IH]; intros n H; cbn [dec_digits]; [constructor|]. destruct (Z.ltb_spec n 10).
  - constructor; [exists n; split; [lia|reflexivity]|constructor].
  - apply Forall_app. split; [apply IH, Z.div_pos; lia|]. constructor; [|constructor]. exists (n mod 10)%Z. split; [pose proof (Z.mod_pos_bound n 10); lia|reflexivity].
Qed.
Lemma value_bound t : Forall is_digit t -> (0 <= value t < 10 ^ Z.of_nat (length t))%Z.
Proof.
  induction t as [|c t IH] using rev_ind; intros F; [cbn; lia|]. apply Forall_app in F. destruct F as [F1 F2]. inversion F2 as [|x y (d & Hd & ->) _]; subst.
  rewrite value_snoc, digit_value, app_length by exact Hd. cbn [length]. rewrite Nat.add_1_r, ten. specialize (IH F1). lia.
Qed.
Lemma dec_digit_chars z : (0 <= z)%Z -> Forall is_digit (dec z).
Proof. intros H. unfold dec. destruct (Z.ltb_spec z 0); [lia|]. apply digits_digits, H. Qed.
Lemma dec_length z k : (0 <= z < 10 ^ Z.of_nat (S k))%Z -> length (dec z) <= S k.
Proof. intros H. unfold dec. destruct (Z.ltb_spec z 0); [lia|]. apply digits_length, H. Qed.
Lemma dec_neg_length z k : (- 10 ^ Z.of_nat (S k) < z < 0)%Z -> length (dec z) <= S (S k).
Proof. intros H. unfold dec. destruct (Z.ltb_spec z 0); [|lia]. cbn [length]. apply le_n_S, digits_length. lia. Qed.
Lemma dec_long z k : (10 ^ Z.of_nat k <= z)%Z -> k < length (dec z).
Proof.
  intros H. assert (0 <= z)%Z by (pose proof (Z.pow_nonneg 10 (Z.of_nat k)); lia). destruct (Nat.lt_ge_cases k (length (dec z))) as [|L]; [assumption|]. exfalso.
  pose proof (value_bound _ (dec_digit_chars z H0)) as B. rewrite dec_value_proof in B by assumption.
  pose proof (Z.pow_le_mono_r 10 (Z.of_nat (length (dec z))) (Z.of_nat k)). lia.
Qed.

(** * C68 *)
Lemma pad_left_length c n t : length t <= n -> length (pad_left c n t) = n.
Proof. intros H. unfold pad_left. rewrite app_length, repeat_length. lia. Qed.
Lemma pad_right_length n t : length t <= n -> length (pad_right n t) = n.
Proof. intros H. unfold pad_right. rewrite app_length, repeat_length. lia. Qed.
Lemma title_length l : length (chars (log_level_to_title l)) <= 8.
Proof.
  unfold log_level_to_title. destruct l as [|p|p]; [cbn; lia| |]; repeat (destruct p as [p|p|]; try (cbn; lia)).
Qed.
Lemma time_length t : plain_tm t -> length (put_time t) = 20.
Proof.
  intros (Y & _). unfold put_time. rewrite !app_length. cbn [length chars list_ascii_of_string two].
  assert (length (dec (year t)) = 4); [|lia]. pose proof (dec_length (year t) 3). pose proof (dec_long (year t) 3). cbn in *. lia.
Qed.
Lemma aligned_proof hide e s : fits_columns e -> exists t, out (default_log_writer hide e s) = out s ++ t /\ columns (widths hide) "|" t (l_message e).
Proof.
  intros (T & Mi & Th & Li). exists (log_row hide e). split; [apply row_proof|].
  assert (L1 : length (put_time (t_local e) ++ pad_left "0" 6 (dec (Z.rem (t_micros e) 1000000))) = 26).
  { rewrite app_length, time_length, pad_left_length; [reflexivity| |exact T]. apply dec_length. cbn. rewrite Z.rem_mod_nonneg by lia. apply Z.mod_pos_bound. lia. }
  assert (L2 : length (pad_left " " 7 (dec (l_thread e))) = 7) by (apply pad_left_length, dec_length; cbn; lia).
  assert (L3 : length (pad_right 8 (chars (log_level_to_title (l_level e)))) = 8) by apply pad_right_length, title_length.
  assert (L4 : length (pad_right 20 (firstn 20 (file_name (l_file e)))) = 20) by apply pad_right_length, firstn_le_length.
  assert (L5 : length (pad_left " " 5 (dec (l_line e))) = 5).
  { apply pad_left_length. destruct (Z.ltb_spec (l_line e) 0); [apply dec_neg_length|apply dec_length]; cbn; lia. }
  assert (L6 : length (pad_right 20 (firstn 20 (l_function e))) = 20) by apply pad_right_length, firstn_le_length.
  destruct hide; unfold columns, log_row.
  - exists [put_time (t_local e) ++ pad_left "0" 6 (dec (Z.rem (t_micros e) 1000000)); pad_left " " 7 (dec (l_thread e));
      pad_right 8 (chars (log_level_to_title (l_level e)))].
    split; [cbn [map widths]; rewrite L1, L2, L3; reflexivity|]. cbn [flat_map]. rewrite app_nil_r. cbn [app]. do 3 (rewrite <- ?app_assoc; cbn [app]). reflexivity.
  - exists [put_time (t_local e) ++ pad_left "0" 6 (dec (Z.rem (t_micros e) 1000000)); pad_left " " 7 (dec (l_thread e));
      pad_right 8 (chars (log_level_to_title (l_level e))); pad_right 20 (firstn 20 (file_name (l_file e))); pad_left " " 5 (dec (l_line e));
      pad_right 20 (firstn 20 (l_function e))].
    split; [cbn [map widths]; rewrite L1, L2, L3, L4, L5, L6; reflexivity|]. cbn [flat_map]. rewrite app_nil_r. do 3 (rewrite <- ?app_assoc; cbn [app]). reflexivity.
Qed.
Lemma header_aligned_proof hide s : exists t1 t2, out (default_header_writer hide s) = out s ++ t1 ++ [newline] ++ t2 /\
  columns (widths hide) "|" t1 (chars "Message") /\ columns (widths hide) "+" t2 (repeat "-"%char 7) /\ ~ In newline t1 /\ ~ In newline t2 /\
  fill (default_header_writer hide s) = " "%char /\ width (default_header_writer hide s) = 0.
Proof.
  destruct hide.
  - exists (pad_right 26 (chars "Timestamp") ++ chars "|" ++ pad_left " " 7 (chars "TID") ++ chars "|" ++ pad_right 8 (chars "Level") ++ chars "|" ++ chars "Message"),
      (repeat "-"%char 26 ++ chars "+" ++ repeat "-"%char 7 ++ chars "+" ++ repeat "-"%char 8 ++ chars "+" ++ repeat "-"%char 7).
    split; [rewrite header_proof; reflexivity|]. split; [|split; [|split; [|split; [|split; reflexivity]]; cbn; intuition discriminate]].
    + exists [pad_right 26 (chars "Timestamp"); pad_left " " 7 (chars "TID"); pad_right 8 (chars "Level")]. split; reflexivity.
    + exists [repeat "-"%char 26; repeat "-"%char 7; repeat "-"%char 8]. split; reflexivity.
  - exists (pad_right 26 (chars "Timestamp") ++ chars "|" ++ pad_left " " 7 (chars "TID") ++ chars "|" ++ pad_right 8 (chars "Level") ++ chars "|" ++
        pad_right 20 (chars "File Name") ++ chars "|" ++ pad_left " " 5 (chars "Line") ++ chars "|" ++ pad_right 20 (chars "Function") ++ chars "|" ++ chars "Message"),
      (repeat "-"%char 26 ++ chars "+" ++ repeat "-"%char 7 ++ chars "+" ++ repeat "-"%char 8 ++ chars "+" ++
        repeat "-"%char 20 ++ chars "+" ++ repeat "-"%char 5 ++ chars "+" ++ repeat "-"%char 20 ++ chars "+" ++ repeat "-"%char 7).
    split; [rewrite header_proof; reflexivity|]. split; [|split; [|split; [|split; [|split; reflexivity]]; cbn; intuition discriminate]].
    + exists [pad_right 26 (chars "Timestamp"); pad_left " " 7 (chars "TID"); pad_right 8 (chars "Level"); pad_right 20 (chars "File Name"); pad_left " " 5 (chars "Line"); pad_right 20 (chars "Function")]. split; reflexivity.
    + exists [repeat "-"%char 26; repeat "-"%char 7; repeat "-"%char 8; repeat "-"%char 20; repeat "-"%char 5; repeat "-"%char 20]. split; reflexivity.
Qed.
(** cells of equal widths: the separators are at the same places *)
Lemma columns_same w sep sep' t t' r r' : columns w sep t r -> columns w sep' t' r' ->
  exists n, length t = n + length r /\ length t' = n + length r' /\
  forall k, k < length w -> let p := fold_right (fun x n => S x + n) 0 (firstn k w) + nth k w 0 in nth_error t p = Some sep /\ nth_error t' p = Some sep'.
Proof.
  assert (G : forall w sep t r, columns w sep t r -> length t = fold_right (fun x n => S x + n) 0 w + length r /\
    forall k, k < length w -> nth_error t (fold_right (fun x n => S x + n) 0 (firstn k w) + nth k w 0) = Some sep).
  { clear. intros w sep t r (cells & <- & ->). induction cells as [|c cells IH]; [split; [reflexivity|cbn; lia]|].
    destruct IH as [IH1 IH2]. cbn [map flat_map fold_right]. split.
    - rewrite <- !app_assoc, !app_length. rewrite app_length in IH1. cbn [length]. lia.
    - intros [|k] Hk; cbn [firstn fold_right nth].
      + rewrite <- !app_assoc. rewrite nth_error_app2 by lia. rewrite Nat.add_0_l, Nat.sub_diag. reflexivity.
      + rewrite <- !app_assoc. rewrite nth_error_app2 by lia.
        match goal with |- nth_error _ ?y = _ => replace y with (S (fold_right (fun x n => S x + n) 0 (firstn k (map (@length ascii) cells)) + nth k (map (@length ascii) cells) 0)) by lia end.
        cbn [app nth_error]. apply IH2. cbn in Hk. lia. }
  intros H H'. destruct (G _ _ _ _ H) as [A B]. destruct (G _ _ _ _ H') as [A' B']. eexists. split; [exact A|]. split; [exact A'|]. intros k Hk p. split; [apply B, Hk|apply B', Hk].
Qed.
(** names *)
Lemma base_name_spec rest : forall cur d, last_part (d ++ cur) cur \/ True -> forall pre, (exists q, cur = q ++ rest /\ forallb (fun c => negb (is_slash c)) q = true) ->
  (pre = [] \/ exists d' c, pre = d' ++ [c] /\ is_slash c = true) -> last_part (pre ++ cur) (base_name cur rest).
Proof.
  induction rest as [|c rest IH]; intros cur d _ pre (q & -> & Hq) Hp; cbn [base_name].
  - rewrite app_nil_r in *. split; [|exact Hq]. exists pre. split; [reflexivity|exact Hp].
  - destruct (is_slash c) eqn:Sc.
    + replace (pre ++ q ++ c :: rest) with ((pre ++ q ++ [c]) ++ rest) by (rewrite <- !app_assoc; reflexivity).
      apply (IH rest d (or_intror I)); [exists []; split; reflexivity|right]. exists (pre ++ q), c. split; [apply app_assoc|exact Sc].
    + apply (IH (q ++ c :: rest) d (or_intror I)); [|exact Hp]. exists (q ++ [c]). split; [rewrite <- app_assoc; reflexivity|]. rewrite forallb_app, Hq. cbn. rewrite Sc. reflexivity.
Qed.
Lemma file_name_proof p : last_part p (file_name p).
Proof. apply (base_name_spec p p [] (or_intror I) []); [exists []; split; reflexivity|left; reflexivity]. Qed.

(** * one line per entry *)
Lemma digit_no_newline c : is_digit c -> c <> newline.
Proof.
  intros (d & Hd & ->) E. apply (f_equal (fun c => Z.of_N (N_of_ascii c) - 48)%Z) in E. rewrite digit_value in E by exact Hd. cbn in E. lia.
Qed.
Lemma digits_no_newline t : Forall is_digit t -> ~ In newline t.
Proof. intros F X. rewrite Forall_forall in F. apply (digit_no_newline newline); auto. Qed.
Lemma dec_no_newline z : ~ In newline (dec z).
Proof.
  unfold dec. destruct (Z.ltb_spec z 0); [intros [X|X]; [discriminate|]; revert X|]; apply digits_no_newline, digits_digits; lia.
Qed.
Lemma two_no_newline n : (0 <= n <= 99)%Z -> ~ In newline (two n).
Proof.
  intros H. apply digits_no_newline. constructor; [|constructor; [|constructor]].
  - exists (n / 10)%Z. split; [|reflexivity]. split; [apply Z.div_pos; lia|]. apply Zlt_succ_le. apply Z.div_lt_upper_bound; lia.
  - exists (n mod 10)%Z. split; [pose proof (Z.mod_pos_bound n 10); lia|reflexivity].
Qed.
Lemma time_no_newline t : plain_tm t -> ~ In newline (put_time t).
Proof.
  intros (Y & Mo & Da & Ho & Mi & Se). unfold put_time. rewrite !in_app_iff.
  pose proof (dec_no_newline (year t)). pose proof (two_no_newline _ Mo). pose proof (two_no_newline _ Da). pose proof (two_no_newline _ Ho).
  pose proof (two_no_newline _ Mi). pose proof (two_no_newline _ Se). cbn [chars list_ascii_of_string In]. intuition discriminate.
Qed.
Lemma pad_left_no c n t : c <> newline -> ~ In newline t -> ~ In newline (pad_left c n t).
Proof. intros Hc H X. unfold pad_left in X. apply in_app_or in X. destruct X as [X|X]; [apply repeat_spec in X; congruence|auto]. Qed.
Lemma pad_right_no n t : ~ In newline t -> ~ In newline (pad_right n t).
Proof. intros H X. unfold pad_right in X. apply in_app_or in X. destruct X as [X|X]; [auto|apply repeat_spec in X; discriminate]. Qed.
Lemma title_no l : ~ In newline (chars (log_level_to_title l)).
Proof.
  unfold log_level_to_title. destruct l as [|p|p]; [cbn; intuition discriminate| |]; repeat (destruct p as [p|p|]; try (cbn; intuition discriminate)).
Qed.
Lemma firstn_in {A} (x : A) n l : In x (firstn n l) -> In x l.
Proof. intros H. rewrite <- (firstn_skipn n l). apply in_or_app. left. exact H. Qed.
Lemma file_name_in c p : In c (file_name p) -> In c p.
Proof. intros H. destruct (file_name_proof p) as [(d & E & _) _]. rewrite E. apply in_or_app. right. exact H. Qed.
Lemma one_line_proof hide e : plain_tm (t_local e) -> ~ In newline (l_file e) -> ~ In newline (l_function e) -> ~ In newline (l_message e) -> ~ In newline (log_row hide e).
Proof.
  intros T F1 F2 F3. unfold log_row. rewrite !in_app_iff.
  pose proof (time_no_newline _ T). pose proof (pad_left_no "0" 6 (dec (Z.rem (t_micros e) 1000000))) as A1. pose proof (pad_left_no " " 7 (dec (l_thread e))) as A2.
  pose proof (pad_right_no 8 _ (title_no (l_level e))). pose proof (pad_left_no " " 5 (dec (l_line e))) as A3.
  assert (A4 : ~ In newline (pad_right 20 (firstn 20 (file_name (l_file e))))) by (apply pad_right_no; intros X; apply firstn_in, file_name_in in X; auto).
  assert (A5 : ~ In newline (pad_right 20 (firstn 20 (l_function e)))) by (apply pad_right_no; intros X; apply firstn_in in X; auto).
  specialize (A1 ltac:(discriminate) (dec_no_newline _)). specialize (A2 ltac:(discriminate) (dec_no_newline _)). specialize (A3 ltac:(discriminate) (dec_no_newline _)).
  destruct hide; [|rewrite !in_app_iff]; cbn [chars list_ascii_of_string In]; intuition discriminate.
Qed.

(** * C66 *)
Lemma writef_proof scheme t : t <> [] -> (Z.of_nat (length t) < int_max)%Z -> writef_message scheme (Some t) true = Ret t.
Proof.
  intros N L. unfold writef_message, vsnprintf. destruct (Z.leb_spec (Z.of_nat (length t)) int_max); [|lia]. cbn [fst].
  assert (0 < length t) by (destruct t; [congruence|cbn; lia]). destruct (Z.ltb_spec 0 (Z.of_nat (length t))); [|lia].
  destruct (Z.eqb_spec (Z.of_nat (length t)) int_max); [lia|]. rewrite Nat2Z.id.
  assert (R : length (resize (length t + 1) []) = S (length t)) by (unfold resize; rewrite firstn_nil; cbn; rewrite repeat_length; lia). rewrite R. rewrite Z.eqb_refl, firstn_all.
  unfold store. rewrite app_length. cbn [length]. rewrite (skipn_all2 (n := length t + 1)) by (rewrite R; lia). rewrite app_nil_r. unfold resize.
  rewrite firstn_app, firstn_all, Nat.sub_diag, app_length. cbn [length firstn]. replace (length t - (length t + 1)) with 0 by lia. cbn. rewrite !app_nil_r. reflexivity.
Qed.
Lemma writef_fallback_proof scheme formatted alloc m : writef_message scheme formatted alloc = Ret m ->
  m = scheme \/ formatted = Some m.
Proof.
  destruct formatted as [t|]; [|cbn; intros [= <-]; auto]. destruct (list_eq_dec ascii_dec t []) as [->|N]; [cbn; intros [= <-]; auto|].
  destruct (Z.lt_ge_cases (Z.of_nat (length t)) int_max) as [L|L].
  - destruct alloc; [rewrite writef_proof by assumption; intros [= <-]; auto|]. unfold writef_message. destruct (0 <? _)%Z; [|intros [= <-]; auto].
    destruct (_ =? int_max)%Z; [discriminate|intros [= <-]; auto].
  - unfold writef_message, vsnprintf. destruct (Z.leb_spec (Z.of_nat (length t)) int_max); cbn [fst]; [|intros [= <-]; auto].
    replace (Z.of_nat (length t)) with int_max by lia. cbn. discriminate.
Qed.

(** * C67 *)
Lemma sstep_dead l : forall s, active s = false -> added (fold_left sstep l s) = added s.
Proof.
  induction l as [|o l IH]; intros s A; [reflexivity|]. cbn. rewrite IH; [|destruct o; cbn; [exact A|rewrite A; exact A]].
  destruct o; cbn; [reflexivity|rewrite A; reflexivity].
Qed.
Lemma srun_live l : forall s, active s = true -> added s = [] ->
  ((~ In (SEnd true) l) /\ fold_left sstep l s = Streamer true (written s ++ streamed l) []) \/
  (exists l1 l2, l = l1 ++ SEnd true :: l2 /\ ~ In (SEnd true) l1 /\ added (fold_left sstep l s) = [written s ++ streamed l1]).
Proof.
  induction l as [|o l IH]; intros s A N.
  - left. split; [cbn; tauto|]. cbn. rewrite app_nil_r. destruct s; cbn in *; subst; reflexivity.
  - cbn [fold_left]. destruct o as [t|[|]].
    + destruct (IH (sstep s (SPut t))) as [[I1 I2]|(l1 & l2 & -> & I1 & I2)]; auto.
      * left. split; [intros [X|X]; [discriminate|auto]|]. rewrite I2. cbn. rewrite <- app_assoc. reflexivity.
      * right. exists (SPut t :: l1), l2. split; [reflexivity|]. split; [intros [X|X]; [discriminate|auto]|]. rewrite I2. cbn. rewrite <- app_assoc. reflexivity.
    + right. exists [], l. split; [reflexivity|]. split; [cbn; tauto|]. rewrite sstep_dead; cbn; rewrite A; cbn; [|reflexivity]. rewrite N, app_nil_r. reflexivity.
    + assert (E : sstep s (SEnd false) = s) by (cbn; rewrite andb_false_r; reflexivity). rewrite E. destruct (IH s A N) as [[I1 I2]|(l1 & l2 & -> & I1 & I2)].
      * left. split; [intros [X|X]; [discriminate|auto]|exact I2].
      * right. exists (SEnd false :: l1), l2. split; [reflexivity|]. split; [intros [X|X]; [discriminate|auto]|exact I2].
Qed.
Lemma streamer_proof l pass :
  (slife l pass = [] /\ pass = false /\ ~ In (SEnd true) l) \/
  (exists l1 l2, l ++ [SEnd pass] = l1 ++ SEnd true :: l2 /\ ~ In (SEnd true) l1 /\ slife l pass = [streamed l1]).
Proof.
  unfold slife, srun. destruct (srun_live (l ++ [SEnd pass]) (Streamer true [] []) eq_refl eq_refl) as [[N E]|(l1 & l2 & E & N & A)].
  - left. rewrite E. split; [reflexivity|]. rewrite in_app_iff in N. split; [destruct pass; [exfalso; apply N; right; left; reflexivity|reflexivity]|tauto].
  - right. exists l1, l2. auto.
Qed.

(** * Level names *)
Lemma level_cases l : (-1 <= l <= 8)%Z -> In l [-1; 0; 1; 2; 3; 4; 5; 6; 7; 8]%Z.
Proof. intros H. cbn. lia. Qed.
Ltac levels H := apply level_cases in H; cbn in H; repeat (destruct H as [<-|H]; [|try contradiction H]).
Lemma level_names_proof l l' : (-1 <= l <= 8)%Z -> (-1 <= l' <= 8)%Z ->
  (log_level_to_c_str l = log_level_to_c_str l' \/ log_level_to_title l = log_level_to_title l' \/
   log_level_to_shortened l = log_level_to_shortened l' \/ log_level_to_char l = log_level_to_char l') -> l = l'.
Proof. intros H H'. levels H; levels H'; cbn; intuition congruence. Qed.
Lemma level_other_proof l : ~ (-1 <= l <= 8)%Z ->
  log_level_to_c_str l = "unknown"%string /\ log_level_to_title l = "Unknown"%string /\ log_level_to_shortened l = "UNK"%string /\ log_level_to_char l = "?"%char.
Proof.
  intros H. destruct l as [|p|p]; [lia| |].
  - destruct p as [p|p|]; [| |lia]; destruct p as [p|p|]; try lia; destruct p as [p|p|]; try lia; try (cbn; auto; fail); destruct p as [p|p|]; try lia; cbn; auto.
  - destruct p as [p|p|]; [| |lia]; cbn; auto.
Qed.
Lemma level_same_proof l : map lower (chars (log_level_to_title l)) = chars (log_level_to_c_str l) /\ length (chars (log_level_to_shortened l)) = 3 /\
  ((-1 <= l <= 8)%Z -> exists r, chars (log_level_to_title l) = log_level_to_char l :: r).
Proof.
  destruct (Z.le_gt_cases (-1) l) as [A|A]; [destruct (Z.le_gt_cases l 8) as [B|B]|].
  - assert (H : (-1 <= l <= 8)%Z) by lia. levels H; repeat split; eexists; reflexivity.
  - destruct (level_other_proof l) as (-> & -> & -> & _); [lia|]. repeat split. lia.
  - destruct (level_other_proof l) as (-> & -> & -> & _); [lia|]. repeat split. lia.
Qed.

(** * The line, field by field *)
Lemma is_digit_range c : is_digit c -> (48 <= N_of_ascii c <= 57)%N.
Proof. intros (d & H & ->). unfold digit. rewrite N_ascii_embedding by lia. lia. Qed.
Lemma digits_of t : Forall is_digit t -> digits t.
Proof. intros F. eapply Forall_impl; [|exact F]. exact is_digit_range. Qed.
Lemma digits_head fuel : forall n, (0 < n < 2 ^ Z.of_nat fuel)%Z -> hd_error (dec_digits fuel n) <> Some "0"%char /\ dec_digits fuel n <> [].
Proof.
  induction fuel as [|f IH]; intros n H; [cbn in H; lia|]. cbn [dec_digits]. destruct (Z.ltb_spec n 10).
  - split; [|discriminate]. cbn. intros [= E]. apply (f_equal (fun c => Z.of_N (N_of_ascii c) - 48)%Z) in E. rewrite digit_value in E by lia. cbn in E. lia.
  - destruct (IH (n / 10)%Z) as [A B].
    { rewrite Nat2Z.inj_succ, Z.pow_succ_r in H by lia. split; [apply Z.div_str_pos; lia|]. apply Z.div_lt_upper_bound; lia. }
    destruct (dec_digits f (n / 10)); [congruence|]. split; [exact A|discriminate].
Qed.
Lemma number_proof z : (0 <= z)%Z -> number z (dec z).
Proof.
  intros H. destruct (Z.eq_dec z 0) as [->|]; [split; [discriminate|]; split; [constructor; [cbn; lia|constructor]|split; reflexivity]|].
  pose proof (dec_digit_chars z H) as D. pose proof (dec_value_proof z H) as V. revert D V. unfold dec. destruct (Z.ltb_spec z 0); [lia|]. intros D V.
  destruct (digits_head (S (Z.to_nat (Z.log2 z))) z) as [A B]; [split; [lia|apply fuel_enough, H]|].
  split; [exact B|]. split; [apply digits_of, D|]. split; [exact V|]. intros X. elim (A X).
Qed.
Lemma signed_proof z : signed z (dec z).
Proof.
  destruct (Z.le_gt_cases 0 z) as [H|H]; [left; apply number_proof, H|]. right. split; [lia|].
  exists (dec (- z)). split; [|apply number_proof; lia]. unfold dec. destruct (Z.ltb_spec z 0); [|lia]. destruct (Z.ltb_spec (- z) 0); [lia|reflexivity].
Qed.
Lemma two_proof z : (0 <= z <= 99)%Z -> padded 2 z (two z).
Proof.
  intros H. assert (A : (0 <= z / 10 <= 9)%Z) by (split; [apply Z.div_pos; lia|apply Zlt_succ_le, Z.div_lt_upper_bound; lia]).
  assert (B : (0 <= z mod 10 <= 9)%Z) by (pose proof (Z.mod_pos_bound z 10); lia). split; [reflexivity|]. split.
  - apply digits_of. constructor; [eexists; split; [exact A|reflexivity]|]. constructor; [eexists; split; [exact B|reflexivity]|constructor].
  - change (two z) with (([] ++ [digit (z / 10)]) ++ [digit (z mod 10)]). rewrite !value_snoc, !digit_value by assumption. pose proof (Z.div_mod z 10). cbn [value fold_left]. lia.
Qed.
Lemma value_zeros n t : value (repeat "0"%char n ++ t) = value t.
Proof. induction n as [|n IH]; [reflexivity|]. exact IH. Qed.
Lemma pad_zero_proof n z : (0 <= z < 10 ^ Z.of_nat (S n))%Z -> padded (S n) z (pad_left "0" (S n) (dec z)).
Proof.
  intros H. split; [apply pad_left_length, dec_length, H|]. split.
  - apply Forall_app. split; [|apply digits_of, dec_digit_chars; lia]. apply Forall_forall. intros x X. apply repeat_spec in X. subst. cbn. lia.
  - unfold pad_left. rewrite value_zeros. apply dec_value_proof. lia.
Qed.
Lemma firstn_repeat {A} (x : A) m : forall n, n <= m -> firstn n (repeat x m) = repeat x n.
Proof. induction m as [|m IH]; intros [|n] H; try reflexivity; [lia|]. cbn. f_equal. apply IH. lia. Qed.
Lemma cell_pad n t : pad_right n (firstn n t) = cell n t.
Proof.
  unfold pad_right, cell. rewrite firstn_app, firstn_length. f_equal. rewrite firstn_repeat by lia. f_equal. lia.
Qed.
Lemma cell_short n t : length t <= n -> pad_right n t = cell n t.
Proof. intros H. rewrite <- cell_pad. rewrite firstn_all2 by exact H. reflexivity. Qed.
Lemma shows_proof hide e s : plain_tm (t_local e) -> (0 <= t_micros e)%Z -> (0 <= l_thread e)%Z ->
  exists t, out (default_log_writer hide e s) = out s ++ t /\ shows hide e t.
Proof.
  intros (Y & Mo & Da & Ho & Mi & Se) U T. exists (log_row hide e). split; [apply row_proof|].
  exists (dec (year (t_local e))), (two (month (t_local e))), (two (day (t_local e))), (two (hour (t_local e))), (two (minute (t_local e))), (two (second (t_local e))),
    (pad_left "0" 6 (dec (Z.rem (t_micros e) 1000000))), (dec (l_thread e)), (file_name (l_file e)), (dec (l_line e)).
  split; [apply number_proof; lia|]. do 5 (split; [apply two_proof; assumption|]).
  split; [rewrite Z.rem_mod_nonneg by lia; apply pad_zero_proof; pose proof (Z.mod_pos_bound (t_micros e) 1000000); cbn in *; lia|].
  split; [apply number_proof, T|]. split; [apply file_name_proof|]. split; [apply signed_proof|].
  unfold log_row, put_time. rewrite <- !cell_pad, (firstn_all2 (n := 8)) by apply title_length. unfold pad_left at 2 3.
  destruct hide; do 4 (rewrite <- ?app_assoc; cbn [app]); reflexivity.
Qed.
Lemma default_width hide e s : width (default_log_writer hide e s) = 0.
Proof. destruct hide; reflexivity. Qed.
Lemma one_line_written hide e s : plain_tm (t_local e) -> ~ In newline (l_file e) -> ~ In newline (l_function e) -> ~ In newline (l_message e) ->
  exists t, out (write_line (default_log_writer hide e) s) = out s ++ t ++ [newline] /\ ~ In newline t.
Proof.
  intros A B C D. exists (log_row hide e). split; [|apply one_line_proof; assumption]. unfold write_line, put. cbn [out]. rewrite default_width, row_proof.
  cbn [Nat.sub repeat length]. rewrite app_nil_l, app_nil_r. destruct (to_left _); rewrite <- app_assoc; reflexivity.
Qed.
Lemma streamer_silent l1 l2 pass : slife (l1 ++ SEnd true :: l2) pass = slife l1 true.
Proof.
  unfold slife, srun. rewrite <- app_assoc. cbn [app]. rewrite !fold_left_app. cbn [fold_left]. apply sstep_dead. cbn.
  destruct (active (fold_left sstep l1 (Streamer true [] []))) eqn:E; [reflexivity|exact E].
Qed.
