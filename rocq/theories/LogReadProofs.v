(** Proofs about reading a log file back. *)
From Coq Require Import Ascii String List Bool Arith ZArith Lia.
From Verif Require Import Base LogTextModel LogTextSpec LogTextProofs LogReadSpec.
Import ListNotations.
Local Open Scope list_scope.

Lemma split_len {A} (a : list A) : forall b x y, length a = length b -> a ++ x = b ++ y -> a = b /\ x = y.
Proof.
  induction a as [|c a IH]; intros [|d b] x y L E; try discriminate; [split; [reflexivity|exact E]|].
  cbn in *. injection E as -> E. destruct (IH b x y) as [-> ->]; [lia|exact E|]. split; reflexivity.
Qed.
Lemma split_sep {A} (c : A) (a : list A) : forall b x y, ~ In c a -> ~ In c b -> a ++ c :: x = b ++ c :: y -> a = b /\ x = y.
Proof.
  induction a as [|d a IH]; intros [|d' b] x y Na Nb E; cbn in *; try (injection E; intros; subst; tauto).
  injection E as -> E. destruct (IH b x y) as [-> ->]; tauto.
Qed.

(** * The characters of numbers *)
Definition numeric (c : ascii) : Prop := c = "-"%char \/ is_digit c.
Lemma dec_numeric z : Forall numeric (dec z).
Proof.
  unfold dec. destruct (Z.ltb_spec z 0) as [H|H]; [constructor; [left; reflexivity|]|]; (eapply Forall_impl; [intros c X; right; exact X|apply digits_digits; lia]).
Qed.
Lemma numeric_not c d : numeric c -> d = "|"%char \/ d = " "%char -> c <> d.
Proof.
  intros [->|H] [->| ->]; try discriminate; intros ->; apply is_digit_range in H; vm_compute in H; intuition congruence.
Qed.
Lemma dec_not d z : d = "|"%char \/ d = " "%char -> ~ In d (dec z).
Proof. intros D X. pose proof (dec_numeric z) as F. rewrite Forall_forall in F. exact (numeric_not d d (F d X) D eq_refl). Qed.
Lemma dec_inj z z' : dec z = dec z' -> z = z'.
Proof.
  destruct (Z.ltb_spec z 0) as [H|H], (Z.ltb_spec z' 0) as [H'|H']; intros E.
  - destruct (dec_neg_proof z H) as (t & T & V). destruct (dec_neg_proof z' H') as (t' & T' & V'). rewrite T, T' in E. injection E as ->. lia.
  - destruct (dec_neg_proof z H) as (t & T & V). pose proof (dec_digit_chars z' H') as F. rewrite <- E, T in F. inversion F as [|? ? D _]; subst.
    apply is_digit_range in D. vm_compute in D. intuition congruence.
  - destruct (dec_neg_proof z' H') as (t & T & V). pose proof (dec_digit_chars z H) as F. rewrite E, T in F. inversion F as [|? ? D _]; subst.
    apply is_digit_range in D. vm_compute in D. intuition congruence.
  - rewrite <- (dec_value_proof z H), <- (dec_value_proof z' H'), E. reflexivity.
Qed.
Lemma spaces_inj n m t t' : ~ In " "%char t -> ~ In " "%char t' -> repeat " "%char n ++ t = repeat " "%char m ++ t' -> t = t'.
Proof.
  intros N N'. revert m. induction n as [|n IH]; intros [|m] E; cbn in *; [exact E| | |].
  - exfalso. apply N. rewrite E. left. reflexivity.
  - exfalso. apply N'. rewrite <- E. left. reflexivity.
  - injection E as E. exact (IH m E).
Qed.
Lemma pad_inj n z z' : pad_left " " n (dec z) = pad_left " " n (dec z') -> z = z'.
Proof. intros E. apply dec_inj. unfold pad_left in E. eapply spaces_inj; [| |exact E]; apply dec_not; right; reflexivity. Qed.
Lemma pad_bar n z : ~ In "|"%char (pad_left " " n (dec z)).
Proof.
  intros X. unfold pad_left in X. apply in_app_or in X. destruct X as [X|X]; [apply repeat_spec in X; discriminate|]. revert X. apply dec_not. left. reflexivity.
Qed.
Lemma two_inj n m : (0 <= n <= 99)%Z -> (0 <= m <= 99)%Z -> two n = two m -> n = m.
Proof. intros N M E. destruct (two_proof n N) as (_ & _ & V). destruct (two_proof m M) as (_ & _ & V'). rewrite <- V, <- V', E. reflexivity. Qed.
Lemma micros_inj a b : (0 <= a)%Z -> (0 <= b)%Z ->
  pad_left "0" 6 (dec (Z.rem a 1000000)) = pad_left "0" 6 (dec (Z.rem b 1000000)) -> (a mod 1000000 = b mod 1000000)%Z.
Proof.
  intros A B E. rewrite !Z.rem_mod_nonneg in E by lia.
  destruct (pad_zero_proof 5 (a mod 1000000)) as (_ & _ & V); [apply (Z.mod_pos_bound a 1000000); lia|].
  destruct (pad_zero_proof 5 (b mod 1000000)) as (_ & _ & V'); [apply (Z.mod_pos_bound b 1000000); lia|]. rewrite <- V, <- V', E. reflexivity.
Qed.
Lemma micros_length a : (0 <= a)%Z -> length (pad_left "0" 6 (dec (Z.rem a 1000000))) = 6.
Proof. intros A. apply pad_left_length, dec_length. rewrite Z.rem_mod_nonneg by lia. apply (Z.mod_pos_bound a 1000000). lia. Qed.
Lemma year_length y : (1000 <= y <= 9999)%Z -> length (dec y) = 4.
Proof. intros Y. assert (length (dec y) <= 4) by (apply dec_length; cbn; lia). assert (3 < length (dec y)) by (apply dec_long; cbn; lia). lia. Qed.
Lemma time_inj t t' : plain_tm t -> plain_tm t' -> put_time t = put_time t' -> t = t'.
Proof.
  intros (Y & Mo & Da & Ho & Mi & Se) (Y' & Mo' & Da' & Ho' & Mi' & Se') E. unfold put_time in E.
  apply split_len in E; [|rewrite !year_length by assumption; reflexivity]. destruct E as [Ey E]. apply dec_inj in Ey.
  cbn [app chars list_ascii_of_string] in E. injection E as E.
  destruct t as [y mo d h mi s], t' as [y' mo' d' h' mi' s']. cbn [year month day hour minute second] in *.
  assert (Two : forall n m, (0 <= n <= 99)%Z -> (0 <= m <= 99)%Z -> digit (n / 10) = digit (m / 10) -> digit (n mod 10) = digit (m mod 10) -> n = m).
  { intros n m N M A B. apply two_inj; [exact N|exact M|]. unfold two. congruence. }
  f_equal; [exact Ey|..]; apply Two; assumption.
Qed.
(** * Levels *)
Lemma title_cell l l' : pad_right 8 (chars (log_level_to_title l)) = pad_right 8 (chars (log_level_to_title l')) -> log_level_to_title l = log_level_to_title l'.
Proof.
  assert (C : forall l, In (log_level_to_title l) ["Level"; "Verbose"; "Trace"; "Debug"; "Info"; "Notice"; "Warning"; "Error"; "Critical"; "Fatal"; "Unknown"]%string).
  { intros x. unfold log_level_to_title. destruct x as [|p|p]; [cbn; tauto| |]; repeat (destruct p as [p|p|]; try (cbn; tauto)). }
  pose proof (C l) as H. pose proof (C l') as H'. revert H H'. generalize (log_level_to_title l) (log_level_to_title l'). clear. intros a b H H' E.
  cbn in H, H'. repeat (destruct H as [<-|H]; [repeat (destruct H' as [<-|H']; [first [reflexivity|vm_compute in E; discriminate E]|]); contradiction|]). contradiction.
Qed.
Lemma last_part_unique p f : last_part p f -> f = file_name p.
Proof.
  intros [(d & E & D) N]. destruct (file_name_proof p) as [(d' & E' & D') N'].
  assert (Key : forall a b x y : text, a ++ x = b ++ y -> (b = [] \/ exists b' c, b = b' ++ [c] /\ is_slash c = true) -> forallb (fun c => negb (is_slash c)) x = true -> length b <= length a).
  { intros a b x y Ea Hb Nx. destruct (Nat.le_gt_cases (length b) (length a)) as [|L]; [assumption|exfalso].
    destruct Hb as [->|(b' & c & -> & Sc)]; [cbn in L; lia|]. rewrite app_length in L. cbn in L.
    assert (E2 : exists z, b' = a ++ z).
    { exists (skipn (length a) b'). assert (F : firstn (length a) (b' ++ [c] ++ y) = a). { rewrite app_assoc, <- Ea. rewrite firstn_app, firstn_all, Nat.sub_diag. cbn. apply app_nil_r. }
      rewrite firstn_app in F. replace (length a - length b') with 0 in F by lia. cbn [firstn] in F. rewrite app_nil_r in F. rewrite <- F at 1. symmetry. apply firstn_skipn. }
    destruct E2 as [z ->]. rewrite <- !app_assoc in Ea. apply app_inv_head in Ea. subst x. rewrite forallb_app in Nx. apply andb_prop in Nx. destruct Nx as [_ Nx]. cbn in Nx. rewrite Sc in Nx. discriminate. }
  assert (L : length d = length d'). { apply Nat.le_antisymm; [apply (Key d' d (file_name p) f)|apply (Key d d' f (file_name p))]; try assumption; congruence. }
  assert (X : d ++ f = d' ++ file_name p) by congruence. apply split_len in X; [|exact L]. tauto.
Qed.

(** * Lines *)
Lemma cons_tail {A} (c : A) x y : c :: x = c :: y -> x = y.
Proof. congruence. Qed.
Ltac flatten H := change (chars "|") with ["|"%char] in H; repeat (rewrite <- app_assoc in H || rewrite <- app_comm_cons in H || rewrite app_nil_l in H).
Lemma row_inj hide e e' x y : readable e -> readable e' -> log_row hide e ++ newline :: x = log_row hide e' ++ newline :: y ->
  same_visible hide e e' /\ x = y.
Proof.
  intros (T & Mi & Me) (T' & Mi' & Me') E. unfold log_row in E.
  flatten E.
  apply split_len in E; [|rewrite !time_length by assumption; reflexivity]. destruct E as [E1 E]. apply time_inj in E1; [|assumption|assumption].
  apply split_len in E; [|rewrite !micros_length by assumption; reflexivity]. destruct E as [E2 E]. apply micros_inj in E2; [|assumption|assumption].
  apply cons_tail in E. apply split_sep in E; [|apply pad_bar|apply pad_bar]. destruct E as [E3 E]. apply pad_inj in E3.
  apply split_len in E; [|rewrite !pad_right_length by apply title_length; reflexivity]. destruct E as [E4 E]. apply title_cell in E4.
  apply cons_tail in E. destruct hide.
  - flatten E. apply split_sep in E; [|assumption|assumption]. destruct E as [E5 E]. split; [|exact E]. unfold same_visible. intuition discriminate.
  - flatten E.
    apply split_len in E; [|rewrite !pad_right_length by apply firstn_le_length; reflexivity]. destruct E as [E5 E]. apply cons_tail in E.
    apply split_sep in E; [|apply pad_bar|apply pad_bar]. destruct E as [E6 E]. apply pad_inj in E6.
    apply split_len in E; [|rewrite !pad_right_length by apply firstn_le_length; reflexivity]. destruct E as [E7 E]. apply cons_tail in E.
    apply split_sep in E; [|assumption|assumption]. destruct E as [E8 E]. split; [|exact E].
    rewrite !cell_pad in E5, E7. unfold same_visible. do 5 (split; [assumption|]). intros _. split; [exact E6|]. split; [exact E7|].
    intros f f' Hf Hf'. apply last_part_unique in Hf. apply last_part_unique in Hf'. subst. exact E5.
Qed.
Lemma row_same hide e e' : (0 <= t_micros e)%Z -> (0 <= t_micros e')%Z -> same_visible hide e e' -> log_row hide e = log_row hide e'.
Proof.
  intros M M' (A & B & C & D & F & G). unfold log_row. rewrite A, C, D, F, !Z.rem_mod_nonneg, B by lia. do 6 f_equal.
  destruct hide; [reflexivity|]. destruct (G eq_refl) as (G1 & G2 & G3). rewrite G1, !cell_pad, G2, (G3 _ _ (file_name_proof _) (file_name_proof _)). reflexivity.
Qed.
Lemma write_all_out hide l : forall s, out (write_all hide l s) = out s ++ flat_map (fun e => log_row hide e ++ [newline]) l.
Proof.
  induction l as [|e l IH]; intros s; [cbn; rewrite app_nil_r; reflexivity|]. unfold write_all in *. cbn [fold_left flat_map]. rewrite IH.
  unfold write_line, put at 1. cbn [out]. rewrite default_width, row_proof. cbn [length Nat.sub repeat]. rewrite app_nil_l.
  destruct (to_left (default_log_writer hide e s)); rewrite ?app_nil_r, <- !app_assoc; reflexivity.
Qed.
Lemma read_back_proof hide l l' s s' : Forall readable l -> Forall readable l' -> out s = out s' ->
  (out (write_all hide l s) = out (write_all hide l' s') <-> Forall2 (same_visible hide) l l').
Proof.
  intros R R' E. rewrite !write_all_out, E. split.
  - intros H. apply app_inv_head in H. revert l' R' H. induction R as [|e l Re _ IH]; intros l' R' H.
    + destruct R' as [|e' l' _ _]; [constructor|]. exfalso. cbn in H. apply (f_equal (@length ascii)) in H. rewrite !app_length in H. cbn in H. lia.
    + destruct R' as [|e' l' Re' R']; [exfalso; cbn in H; apply (f_equal (@length ascii)) in H; rewrite !app_length in H; cbn in H; lia|].
      cbn [flat_map] in H. rewrite <- !app_assoc in H. cbn [app] in H. apply row_inj in H; [|assumption|assumption]. destruct H as [V H]. constructor; [exact V|]. apply IH; assumption.
  - intros F. f_equal. revert R R'. induction F as [|e e' l l' V F IH]; intros R R'; [reflexivity|]. inversion R as [|? ? (_ & M & _) Rl]; inversion R' as [|? ? (_ & M' & _) Rl']; subst.
    cbn [flat_map]. rewrite (row_same hide e e' M M' V), IH by assumption. reflexivity.
Qed.
Lemma after_last_bar hide e s : exists pre, out (default_log_writer hide e s) = out s ++ pre ++ "|"%char :: l_message e.
Proof.
  rewrite row_proof. unfold log_row. destruct hide.
  - exists (put_time (t_local e) ++ pad_left "0" 6 (dec (Z.rem (t_micros e) 1000000)) ++ chars "|" ++ pad_left " " 7 (dec (l_thread e)) ++ chars "|" ++ pad_right 8 (chars (log_level_to_title (l_level e)))).
    repeat (rewrite <- app_assoc; cbn [app chars list_ascii_of_string]). reflexivity.
  - exists (put_time (t_local e) ++ pad_left "0" 6 (dec (Z.rem (t_micros e) 1000000)) ++ chars "|" ++ pad_left " " 7 (dec (l_thread e)) ++ chars "|" ++ pad_right 8 (chars (log_level_to_title (l_level e))) ++ chars "|" ++
      pad_right 20 (firstn 20 (file_name (l_file e))) ++ chars "|" ++ pad_left " " 5 (dec (l_line e)) ++ chars "|" ++ pad_right 20 (firstn 20 (l_function e))).
    repeat (rewrite <- app_assoc; cbn [app chars list_ascii_of_string]). reflexivity.
Qed.
