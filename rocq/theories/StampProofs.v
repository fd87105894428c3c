From Coq Require Import Ascii String List Bool Arith ZArith NArith Lia.
From Verif Require Import Base LogTextModel LogTextSpec LogTextProofs StampModel StampSpec StampCalendar.
Import ListNotations.
Open Scope list_scope.
Open Scope Z_scope.

Definition lexc (a b : comparison) : comparison := match a with Eq => b | c => c end.
Lemma compare_app a a' b b' : length a = length a' -> text_compare (a ++ b) (a' ++ b') = lexc (text_compare a a') (text_compare b b').
Proof.
  revert a'. induction a as [|x a IH]; intros [|x' a'] H; try discriminate; [reflexivity|]. cbn. destruct (N.compare _ _); [|reflexivity..]. apply IH. injection H as H. exact H.
Qed.
Lemma compare_refl a : text_compare a a = Eq.
Proof. induction a as [|x a IH]; [reflexivity|]. cbn. rewrite N.compare_refl. exact IH. Qed.
Lemma compare_eq a : forall b, text_compare a b = Eq -> a = b.
Proof.
  induction a as [|x a IH]; intros [|y b] H; try discriminate; [reflexivity|]. cbn in H. destruct (N.compare_spec (N_of_ascii x) (N_of_ascii y)) as [E| |]; try discriminate.
  rewrite <- (ascii_N_embedding x), E, ascii_N_embedding. f_equal. apply IH, H.
Qed.
Lemma lexc_assoc a b c : lexc (lexc a b) c = lexc a (lexc b c).
Proof. destruct a; reflexivity. Qed.

(** numbers with the same number of digits *)
Definition ch (c : ascii) : Z := Z.of_N (N_of_ascii c) - 48.
Lemma value_from t : forall a, fold_left (fun n c => 10 * n + (Z.of_N (N_of_ascii c) - 48)) t a = a * 10 ^ Z.of_nat (length t) + value t.
Proof.
  unfold value. induction t as [|c t IH]; intros a; [cbn; lia|]. cbn [fold_left length]. rewrite (IH (10 * a + _)), (IH (10 * 0 + _)), ten. lia.
Qed.
Lemma value_cons c t : value (c :: t) = ch c * 10 ^ Z.of_nat (length t) + value t.
Proof. unfold value at 1. cbn [fold_left]. rewrite value_from. unfold ch. lia. Qed.
Lemma digits_value_range t : digits t -> 0 <= value t < 10 ^ Z.of_nat (length t).
Proof.
  induction 1 as [|c t C _ IH]; [cbn; lia|]. rewrite value_cons. cbn [length]. rewrite ten. unfold ch. assert (0 <= Z.of_N (N_of_ascii c) - 48 <= 9) by lia. nia.
Qed.
Lemma scale a a' b b' k : 0 <= b < k -> 0 <= b' < k -> Z.compare (a * k + b) (a' * k + b') = lexc (Z.compare a a') (Z.compare b b').
Proof.
  intros B B'. destruct (Z.compare_spec a a') as [->|H|H]; cbn [lexc].
  - destruct (Z.compare_spec b b'); [subst; apply Z.compare_refl|apply Z.compare_lt_iff; lia|apply Z.compare_gt_iff; lia].
  - apply Z.compare_lt_iff. nia.
  - apply Z.compare_gt_iff. nia.
Qed.
Lemma compare_digits t : forall t', length t = length t' -> digits t -> digits t' -> text_compare t t' = Z.compare (value t) (value t').
Proof.
  induction t as [|c t IH]; intros [|c' t'] L D D'; try discriminate; [reflexivity|]. injection L as L. inversion_clear D as [|? ? C D1]. inversion_clear D' as [|? ? C' D1'].
  cbn [text_compare]. rewrite !value_cons, <- L, scale; [|apply digits_value_range, D1|rewrite L; apply digits_value_range, D1'].
  rewrite <- IH by assumption. unfold ch. rewrite <- N2Z.inj_compare. 
  destruct (Z.compare_spec (Z.of_N (N_of_ascii c)) (Z.of_N (N_of_ascii c'))) as [E|E|E], (Z.compare_spec (Z.of_N (N_of_ascii c) - 48) (Z.of_N (N_of_ascii c') - 48)); try lia; reflexivity.
Qed.
Lemma compare_padded n z t z' t' : padded n z t -> padded n z' t' -> text_compare t t' = Z.compare z z'.
Proof. intros (L & D & <-) (L' & D' & <-). apply compare_digits; [congruence|assumption..]. Qed.

(** * The stamp *)
Definition time_text (x : tm) (us : Z) : text := put_time x ++ pad_left "0" 6 (dec us).
Definition fields_ok (x : tm) : Prop := 1000 <= year x <= 9999 /\ 0 <= month x <= 99 /\ 0 <= day x <= 99 /\ 0 <= hour x <= 99 /\ 0 <= minute x <= 99 /\ 0 <= second x <= 99.
Lemma year_padded y : 1000 <= y <= 9999 -> padded 4 y (dec y).
Proof.
  intros H. split; [|split; [apply digits_of, dec_digit_chars; lia|apply dec_value_proof; lia]].
  pose proof (dec_length y 3). pose proof (dec_long y 3). cbn in *. lia.
Qed.
Lemma compare_sep (a a' : text) c b b' : length a = length a' -> text_compare (a ++ c :: b) (a' ++ c :: b') = lexc (text_compare a a') (text_compare b b').
Proof. intros L. rewrite compare_app by exact L. cbn [text_compare]. rewrite N.compare_refl. reflexivity. Qed.
Lemma time_text_compare x us x' us' : fields_ok x -> fields_ok x' -> 0 <= us < 1000000 -> 0 <= us' < 1000000 ->
  text_compare (time_text x us) (time_text x' us') =
  lexc (year x ?= year x') (lexc (month x ?= month x') (lexc (day x ?= day x') (lexc (hour x ?= hour x') (lexc (minute x ?= minute x') (lexc (second x ?= second x') (us ?= us')))))).
Proof.
  intros (Y & Mo & D & H & Mi & S) (Y' & Mo' & D' & H' & Mi' & S') U U'. unfold time_text, put_time. cbn [chars list_ascii_of_string]. rewrite <- !app_assoc. cbn [app].
  pose proof (year_padded _ Y) as PY. pose proof (year_padded _ Y') as PY'.
  rewrite compare_sep by (destruct PY as [-> _], PY' as [-> _]; reflexivity). rewrite (compare_padded _ _ _ _ _ PY PY'). f_equal.
  do 5 (rewrite compare_sep by reflexivity; erewrite compare_padded by (apply two_proof; assumption); f_equal).
  apply compare_padded with (n := 6%nat); apply pad_zero_proof; assumption.
Qed.

(** * The clock *)
Lemma day_compare x x' : valid x -> valid x' ->
  (day_of x ?= day_of x') = lexc (fst (fst x) ?= fst (fst x')) (lexc (snd (fst x) ?= snd (fst x')) (snd x ?= snd x')).
Proof.
  destruct x as [[y m] d], x' as [[y' m'] d']. intros V V'. cbn [fst snd].
  destruct (Z.compare_spec y y') as [->|H|H]; cbn [lexc]; [|apply Z.compare_lt_iff, year_less; assumption|apply Z.compare_gt_iff, year_less; assumption].
  destruct (Z.compare_spec m m') as [->|H|H]; cbn [lexc]; [|apply Z.compare_lt_iff, month_less; assumption|apply Z.compare_gt_iff, month_less; assumption].
  cbn [day_of]. destruct (Z.compare_spec d d'); [apply Z.compare_eq_iff; lia|apply Z.compare_lt_iff; lia|apply Z.compare_gt_iff; lia].
Qed.
Lemma gmtime_valid s : valid (date (gmtime s)) /\ day_of (date (gmtime s)) = s / 86400.
Proof. rewrite gmtime_date. apply date_ok. Qed.
Lemma gmtime_compare s s' us us' : 0 <= us < 1000000 -> 0 <= us' < 1000000 ->
  (s * 1000000 + us ?= s' * 1000000 + us') =
  lexc (year (gmtime s) ?= year (gmtime s')) (lexc (month (gmtime s) ?= month (gmtime s')) (lexc (day (gmtime s) ?= day (gmtime s')) (lexc (hour (gmtime s) ?= hour (gmtime s'))
    (lexc (minute (gmtime s) ?= minute (gmtime s')) (lexc (second (gmtime s) ?= second (gmtime s')) (us ?= us')))))).
Proof.
  intros U U'. destruct (clock_ok s) as (H & M & S & E), (clock_ok s') as (H' & M' & S' & E'), (gmtime_valid s) as [V D], (gmtime_valid s') as [V' D'].
  assert (X : s = ((s / 86400 * 24 + hour (gmtime s)) * 60 + minute (gmtime s)) * 60 + second (gmtime s)) by (pose proof (Z.div_mod s 86400); lia).
  assert (X' : s' = ((s' / 86400 * 24 + hour (gmtime s')) * 60 + minute (gmtime s')) * 60 + second (gmtime s')) by (pose proof (Z.div_mod s' 86400); lia).
  rewrite X at 1. rewrite X' at 1. rewrite !scale by lia. rewrite <- D, <- D', day_compare by assumption. cbn [date fst snd]. rewrite !lexc_assoc. reflexivity.
Qed.
Lemma gmtime_fields s : -86400 <= s <= 9223372036 + 86400 -> fields_ok (gmtime s).
Proof.
  intros B. destruct (clock_ok s) as (H & M & S & _), (gmtime_valid s) as [V D]. unfold date in V, D. pose proof (day_in_year _ _ _ V) as I. rewrite D in I.
  destruct V as [V1 V2]. pose proof (days_pos (year (gmtime s)) (month (gmtime s))). repeat split; try lia.
  - destruct (Z.le_gt_cases 1000 (year (gmtime s))) as [|X]; [assumption|]. exfalso. pose proof (year_mono (year (gmtime s) + 1) 1000 ltac:(lia)) as Y. change (year_start 1000) with (-354285) in Y.
    assert (-1 <= s / 86400) by (apply Z.div_le_lower_bound; lia). lia.
  - destruct (Z.le_gt_cases (year (gmtime s)) 9999) as [|X]; [assumption|]. exfalso. pose proof (year_mono 10000 (year (gmtime s)) ltac:(lia)) as Y. change (year_start 10000) with 2932897 in Y.
    assert (s / 86400 < 200000) by (apply Z.div_lt_upper_bound; lia). lia.
Qed.

Section Stamps.
Variable zone : Z -> Z.
Hypothesis Z1 : plausible zone.
Lemma seconds_micros t : 0 <= t -> to_time_t t = t / 1000000000 /\ in_micros t = t / 1000 /\ Z.rem (in_micros t) 1000000 = t / 1000 mod 1000000.
Proof.
  intros H. unfold to_time_t, in_micros. rewrite !Z.quot_div_nonneg by lia. rewrite Z.rem_mod_nonneg; [auto|apply Z.div_pos; lia|lia].
Qed.
Lemma local_split t : local_micros zone t = (t / 1000000000 + zone (t / 1000000000)) * 1000000 + t / 1000 mod 1000000.
Proof.
  unfold local_micros. assert (t / 1000000000 = t / 1000 / 1000000) as -> by (rewrite Z.div_div by lia; reflexivity).
  pose proof (Z.div_mod (t / 1000) 1000000). lia.
Qed.
Lemma local_fields t : clock_time t -> fields_ok (local_time zone (to_time_t t)).
Proof.
  intros [A B]. destruct (seconds_micros t A) as (-> & _). apply gmtime_fields. pose proof (Z1 (t / 1000000000)).
  assert (0 <= t / 1000000000) by (apply Z.div_pos; lia). assert (t / 1000000000 < 9223372037) by (apply Z.div_lt_upper_bound; cbn in *; lia). lia.
Qed.
Definition text_at (t : Z) : text := time_text (local_time zone (to_time_t t)) (Z.rem (in_micros t) 1000000).
Lemma text_at_compare t t' : clock_time t -> clock_time t' -> text_compare (text_at t) (text_at t') = (local_micros zone t ?= local_micros zone t').
Proof.
  intros C C'. unfold text_at. assert (M : forall u, 0 <= u / 1000 mod 1000000 < 1000000) by (intros; apply Z.mod_pos_bound; lia).
  pose proof (local_fields _ C) as F. pose proof (local_fields _ C') as F'.
  destruct (seconds_micros t ltac:(apply C)) as (E1 & _ & E2), (seconds_micros t' ltac:(apply C')) as (E1' & _ & E2'). rewrite E2, E2', time_text_compare by auto.
  rewrite !local_split, gmtime_compare by auto. unfold local_time. rewrite E1, E1'. reflexivity.
Qed.
Lemma text_at_length t : clock_time t -> length (text_at t) = 26%nat.
Proof.
  intros C. unfold text_at, time_text. rewrite app_length. destruct (local_fields _ C) as (Y & R).
  destruct (seconds_micros t ltac:(apply C)) as (_ & _ & ->). unfold put_time. rewrite !app_length. destruct (year_padded _ Y) as [-> _].
  destruct (pad_zero_proof 5 (t / 1000 mod 1000000)) as [-> _]; [apply Z.mod_pos_bound; lia|]. reflexivity.
Qed.
Lemma row_split hide t e : exists rest, log_row hide (logged_at zone t e) = text_at t ++ "|"%char :: rest.
Proof. unfold log_row, text_at, time_text. cbn [t_local t_micros logged_at]. eexists. rewrite <- app_assoc. reflexivity. Qed.
End Stamps.

Lemma line_text_row hide zone t e s : line_text hide zone t e s = out s ++ log_row hide (logged_at zone t e).
Proof. apply row_proof. Qed.
Lemma line_split hide zone t e s : out s = [] -> exists rest, line_text hide zone t e s = text_at zone t ++ "|"%char :: rest.
Proof. intros E. rewrite line_text_row, E. apply row_split. Qed.
Lemma stamp_is hide zone t e s : plausible zone -> clock_time t -> out s = [] -> stamp (line_text hide zone t e s) = text_at zone t.
Proof.
  intros P C E. destruct (line_split hide zone t e s E) as [rest ->]. unfold stamp. rewrite firstn_app, text_at_length by assumption.
  rewrite firstn_all2 by (rewrite text_at_length by assumption; lia). apply app_nil_r.
Qed.
Lemma stamps_compare_proof hide zone t e s t' e' s' : plausible zone -> clock_time t -> clock_time t' -> out s = [] -> out s' = [] ->
  text_compare (stamp (line_text hide zone t e s)) (stamp (line_text hide zone t' e' s')) = (local_micros zone t ?= local_micros zone t').
Proof. intros. rewrite !stamp_is by assumption. apply text_at_compare; assumption. Qed.
Lemma lines_compare_proof hide zone t e s t' e' s' : plausible zone -> clock_time t -> clock_time t' -> out s = [] -> out s' = [] ->
  local_micros zone t < local_micros zone t' -> text_compare (line_text hide zone t e s) (line_text hide zone t' e' s') = Lt.
Proof.
  intros P C C' E E' L. destruct (line_split hide zone t e s E) as [r ->], (line_split hide zone t' e' s' E') as [r' ->].
  rewrite compare_app by (rewrite !text_at_length by assumption; reflexivity). rewrite text_at_compare by assumption. apply Z.compare_lt_iff in L. rewrite L. reflexivity.
Qed.
Lemma micros_order zone t t' : never_back zone -> clock_time t -> clock_time t' -> t / 1000 < t' / 1000 -> local_micros zone t < local_micros zone t'.
Proof.
  intros N [C _] [_ C'] H. unfold local_micros. assert (F : forall u, u / 1000000000 = u / 1000 / 1000000) by (intros; rewrite Z.div_div by lia; reflexivity). rewrite !F.
  assert (A : 0 <= t / 1000 / 1000000) by (apply Z.div_pos; [apply Z.div_pos|]; lia).
  assert (B : t' / 1000 / 1000000 * 1000000000 < 2 ^ 63) by (rewrite <- F; pose proof (Z.mul_div_le t' 1000000000 ltac:(lia)); lia).
  assert (L : t / 1000 / 1000000 <= t' / 1000 / 1000000) by (apply Z.div_le_mono; lia). set (a := t / 1000) in *. set (b := t' / 1000) in *. clearbody a b.
  destruct (Z.eq_dec (a / 1000000) (b / 1000000)) as [->|X]; [lia|]. pose proof (N (a / 1000000) (b / 1000000) A ltac:(lia) B).
  pose proof (Z.div_mod a 1000000). pose proof (Z.div_mod b 1000000). pose proof (Z.mod_pos_bound a 1000000). pose proof (Z.mod_pos_bound b 1000000). lia.
Qed.
Lemma lines_sort_proof hide zone t e s t' e' s' : plausible zone -> never_back zone -> clock_time t -> clock_time t' -> out s = [] -> out s' = [] ->
  t / 1000 < t' / 1000 -> text_compare (line_text hide zone t e s) (line_text hide zone t' e' s') = Lt.
Proof. intros. apply lines_compare_proof; auto. apply micros_order; assumption. Qed.
Lemma stamp_tells_proof hide zone t e s t' e' s' : plausible zone -> never_back zone -> clock_time t -> clock_time t' -> out s = [] -> out s' = [] ->
  stamp (line_text hide zone t e s) = stamp (line_text hide zone t' e' s') <-> t / 1000 = t' / 1000.
Proof.
  intros P N C C' E E'. rewrite !stamp_is by assumption. pose proof (text_at_compare zone P t t' C C') as T. split.
  - intros X. rewrite X, compare_refl in T. symmetry in T. apply Z.compare_eq_iff in T.
    destruct (Z.lt_trichotomy (t / 1000) (t' / 1000)) as [L|[L|L]]; [|exact L|]; apply (micros_order zone) in L; try assumption; lia.
  - intros X. apply compare_eq. rewrite T. apply Z.compare_eq_iff. unfold local_micros.
    assert (F : forall u, u / 1000000000 = u / 1000 / 1000000) by (intros; rewrite Z.div_div by lia; reflexivity). rewrite !F, X. reflexivity.
Qed.
Lemma fixed_never_back k : never_back (fun _ => k).
Proof. intros a b _ H _. lia. Qed.
(** the conditions are needed *)
Lemma compare_anti a : forall b, text_compare a b = CompOpp (text_compare b a).
Proof.
  induction a as [|x a IH]; intros [|y b]; try reflexivity. cbn. rewrite (N.compare_antisym (N_of_ascii y)).
  destruct (N.compare (N_of_ascii y) (N_of_ascii x)); cbn; [apply IH|reflexivity|reflexivity].
Qed.
Lemma second_micros zone a : local_micros zone (a * 1000000000) = 1000000 * (a + zone a).
Proof.
  unfold local_micros. rewrite Z.div_mul by lia. replace (a * 1000000000) with (a * 1000000 * 1000) by lia. rewrite Z.div_mul by lia. lia.
Qed.
Definition a_line : log_line := LogLine (Tm 1970 1 1 0 0 0) 0 0 0 [] 0 [] [].
Definition a_stream : stream := Stream [] 0 " "%char false.
Lemma second_clock a b : 0 <= a -> a < b -> b * 1000000000 < 2 ^ 63 -> clock_time (a * 1000000000) /\ clock_time (b * 1000000000) /\ a * 1000000000 / 1000 < b * 1000000000 / 1000.
Proof.
  intros A L B. unfold clock_time. split; [lia|]. split; [lia|]. replace (a * 1000000000) with (a * 1000000 * 1000) by lia. replace (b * 1000000000) with (b * 1000000 * 1000) by lia.
  rewrite !Z.div_mul by lia. lia.
Qed.
Lemma sort_exactly_proof zone : plausible zone ->
  (never_back zone <-> forall hide t e s t' e' s', clock_time t -> clock_time t' -> out s = [] -> out s' = [] ->
   t / 1000 < t' / 1000 -> text_compare (line_text hide zone t e s) (line_text hide zone t' e' s') = Lt).
Proof.
  intros P. split; [intros N hide t e s t' e' s' C C' E E'; apply lines_sort_proof; assumption|].
  intros H a b A L B. destruct (second_clock a b A L B) as (Ca & Cb & Lt').
  specialize (H true _ a_line a_stream _ a_line a_stream Ca Cb eq_refl eq_refl Lt').
  destruct (Z.lt_trichotomy (a + zone a) (b + zone b)) as [X|[X|X]]; [exact X| |]; exfalso.
  - assert (Y : line_text true zone (a * 1000000000) a_line a_stream = line_text true zone (b * 1000000000) a_line a_stream).
    { unfold line_text, logged_at, local_time, to_time_t, in_micros. rewrite !Z.quot_div_nonneg by lia. rewrite !Z.div_mul by lia. rewrite X.
      replace (a * 1000000000) with (a * 1000000 * 1000) by lia. replace (b * 1000000000) with (b * 1000000 * 1000) by lia. rewrite !Z.div_mul by lia.
      unfold default_log_writer, log_ops. cbn [t_micros t_local l_thread l_level l_file l_line l_function l_message a_line].
      rewrite !Z.rem_mul by lia. reflexivity. }
    rewrite Y, compare_refl in H. discriminate.
  - assert (Y : text_compare (line_text true zone (b * 1000000000) a_line a_stream) (line_text true zone (a * 1000000000) a_line a_stream) = Lt).
    { apply lines_compare_proof; auto. rewrite !second_micros. lia. }
    rewrite compare_anti, Y in H. discriminate.
Qed.
Lemma tell_exactly_proof zone : plausible zone ->
  (never_again zone <-> forall hide t e s t' e' s', clock_time t -> clock_time t' -> out s = [] -> out s' = [] ->
   (stamp (line_text hide zone t e s) = stamp (line_text hide zone t' e' s') <-> t / 1000 = t' / 1000)).
Proof.
  intros P. assert (F : forall u, u / 1000000000 = u / 1000 / 1000000) by (intros; rewrite Z.div_div by lia; reflexivity). split.
  - intros N hide t e s t' e' s' C C' E E'. rewrite !stamp_is by assumption. pose proof (text_at_compare zone P t t' C C') as T. split.
    + intros X. rewrite X, compare_refl in T. symmetry in T. apply Z.compare_eq_iff in T. unfold local_micros in T. rewrite !F in T.
      assert (A : forall u, clock_time u -> 0 <= u / 1000 / 1000000 /\ u / 1000 / 1000000 * 1000000000 < 2 ^ 63).
      { intros u [U V]. rewrite <- F. split; [apply Z.div_pos; lia|]. pose proof (Z.mul_div_le u 1000000000 ltac:(lia)). lia. }
      destruct (A t C) as [A1 A2], (A t' C') as [B1 B2]. set (a := t / 1000) in *. set (b := t' / 1000) in *. clearbody a b.
      pose proof (Z.div_mod a 1000000 ltac:(lia)). pose proof (Z.div_mod b 1000000 ltac:(lia)).
      pose proof (Z.mod_pos_bound a 1000000 ltac:(lia)). pose proof (Z.mod_pos_bound b 1000000 ltac:(lia)).
      destruct (Z.lt_trichotomy (a / 1000000) (b / 1000000)) as [L|[L|L]].
      * pose proof (N _ _ A1 L B2). lia.
      * rewrite L in *. lia.
      * pose proof (N _ _ B1 L A2). lia.
    + intros X. apply compare_eq. rewrite T. apply Z.compare_eq_iff. unfold local_micros. rewrite !F, X. reflexivity.
  - intros H a b A L B X. destruct (second_clock a b A L B) as (Ca & Cb & Lt').
    specialize (H true _ a_line a_stream _ a_line a_stream Ca Cb eq_refl eq_refl). destruct H as [H _].
    rewrite !stamp_is in H by auto. assert (Y : text_at zone (a * 1000000000) = text_at zone (b * 1000000000)).
    { apply compare_eq. rewrite text_at_compare by assumption. apply Z.compare_eq_iff. rewrite !second_micros, X. reflexivity. }
    specialize (H Y). lia.
Qed.
Lemma back_again zone : never_back zone -> never_again zone.
Proof. intros N a b A L B. specialize (N a b A L B). lia. Qed.
Lemma compare_eq_iff a b : text_compare a b = Eq <-> a = b.
Proof. split; [apply compare_eq|]. intros ->. apply compare_refl. Qed.
Lemma local_shifted zone s : local_time zone s = gm_time (s + zone s).
Proof. reflexivity. Qed.
Lemma gmtime_injective s s' : date (gm_time s) = date (gm_time s') -> hour (gm_time s) = hour (gm_time s') ->
  minute (gm_time s) = minute (gm_time s') -> second (gm_time s) = second (gm_time s') -> s = s'.
Proof.
  unfold gm_time. intros D H M S. pose proof (gmtime_compare s s' 0 0 ltac:(lia) ltac:(lia)) as C. unfold date in D. injection D as D1 D2 D3. rewrite D1, D2, D3, H, M, S, !Z.compare_refl in C.
  cbn [lexc] in C. apply Z.compare_eq_iff in C. lia.
Qed.
