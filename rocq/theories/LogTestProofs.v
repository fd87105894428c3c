(** Proofs about the tests of the logger. *)
From Coq Require Import Ascii String List Bool Arith ZArith Lia.
From Verif Require Import Base ListUpdate LoggerModel LoggerSpec LoggerProofs LoggerProps LogTextModel LogTextSpec LogTextProofs LogReadSpec LogReadProofs
  LogFileModel LogDefaultsModel LogTestModel LogTestSpec.
Import ListNotations.
Open Scope list_scope.

(** * Reading the text *)
Lemma lines_app a : forall cur b, lines_from cur (a ++ newline :: b) = lines_from cur a ++ lines_from None b.
Proof.
  induction a as [|c a IH]; intros cur b.
  - destruct cur; reflexivity.
  - cbn [app lines_from]. destruct cur as [l|].
    + destruct (Ascii.eqb c newline); rewrite IH; reflexivity.
    + destruct (is_ws c); apply IH.
Qed.
Lemma lines_one t : forall l, ~ In newline t -> lines_from (Some l) t = [l ++ t].
Proof.
  induction t as [|c t IH]; intros l N; cbn [lines_from]; [rewrite app_nil_r; reflexivity|].
  destruct (Ascii.eqb_spec c newline) as [->|_]; [elim N; left; reflexivity|].
  rewrite IH by (intros I; apply N; right; exact I). rewrite <- app_assoc. reflexivity.
Qed.
(** the first line *)
Lemma lines_first t : forall l u, ~ In newline t -> lines_from (Some l) (t ++ newline :: u) = (l ++ t) :: lines_from None u.
Proof. intros l u N. rewrite lines_app, lines_one by exact N. reflexivity. Qed.
Lemma lines_no_newline t : forall cur, match cur with Some l => ~ In newline l | None => True end -> forall l, In l (lines_from cur t) -> ~ In newline l.
Proof.
  induction t as [|c t IH]; intros cur C l I.
  - destruct cur as [l'|]; [|destruct I]. destruct I as [<-|[]]. exact C.
  - cbn [lines_from] in I. destruct cur as [l'|].
    + destruct (Ascii.eqb_spec c newline) as [->|Ne].
      * destruct I as [<-|I]; [exact C|]. exact (IH None Logic.I l I).
      * apply (IH (Some (l' ++ [c]))); [|exact I]. intros X. apply in_app_or in X as [X|[X|[]]]; [exact (C X)|congruence].
    + destruct (is_ws c) eqn:W.
      * exact (IH None Logic.I l I).
      * apply (IH (Some [c])); [|exact I]. intros [->|[]]. discriminate W.
Qed.
(** nothing is read exactly of white space *)
Lemma lines_some t : forall l, lines_from (Some l) t <> [].
Proof. induction t as [|c t IH]; intros l; cbn [lines_from]; [discriminate|]. destruct (Ascii.eqb c newline); [discriminate|apply IH]. Qed.
Lemma lines_blank t : lines_from None t = [] <-> forallb is_ws t = true.
Proof.
  induction t as [|c t IH]; cbn [lines_from forallb]; [split; reflexivity|]. destruct (is_ws c); [exact IH|]. split; [intros X|discriminate].
  elim (lines_some t [c] X).
Qed.
Lemma after_last_no t : ~ In bar t -> after_last bar t = t.
Proof.
  induction t as [|c t IH]; intros N; [reflexivity|]. cbn [after_last].
  destruct (existsb (Ascii.eqb bar) t) eqn:E.
  { apply existsb_exists in E as (x & I & X). apply Ascii.eqb_eq in X. subst x. elim N. right. exact I. }
  destruct (Ascii.eqb_spec bar c) as [<-|_]; [elim N; left; reflexivity|reflexivity].
Qed.
Lemma after_last_none t : ~ In bar (after_last bar t).
Proof.
  induction t as [|c t IH]; [intros []|]. cbn [after_last]. destruct (existsb (Ascii.eqb bar) t) eqn:E; [exact IH|].
  assert (N : ~ In bar t). { intros I. assert (X : existsb (Ascii.eqb bar) t = true); [|congruence]. apply existsb_exists. exists bar. split; [exact I|apply Ascii.eqb_refl]. }
  destruct (Ascii.eqb_spec bar c) as [<-|Ne]; [exact N|]. intros [X|X]; [congruence|exact (N X)].
Qed.
Lemma after_last_in t x : In x (after_last bar t) -> In x t.
Proof.
  induction t as [|c t IH]; [intros []|]. cbn [after_last]. destruct (existsb (Ascii.eqb bar) t); [intros I; right; exact (IH I)|].
  destruct (Ascii.eqb bar c); [intros I; right; exact I|auto].
Qed.
Lemma after_last_app t m : ~ In bar m -> after_last bar (t ++ bar :: m) = m.
Proof.
  intros N. induction t as [|c t IH].
  - cbn [app after_last]. destruct (existsb (Ascii.eqb bar) m) eqn:E.
    { apply existsb_exists in E as (x & I & X). apply Ascii.eqb_eq in X. subst x. elim (N I). }
    rewrite Ascii.eqb_refl. reflexivity.
  - cbn [app after_last]. assert (E : existsb (Ascii.eqb bar) (t ++ bar :: m) = true).
    { apply existsb_exists. exists bar. split; [apply in_or_app; right; left; reflexivity|apply Ascii.eqb_refl]. }
    rewrite E. exact IH.
Qed.

(** * The file *)
Definition head_text (hide : bool) : text := out (write_line (default_header_writer hide) (Stream [] 0 " " false)).
Definition row (hide : bool) (e : log_line) : text := log_row hide e ++ [newline].
Definition file_text (hide : bool) (l : list log_line) : text := head_text hide ++ flat_map (row hide) l.
Lemma write_row hide e s : out (write_line (default_log_writer hide e) s) = out s ++ row hide e.
Proof.
  unfold write_line, put. cbn [out]. rewrite default_width, row_proof. unfold row. cbn [Nat.sub repeat length]. rewrite app_nil_l, app_nil_r.
  destruct (to_left _); rewrite <- app_assoc; reflexivity.
Qed.
Lemma write_head hide s : out s = [] -> out (write_line (default_header_writer hide) s) = head_text hide.
Proof. destruct s as [o w f l]. cbn [out]. intros ->. destruct hide; vm_compute; reflexivity. Qed.
Lemma written_text hide l t : written_file hide l t -> t = file_text hide l.
Proof.
  intros (s & O & ->). unfold file_text. rewrite <- (write_head hide s O). generalize (write_line (default_header_writer hide) s). clear s O.
  induction l as [|e l IH]; intros s; cbn [fold_left flat_map]; [rewrite app_nil_r; reflexivity|].
  rewrite IH, write_row, <- app_assoc. reflexivity.
Qed.
Lemma head_ends hide : exists t, head_text hide = t ++ [newline].
Proof. exists (removelast (head_text hide)). destruct hide; vm_compute; reflexivity. Qed.
Lemma head_count hide : List.length (lines_from None (head_text hide)) = 2.
Proof. destruct hide; vm_compute; reflexivity. Qed.
Lemma head_lines hide u : exists l1 l2, lines_from None (head_text hide ++ u) = l1 :: l2 :: lines_from None u.
Proof.
  pose proof (head_count hide) as C. destruct (head_ends hide) as (t & E). rewrite E in *. rewrite <- app_assoc. cbn [app]. rewrite lines_app in *.
  cbn [lines_from] in C. rewrite app_nil_r in C. destruct (lines_from None t) as [|l1 [|l2 [|? ?]]]; try discriminate C. exists l1, l2. reflexivity.
Qed.
Lemma row_begins hide e : plain_tm (t_local e) -> exists c t, log_row hide e = c :: t /\ is_ws c = false.
Proof.
  intros P. unfold log_row, put_time. destruct (number_proof (year (t_local e))) as (Ne & Dg & _); [unfold plain_tm in P; lia|].
  destruct (dec (year (t_local e))) as [|c t]; [congruence|]. rewrite <- !app_assoc. eexists c, _. split; [reflexivity|].
  inversion Dg as [|? ? B]; subst. unfold is_ws. destruct (N_of_ascii c) as [|p]; [lia|].
  replace (N.pos p <=? 13)%N with false by (symmetry; apply N.leb_gt; lia). replace (N.pos p =? 32)%N with false by (symmetry; apply N.eqb_neq; lia).
  rewrite andb_false_r. reflexivity.
Qed.
Lemma row_lines hide e u : plain_tm (t_local e) -> lines_from None (row hide e ++ u) = lines_from None (log_row hide e) ++ lines_from None u.
Proof. intros P. unfold row. rewrite <- app_assoc. apply lines_app. Qed.
Lemma neat_lines hide e : plain_tm (t_local e) -> ~ In newline (log_row hide e) -> lines_from None (log_row hide e) = [log_row hide e].
Proof.
  intros P N. destruct (row_begins hide e P) as (c & t & E & W). rewrite E in *. cbn [lines_from]. rewrite W. apply (lines_one t [c]).
  intros I. apply N. right. exact I.
Qed.
(** an entry of one line *)
Definition neat_line (e : log_line) : Prop := plain_tm (t_local e) /\ ~ In newline (l_file e) /\ ~ In newline (l_function e) /\ ~ In newline (l_message e).
Lemma file_lines hide l : Forall neat_line l -> exists l1 l2, lines_from None (file_text hide l) = l1 :: l2 :: map (log_row hide) l.
Proof.
  intros F. unfold file_text. destruct (head_lines hide (flat_map (row hide) l)) as (l1 & l2 & ->). exists l1, l2. do 2 f_equal.
  induction F as [|e l (P & A & B & C) F IH]; [reflexivity|]. cbn [flat_map map]. rewrite row_lines by exact P.
  rewrite neat_lines; [|exact P|apply one_line_proof; assumption]. cbn [app]. rewrite IH. reflexivity.
Qed.
Lemma count_text hide l t : Forall neat_line l -> written_file hide l t -> count_logs t = 2 + List.length l.
Proof.
  intros F W. rewrite (written_text _ _ _ W). unfold count_logs. destruct (file_lines hide l F) as (l1 & l2 & ->). cbn. rewrite map_length. reflexivity.
Qed.
Lemma last_snoc {A} (l : list A) x d : last (l ++ [x]) d = x.
Proof. induction l as [|y l IH]; [reflexivity|]. cbn [app last]. destruct (l ++ [x]) eqn:E; [destruct l; discriminate|exact IH]. Qed.
Lemma last_app {A} (l l' : list A) d : l' <> [] -> last (l ++ l') d = last l' d.
Proof.
  intros N. destruct (exists_last N) as (l1 & x & ->). rewrite app_assoc, !last_snoc. reflexivity.
Qed.
Lemma file_snoc hide l e u : file_text hide (l ++ [e]) ++ u = file_text hide l ++ row hide e ++ u.
Proof. unfold file_text. rewrite flat_map_app. cbn. rewrite app_nil_r, <- !app_assoc. reflexivity. Qed.
Lemma file_ends hide l : exists t, file_text hide l = t ++ [newline].
Proof.
  destruct (snoc_case l) as [->|(l' & e & ->)].
  - unfold file_text. cbn [flat_map]. rewrite app_nil_r. apply head_ends.
  - rewrite <- (app_nil_r (file_text _ _)), file_snoc. unfold row. rewrite app_nil_r, app_assoc. eexists. reflexivity.
Qed.
Lemma file_lines_app hide l u : lines_from None (file_text hide l ++ u) = lines_from None (file_text hide l) ++ lines_from None u.
Proof.
  destruct (file_ends hide l) as (t & ->). rewrite <- app_assoc. cbn [app]. rewrite !lines_app. cbn. rewrite app_nil_r. reflexivity.
Qed.
(** the last message is read back exactly if it has neither bars nor ends of lines *)
Lemma last_text hide l e t : plain_tm (t_local e) -> ~ In newline (l_file e) -> ~ In newline (l_function e) -> written_file hide (l ++ [e]) t ->
  (last_log_message t = l_message e <-> ~ In newline (l_message e) /\ ~ In bar (l_message e)).
Proof.
  intros P A B W. rewrite (written_text _ _ _ W). unfold last_log_message, last_log. fold bar. split.
  - intros E. rewrite <- E. split; [|apply after_last_none]. intros I. apply after_last_in in I.
    destruct (lines_from None (file_text hide (l ++ [e]))) as [|x ls] eqn:L; [destruct I|].
    destruct (@exists_last _ (x :: ls)) as (l1 & y & E1); [discriminate|]. rewrite E1, last_snoc in I.
    refine (lines_no_newline (file_text hide (l ++ [e])) None Logic.I y _ I). rewrite L, E1. apply in_or_app. right. left. reflexivity.
  - intros (N & Nb). rewrite <- (app_nil_r (file_text _ _)), file_snoc, app_nil_r, file_lines_app. unfold row.
    rewrite lines_app. cbn [lines_from]. rewrite app_nil_r, neat_lines; [|exact P|apply one_line_proof; assumption].
    rewrite last_snoc. destruct (after_last_bar hide e (Stream [] 0 " " false)) as (pre & E). rewrite row_proof in E. cbn [out app] in E. rewrite E.
    apply after_last_app, Nb.
Qed.
(** the number of lines is two more than that of the entries exactly if only white space follows the end of a line in a
    message *)
Lemma split_newline (t : text) : ~ In newline t \/ exists a b, t = a ++ newline :: b /\ ~ In newline a.
Proof.
  induction t as [|c t [N|(a & b & -> & N)]]; [left; intros []| |].
  - destruct (Ascii.eqb_spec c newline) as [->|Ne]; [right; exists [], t; split; [reflexivity|intros []]|left; intros [X|X]; [congruence|exact (N X)]].
  - destruct (Ascii.eqb_spec c newline) as [->|Ne]; [right; exists [], (a ++ newline :: b); split; [reflexivity|intros []]|].
    right. exists (c :: a), b. split; [reflexivity|]. intros [X|X]; [congruence|exact (N X)].
Qed.
Lemma row_ends hide e : exists pre, log_row hide e = pre ++ bar :: l_message e /\
  (plain_tm (t_local e) -> ~ In newline (l_file e) -> ~ In newline (l_function e) -> ~ In newline pre).
Proof.
  destruct (after_last_bar hide e (Stream [] 0 " " false)) as (pre & E). rewrite row_proof in E. cbn [out app] in E. fold bar in E. exists pre.
  split; [exact E|]. intros P A B I.
  set (e' := LogLine (t_local e) (t_micros e) (l_thread e) (l_level e) (l_file e) (l_line e) (l_function e) []).
  assert (E' : log_row hide e = log_row hide e' ++ l_message e).
  { unfold log_row, e'. cbn [t_local t_micros l_thread l_level l_file l_line l_function l_message]. rewrite app_nil_r.
    destruct hide; rewrite <- !app_assoc; reflexivity. }
  assert (N : ~ In newline (log_row hide e')) by (apply one_line_proof; try assumption; intros []).
  apply N. rewrite E in E'. replace (pre ++ bar :: l_message e) with ((pre ++ [bar]) ++ l_message e) in E' by (rewrite <- app_assoc; reflexivity).
  apply app_inv_tail in E'. rewrite <- E'. apply in_or_app. left. exact I.
Qed.
Lemma ws_newline : is_ws newline = true. Proof. reflexivity. Qed.
Lemma row_one hide e : plain_tm (t_local e) -> ~ In newline (l_file e) -> ~ In newline (l_function e) ->
  1 <= List.length (lines_from None (log_row hide e)) /\ (List.length (lines_from None (log_row hide e)) = 1 <-> single_line (l_message e)).
Proof.
  intros P A B. destruct (row_begins hide e P) as (c & t & E & W). destruct (row_ends hide e) as (pre & Ep & Np). specialize (Np P A B).
  assert (Nc : c <> newline) by (intros ->; rewrite ws_newline in W; discriminate W).
  destruct (split_newline (l_message e)) as [N|(a & b & Em & Na)].
  - rewrite neat_lines; [|exact P|apply one_line_proof; assumption]. split; [cbn; lia|]. split; [|reflexivity].
    intros _ a b Em. elim N. rewrite Em. apply in_or_app. right. left. reflexivity.
  - rewrite Em in Ep. replace (pre ++ bar :: a ++ newline :: b) with ((pre ++ bar :: a) ++ newline :: b) in Ep by (rewrite <- app_assoc; reflexivity).
    assert (Nx : ~ In newline (pre ++ bar :: a)).
    { intros I. apply in_app_or in I as [I|[I|I]]; [exact (Np I)|discriminate I|exact (Na I)]. }
    rewrite Ep. assert (L : lines_from None (pre ++ bar :: a) = [pre ++ bar :: a]).
    { rewrite E in Ep. destruct (pre ++ bar :: a) as [|c' t'] eqn:X; [destruct pre; discriminate X|]. cbn [app] in Ep. injection Ep as <- _.
      cbn [lines_from]. rewrite W. apply (lines_one t' [c]). intros I. apply Nx. right. exact I. }
    rewrite lines_app, L. cbn [app List.length]. split; [lia|]. split.
    + intros Z a' b' Em'. injection Z as Z. apply length_zero_iff_nil, lines_blank in Z.
      assert (Q : exists u, b = u ++ b' \/ b' = b).
      { rewrite Em in Em'. clear -Em' Na. revert a' Em'. induction a as [|x a IH]; intros a' Em'.
        - destruct a' as [|y a']; cbn in Em'; [injection Em' as ->; exists []; right; reflexivity|]. injection Em' as _ ->.
          exists (a' ++ [newline]). left. rewrite <- app_assoc. reflexivity.
        - destruct a' as [|y a']; cbn in Em'; [injection Em' as -> _; elim Na; left; reflexivity|]. injection Em' as -> Em'.
          apply (IH (fun I => Na (or_intror I)) a' Em'). }
      destruct Q as (u & [->| ->]); [|exact Z]. rewrite forallb_app in Z. apply andb_true_iff in Z. apply Z.
    + intros S. specialize (S a b Em). apply lines_blank in S. rewrite S. reflexivity.
Qed.
Lemma count_exact hide l t : Forall (fun e => plain_tm (t_local e) /\ ~ In newline (l_file e) /\ ~ In newline (l_function e)) l -> written_file hide l t ->
  2 + List.length l <= count_logs t /\ (count_logs t = 2 + List.length l <-> Forall (fun e => single_line (l_message e)) l).
Proof.
  intros F W. rewrite (written_text _ _ _ W). unfold count_logs, file_text. destruct (head_lines hide (flat_map (row hide) l)) as (l1 & l2 & ->).
  cbn [List.length]. clear t W l1 l2.
  induction F as [|e l (P & A & B) F (I1 & I2)]; [split; [cbn; lia|split; [constructor|reflexivity]]|]. cbn [flat_map].
  rewrite row_lines by exact P. rewrite app_length. destruct (row_one hide e P A B) as (R1 & R2). cbn [List.length].
  split; [lia|]. split.
  - intros E. constructor; [apply R2; lia|apply I2; lia].
  - intros X. inversion X as [|? ? X1 X2]; subst. apply R2 in X1. apply I2 in X2. lia.
Qed.
