(** The tests of the logger: runs that fail, and runs that meet the hypotheses. *)
From Coq Require Import Ascii String List Bool Arith ZArith Lia.
From Verif Require Import Base ListUpdate LoggerModel LoggerSpec LoggerProofs LoggerLive LogTextModel LogTextSpec LogTextProofs
  LogFileModel LogDefaultsModel LogTestModel LogTestSpec LogTestProofs LogTestRuns.
Import ListNotations.
Open Scope list_scope.

(** * Suites *)
Fixpoint tidyb (prog : list statement) : bool :=
  match prog with
  | [] => true
  | c :: prog' => match c, prog' with Log _ _, Remove :: _ => false | _, _ => tidyb prog' end
  end.
Lemma tidyb_tidy prog : tidyb prog = true -> tidy prog.
Proof.
  intros T a. revert prog T. induction a as [|c a IH]; intros prog T l m b ->; [discriminate T|]. cbn [app] in T.
  refine (IH _ _ l m b eq_refl).
  cbn [tidyb] in T. destruct c; [|exact T|exact T|exact T]. destruct (a ++ Log l m :: Remove :: b) as [|[]]; try exact T; discriminate T.
Qed.
Lemma tidyb_messages l prog : tidyb prog = true -> tidyb (messages_test l ++ prog) = true.
Proof. intros T. unfold messages_test. rewrite <- app_assoc. cbn [app]. induction l as [|m l IH]; [exact T|exact IH]. Qed.
Lemma tidyb_count l prog : tidyb prog = true -> tidyb (count_test l ++ prog) = true.
Proof.
  intros T. unfold count_test. rewrite <- app_assoc. cbn [app]. induction l as [|m l IH]; [exact T|]. cbn [map app tidyb].
  destruct l; [exact IH|exact IH].
Qed.
Lemma suite_tidy l : tidyb (suite l) = true.
Proof. induction l as [|[l1|l1] l IH]; [reflexivity|apply tidyb_messages, IH|apply tidyb_count, IH]. Qed.
Lemma suite_neat l : neat_tests l -> neat_program (suite l).
Proof.
  intros N lv m I. apply in_flat_map in I as (t & It & I). specialize (N t It). destruct t as [x|x]; rewrite Forall_forall in N.
  - unfold messages_test in I. apply in_app_or in I as [I|[I|[]]]; [|discriminate I]. apply in_flat_map in I as (y & Iy & [I|[I|[]]]); [|discriminate I].
    injection I as <- <-. exact (N y Iy).
  - unfold count_test in I. apply in_app_or in I as [I|[I|[I|[]]]]; try discriminate I. apply in_map_iff in I as (y & E & Iy). injection E as <- <-. exact (N y Iy).
Qed.
Lemma expected_messages l prog : forall since, expected since (messages_test l ++ prog) = map (fun m => Text (s_message (snd m))) l ++ expected [] prog.
Proof.
  unfold messages_test. intros since. rewrite <- app_assoc. cbn [app]. revert since. induction l as [|m l IH]; intros since; [reflexivity|].
  cbn [flat_map app expected map]. rewrite last_snoc, IH. reflexivity.
Qed.
Lemma expected_logs l prog : forall since, expected since (map (fun m => Log (fst m) (snd m)) l ++ prog) = expected (since ++ map (fun m => s_message (snd m)) l) prog.
Proof.
  induction l as [|m l IH]; intros since; cbn [map app]; [rewrite app_nil_r; reflexivity|]. cbn [expected]. rewrite IH, <- app_assoc. reflexivity.
Qed.
Lemma expected_count l prog : expected [] (count_test l ++ prog) = test_reads (Counts l) ++ expected [] prog.
Proof.
  unfold count_test. rewrite <- app_assoc, expected_logs. cbn [app expected]. destruct l as [|m l]; [reflexivity|]. cbn. do 3 f_equal. rewrite map_length. lia.
Qed.
Lemma expected_suite l : expected [] (suite l) = flat_map test_reads l.
Proof.
  induction l as [|[l1|l1] l IH]; [reflexivity| |]; unfold suite; cbn [flat_map]; fold (suite l); [rewrite expected_messages|rewrite expected_count]; rewrite IH; reflexivity.
Qed.
Lemma suite_passes hide local thread_id clock l tr s f seen : (forall z, plain_tm (local z)) -> neat_tests l ->
  run hide local thread_id at_rest (new_logger defaults clock) None (suite l) tr s f [] seen -> tests_pass l seen.
Proof.
  intros P N R. destruct (run_reads_proof hide local thread_id clock P at_rest (fun _ H => H) _ _ _ _ _ _ (suite_neat l N) (tidyb_tidy _ (suite_tidy l)) R) as (since & E).
  cbn [expected] in E. rewrite app_nil_r, expected_suite in E. symmetry. exact E.
Qed.

(** * The logging thread does nothing *)
Section Slow.
Variable hide : bool.
Variable local : Z -> tm.
Variable thread_id : nat -> Z.
Variable time : Z.
Notation logger := (@logger unit source).
Notation run := (run hide local thread_id (until time)).
Record fresh (s : logger) : Prop := {
  fr_pc : pc s = LStart; fr_log : logging s = true; fr_level : level s = 0%Z; fr_max : max_size s = 0; fr_flush : flush_size s = 1; fr_calls : calls s = [] }.
Definition can (s : logger) f prog (Q : list value -> Prop) : Prop := exists tr s' f' seen, run s f prog tr s' f' [] seen /\ Q seen.
Lemma can_log s l m prog Q : fresh s -> (0 <= l)%Z -> (forall s1, fresh s1 -> can s1 None prog Q) -> can s None (Log l m :: prog) Q.
Proof.
  intros [P Lg Lv Mx Fl C] Hl H. set (e := Entry (next_id s) 0 tt l 0%Z m).
  set (s1 := set_next (S (next_id s)) (set_calls [CEnter e] s)).
  assert (S1 : should_log s1 e = true) by (unfold should_log; cbn; rewrite Lg, Lv; apply Z.leb_le; exact Hl).
  set (s2 := set_calls [CPassed e] s1). set (e' := stamp e (now s)). set (s3 := set_calls [CTimed e'] s2).
  set (s4 := set_calls [CNotify e'] (snd (add less e' s3))). set (s5 := set_calls [] (set_pc (wake (pc s4)) s4)).
  destruct (H s5) as (tr & s' & f' & seen & R & Hq).
  { unfold s5, s4, add. cbn [s3 set_calls max_size set_next s2 s1]. rewrite Mx. constructor; cbn; try assumption; [rewrite P; reflexivity|reflexivity]. }
  do 4 eexists. split; [|exact Hq]. apply run_log; [exact C|]. fold e s1.
  eapply run_other; [left; exact (p_check less s1 e [] [] eq_refl)|]. rewrite S1. cbn [app LogTestModel.on_file]. change (set_calls [CPassed e] s1) with s2.
  eapply run_other; [left; exact (p_time less s2 e [] [] eq_refl)|]. cbn [app LogTestModel.on_file]. change (set_calls [CTimed (stamp e (now s2))] s2) with s3.
  eapply run_other; [left; apply (p_add less s3 e' [] [] eq_refl); cbn; rewrite P; reflexivity|].
  assert (Ac : accepts less e' s3 = true) by (unfold accepts; cbn; rewrite Mx; reflexivity).
  assert (Ad : some_call (fst (add less e' s3)) = [CNotify e']) by (unfold add; cbn [s3 set_calls max_size flush_size set_next s2 s1]; rewrite Mx, Fl; reflexivity).
  rewrite Ac, Ad. cbn [app LogTestModel.on_file]. fold s4.
  eapply run_other; [left; exact (p_notify less s4 e' [] [] eq_refl)|]. exact R.
Qed.
Lemma can_read s c v prog Q : fresh s -> read c None = Some v -> (forall s1, fresh s1 -> can s1 None prog (fun seen => Q (v :: seen))) -> can s None (c :: prog) Q.
Proof.
  intros [P Lg Lv Mx Fl C] E H. destruct (H (set_now (Z.max time (now s)) s)) as (tr & s' & f' & seen & R & Hq); [constructor; assumption|].
  do 4 eexists. split; [|exact Hq]. eapply run_other; [right; apply (tk _ (Z.max time (now s)))|]. cbn [LogTestModel.on_file].
  apply run_read; [exact C|unfold until; cbn; lia|exact E|exact R].
Qed.
Lemma can_remove s prog Q : fresh s -> (forall s1, fresh s1 -> can s1 None prog Q) -> can s None (Remove :: prog) Q.
Proof.
  intros F H. destruct (H s F) as (tr & s' & f' & seen & R & Hq). do 4 eexists. split; [|exact Hq]. apply run_remove; [apply F|exact R].
Qed.
Definition unseen (c : statement) : list value := match c with LastMessage => [Text []] | Count => [Number 0] | _ => [] end.
Lemma can_all prog : (forall l m, In (Log l m) prog -> (0 <= l)%Z) -> forall s, fresh s -> can s None prog (fun seen => seen = flat_map unseen prog).
Proof.
  induction prog as [|c prog IH]; intros N s F.
  - exists [], s, None, []. split; [constructor|reflexivity].
  - assert (IH' := IH (fun l m I => N l m (or_intror I))). destruct c as [l m| | |].
    + apply can_log; [exact F|exact (N l m (or_introl eq_refl))|exact IH'].
    + eapply can_read; [exact F|reflexivity|]. intros s1 F1. destruct (IH' s1 F1) as (tr & s' & f' & seen & R & ->). do 4 eexists. split; [exact R|reflexivity].
    + eapply can_read; [exact F|reflexivity|]. intros s1 F1. destruct (IH' s1 F1) as (tr & s' & f' & seen & R & ->). do 4 eexists. split; [exact R|reflexivity].
    + apply can_remove; [exact F|exact IH'].
Qed.
End Slow.
Lemma init_fresh clock : fresh (new_logger defaults clock).
Proof. constructor; reflexivity. Qed.
Lemma nothing_seen hide local thread_id clock time prog : (forall l m, In (Log l m) prog -> (0 <= l)%Z) ->
  exists tr s f seen, run hide local thread_id (until time) (new_logger defaults clock) None prog tr s f [] seen /\ seen = flat_map unseen prog.
Proof. intros N. apply can_all; [exact N|apply init_fresh]. Qed.
Lemma counts_fail hide local thread_id clock time l : l <> [] -> Forall (fun m => (0 <= fst m)%Z) l ->
  exists tr s f seen, run hide local thread_id (until time) (new_logger defaults clock) None (suite [Counts l]) tr s f [] seen /\
    seen = [Number 0] /\ ~ tests_pass [Counts l] seen.
Proof.
  intros Ne N. destruct (nothing_seen hide local thread_id clock time (suite [Counts l])) as (tr & s & f & seen & R & E).
  { intros lv m I. unfold suite, count_test in I. cbn [flat_map] in I. rewrite app_nil_r in I. apply in_app_or in I as [I|[I|[I|[]]]]; try discriminate I.
    apply in_map_iff in I as (y & X & Iy). injection X as <- <-. rewrite Forall_forall in N. exact (N y Iy). }
  exists tr, s, f, seen. split; [exact R|]. assert (E' : seen = [Number 0]).
  { rewrite E. unfold suite, count_test. cbn [flat_map]. rewrite app_nil_r, flat_map_app. cbn [flat_map unseen app].
    clear -l. induction l as [|m l IH]; [reflexivity|exact IH]. }
  split; [exact E'|]. rewrite E'. unfold tests_pass. cbn. destruct l; [congruence|]. cbn. discriminate.
Qed.
Lemma messages_fail hide local thread_id clock time lv m : (0 <= lv)%Z -> s_message m <> [] ->
  exists tr s f seen, run hide local thread_id (until time) (new_logger defaults clock) None (suite [Messages [(lv, m)]]) tr s f [] seen /\
    seen = [Text []] /\ ~ tests_pass [Messages [(lv, m)]] seen.
Proof.
  intros N Ne. destruct (nothing_seen hide local thread_id clock time (suite [Messages [(lv, m)]])) as (tr & s & f & seen & R & E).
  { intros lv' m' I. destruct I as [I|[I|[I|[]]]]; try discriminate I. injection I as <- <-. exact N. }
  exists tr, s, f, seen. split; [exact R|]. split; [exact E|]. rewrite E. unfold tests_pass. cbn. intros X. injection X as X. congruence.
Qed.

(** * A run at rest *)
Definition rest_b (s : @logger unit source) : bool :=
  match pc s with LWaiting => true | _ => false end && (List.length (calls s) =? 0) && (pend s =? 0) && match dtor s with DNone => true | _ => false end.
Lemma rest_quiescent s : rest_b s = true -> at_rest s.
Proof.
  unfold rest_b. rewrite !andb_true_iff. intros (((P & C) & Q) & D) e s' H. apply Nat.eqb_eq in C, Q.
  destruct H as [x l1 l2 Hc|x l1 l2 Hc|x l1 l2 Hc Hh|x l1 l2 Hc|n Hn|P'|sw P'|P'|P'|sw p P'|k todo P'|k x todo n P'|k n P'|k n P'
                  |D'|D' P'|p D'|k todo D'|k x todo D'|k D']; try (rewrite P' in P; discriminate); try congruence;
    try (rewrite D' in D; discriminate); rewrite Hc, app_length in C; cbn in C; lia.
Qed.
Definition noon (_ : Z) : tm := Tm 2024 2 29 12 0 0.
Definition one_thread (_ : nat) : Z := 7.
Definition hello : source := Source (chars "main.cpp") 12 (chars "main") (chars "Hello").
Definition bye : source := Source (chars "main.cpp") 13 (chars "main") (chars "Good bye").
Notation goes s f prog := (exists tr s' f' seen, run true noon one_thread at_rest s f prog tr s' f' [] seen).
Lemma go_other s f prog e s1 s2 f2 : internal less s e s1 \/ other s e s1 -> s1 = s2 -> on_file true noon one_thread e f = f2 -> goes s2 f2 prog -> goes s f prog.
Proof. intros H <- <- (tr & s' & f' & seen & R). do 4 eexists. eapply run_other; [exact H|exact R]. Qed.
Lemma go_log s f l m prog s2 : calls s = [] -> set_next (S (next_id s)) (set_calls [CEnter (Entry (next_id s) 0 tt l 0%Z m)] s) = s2 -> goes s2 f prog -> goes s f (Log l m :: prog).
Proof. intros C <- (tr & s' & f' & seen & R). do 4 eexists. apply run_log; [exact C|exact R]. Qed.
Lemma go_read s f c prog v : calls s = [] -> rest_b s = true -> read c f = Some v -> goes s f prog -> goes s f (c :: prog).
Proof. intros C Rb E (tr & s' & f' & seen & R). do 4 eexists. eapply run_read; [exact C|apply rest_quiescent, Rb|exact E|exact R]. Qed.
Lemma go_remove s f prog : calls s = [] -> goes s None prog -> goes s f (Remove :: prog).
Proof. intros C (tr & s' & f' & seen & R). do 4 eexists. apply run_remove; [exact C|exact R]. Qed.
Local Ltac compute_it := match goal with |- ?a = ?b => let x := eval vm_compute in a in unify b x; vm_cast_no_check (@eq_refl _ x) end.
Local Tactic Notation "int" uconstr(c) := eapply go_other; [left; eapply c; reflexivity|compute_it|compute_it|].
Local Ltac enter := eapply go_log; [reflexivity|compute_it|]; int (p_check _ _ _ []); int (p_time _ _ _ []); int (p_add _ _ _ []); int (p_notify _ _ _ []).
Local Ltac wakes := int l_woken; int l_check; int l_scan; int l_open; int l_write; int l_written; int l_erase; int l_scan; int l_check; int l_scan; int l_scan; int l_check; int l_wait.
Lemma suite_run : goes (new_logger defaults 0) None (suite [Messages [(3%Z, hello)]; Counts [(0%Z, hello); (8%Z, bye)]]).
Proof.
  unfold suite, messages_test, count_test. cbn [flat_map app map fst snd].
  int l_start. int l_check. int l_scan. int l_check. int l_wait.
  enter. wakes. eapply go_read; [reflexivity|reflexivity|reflexivity|]. apply go_remove; [reflexivity|].
  enter. enter. int l_woken. int l_check. int l_scan. int l_open. int l_write. int l_write. int l_written. int l_erase. int l_scan. int l_check. int l_scan. int l_scan. int l_check. int l_wait.
  eapply go_read; [reflexivity|reflexivity|reflexivity|]. apply go_remove; [reflexivity|]. do 4 eexists. apply run_here.
Qed.
Lemma suite_neat_ex : neat_tests [Messages [(3%Z, hello)]; Counts [(0%Z, hello); (8%Z, bye)]] /\ forall z, plain_tm (noon z).
Proof.
  assert (A : neat hello /\ neat bye) by (unfold neat; cbn; repeat split; intros X; repeat (destruct X as [X|X]; [discriminate X|]); exact X).
  split; [|intros z; unfold plain_tm; cbn; lia]. intros t [<-|[<-|[]]]; repeat constructor; cbn; try lia; apply A.
Qed.
(** text that is not read back *)
Definition entry_of (m : string) : log_line := LogLine (noon 0) 0 7 3 (chars "a.cpp") 1 (chars "f") (chars m).
Lemma bar_case : forall t, written_file true [entry_of "a|b"] t -> last_log_message t = chars "b".
Proof. intros t W. rewrite (written_text _ _ _ W). vm_compute. reflexivity. Qed.
Lemma written_exists hide l : exists t, written_file hide l t.
Proof. eexists. exists (Stream [] 0 " " false). split; reflexivity. Qed.
Lemma last_refuted : forall t, written_file true [entry_of "a|b"] t -> last_log_message t <> chars "a|b".
Proof. intros t W. rewrite (bar_case t W). discriminate. Qed.
Lemma count_refuted : forall t, written_file true [entry_of (String.append "a" (String newline "b"))] t -> count_logs t = 4.
Proof. intros t W. rewrite (written_text _ _ _ W). vm_compute. reflexivity. Qed.
Lemma read_ex : neat_program (suite [Messages [(3%Z, hello)]]) /\ tidy (suite [Messages [(3%Z, hello)]]).
Proof.
  split; [|exact (tidyb_tidy _ (suite_tidy _))]. apply suite_neat. intros t [<-|[]]. exact (proj1 suite_neat_ex _ (or_introl eq_refl)).
Qed.
