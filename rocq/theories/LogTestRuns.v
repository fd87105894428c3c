(** Proofs about the runs of the tests of the logger. *)
From Coq Require Import Ascii String List Bool Arith ZArith Lia.
From Verif Require Import Base ListUpdate LoggerModel LoggerSpec LoggerProofs LoggerLive LogTextModel LogTextSpec LogTextProofs
  LogFileModel LogDefaultsModel LogTestModel LogTestSpec LogTestProofs.
Import ListNotations.
Open Scope list_scope.

Lemma unit_order : strict_total_order less.
Proof. split; [reflexivity|discriminate|intros [] []; reflexivity]. Qed.
Lemma file_not_empty hide l : file_text hide l <> [].
Proof. destruct (file_ends hide l) as (t & ->). destruct t; discriminate. Qed.

Section Runs.
Variable hide : bool.
Variable local : Z -> tm.
Variable thread_id : nat -> Z.
Variable clock : Z.
Hypothesis Plain : forall z, plain_tm (local z).
Notation logger := (@logger unit source).
Notation entry := (entry unit source).
Notation event := (@event unit source).
Notation view := (view local thread_id).
Notation on_file := (on_file hide local thread_id).
Definition init : logger := new_logger defaults clock.
Definition msg (e : entry) : text := s_message (e_msg e).
Definition pending (c : @call unit source) : list text := match c with CNotify _ => [] | c => [msg (call_entry c)] end.
Definition good (e : entry) : Prop := (0 <= e_level e)%Z /\ neat (e_msg e).
Definition holds_entries (f : file) (es : list entry) : Prop :=
  match es with [] => content f = [] | _ => exists st, f = Some st /\ out st = file_text hide (map view es) end.
Record J (tr : list event) (s : logger) (f : file) (gone since : list text) : Prop := {
  j_exec : exec less init tr s;
  j_quiet : forall n, ~ In (EFlush n) tr;
  j_set : level s = 0%Z /\ logging s = true /\ max_size s = 0 /\ flush_size s = 1 /\ dtor s = DNone /\ pend s = 0;
  j_calls : calls s = [] \/ exists c, calls s = [c] /\ good (call_entry c);
  j_acc : map msg (accepted_for less tt tr) ++ flat_map pending (calls s) = gone ++ since;
  j_neat : Forall (fun e => neat (e_msg e)) (accepted_for less tt tr);
  j_file : exists ws es, written_to less tt tr = ws ++ es /\ map msg ws = gone /\ holds_entries f es;
  j_open : f = None -> match pc s with LWrite _ (_ :: _) _ => False | _ => True end
}.
Lemma J_init : J [] init None [] [].
Proof.
  constructor; try reflexivity; auto.
  - constructor.
  - repeat split.
  - constructor.
  - exists [], []. repeat split.
Qed.
Lemma same_always k : equivb less tt k = true. Proof. destruct k; reflexivity. Qed.
Lemma holds_open f es : holds_entries f es -> holds_entries (Some (Stream (content f) 0 " " false)) es.
Proof. destruct es as [|e es]; cbn; [auto|]. intros (st & -> & E). eexists. split; [reflexivity|]. exact E. Qed.
Lemma holds_write f es e : holds_entries f es -> f <> None -> holds_entries (on_file (EWrite tt e) f) (es ++ [e]).
Proof.
  destruct f as [st|]; [|congruence]. intros H _. cbn [LogTestModel.on_file].
  destruct es as [|e0 es].
  - cbn [holds_entries content app] in H |- *. rewrite H. eexists. split; [reflexivity|]. rewrite write_row, (write_head hide st H). unfold file_text. cbn. rewrite app_nil_r. reflexivity.
  - cbn [holds_entries] in H. destruct H as (st' & E & O). injection E as <-. cbn [app holds_entries].
    pose proof (file_not_empty hide (map view (e0 :: es))) as N. destruct (out st) as [|c t] eqn:Os; [congruence|].
    eexists. split; [reflexivity|]. rewrite write_row, Os, O. change (e0 :: es ++ [e]) with ((e0 :: es) ++ [e]). rewrite map_app. cbn [map].
    rewrite <- (app_nil_r (file_text _ (_ ++ _))), file_snoc, app_nil_r. reflexivity.
Qed.
Lemma acc_snoc tr (e : event) : accepted_for less tt (tr ++ [e]) = accepted_for less tt tr ++ accepted_in less tt e.
Proof. unfold accepted_for. rewrite flat_map_app. cbn. rewrite app_nil_r. reflexivity. Qed.
Lemma wri_snoc tr (e : event) : written_to less tt (tr ++ [e]) = written_to less tt tr ++ written_in less tt e.
Proof. unfold written_to. rewrite flat_map_app. cbn. rewrite app_nil_r. reflexivity. Qed.
(** steps that accept and write nothing *)
Lemma quiet_file tr (e : event) f gone : written_in less tt e = [] -> on_file e f = f ->
  (exists ws es, written_to less tt tr = ws ++ es /\ map msg ws = gone /\ holds_entries f es) ->
  exists ws es, written_to less tt (tr ++ [e]) = ws ++ es /\ map msg ws = gone /\ holds_entries (on_file e f) es.
Proof. intros W -> H. rewrite wri_snoc, W, app_nil_r. exact H. Qed.
Lemma calls_single {A} (l1 l2 : list A) c x : [x] = l1 ++ c :: l2 -> l1 = [] /\ l2 = [] /\ c = x.
Proof. destruct l1 as [|a [|b l1]]; cbn; intros E; injection E as E1 E2; [subst; auto| |discriminate E2]. destruct l2; discriminate E2. Qed.
Lemma call_one (s : logger) l1 c l2 : calls s = l1 ++ c :: l2 -> (calls s = [] \/ exists c, calls s = [c] /\ good (call_entry c)) ->
  l1 = [] /\ l2 = [] /\ good (call_entry c).
Proof.
  intros E [C|(x & C & G)]; rewrite C in E; [destruct l1; discriminate|]. apply calls_single in E as (-> & -> & ->). auto.
Qed.
Lemma not_flush tr (e : event) : (forall n, ~ In (EFlush n) tr) -> (forall n, e <> EFlush n) -> forall n, ~ In (EFlush n) (tr ++ [e]).
Proof. intros A B n I. apply in_app_or in I as [I|[I|[]]]; [exact (A n I)|exact (B n I)]. Qed.
Lemma J_step tr s f gone since e s1 : J tr s f gone since -> internal less s e s1 \/ other s e s1 -> J (tr ++ [e]) s1 (on_file e f) gone since.
Proof.
  intros Hj H. destruct Hj as [Ex Q (L & Lg & Mx & Fl & Dt & Pe) C A N F O].
  assert (Ex' : exec less init (tr ++ [e]) s1).
  { econstructor; [exact Ex|]. destruct H as [H|H]; [right; left; exact H|right; right; right; exact H]. }
  assert (OW : forall p, pc s1 = p -> (match p with LWrite _ (_ :: _) _ => False | _ => True end) -> f = None -> match pc s1 with LWrite _ (_ :: _) _ => False | _ => True end) by (intros p -> X _; exact X).
  destruct H as [H|H].
  2:{ destruct H as [P|z].
      - constructor; auto; try (apply not_flush; [exact Q|discriminate]); try (rewrite acc_snoc, app_nil_r; assumption).
        + repeat split; assumption.
        + apply quiet_file; auto.
        + intros _. exact I.
      - constructor; auto; try (apply not_flush; [exact Q|discriminate]); try (rewrite acc_snoc, app_nil_r; assumption).
        + repeat split; assumption.
        + apply quiet_file; auto. }
  destruct H as [e l1 l2 E|e l1 l2 E|e l1 l2 E Hh|e l1 l2 E|n P|P|sw P|P|P|sw p P|k todo P|k e todo n P|k n P|k n P|D|D|p D|k todo D|k e todo D|k D];
    try (rewrite Dt in D; discriminate D); try (rewrite Pe in P; discriminate P).
  - (* check *)
    destruct (call_one _ _ _ _ E C) as (-> & -> & (G1 & G2)). assert (Sh : should_log s e = true).
    { unfold should_log. rewrite Lg, L. apply Z.leb_le. exact G1. }
    rewrite Sh in *. cbn [app] in *. constructor; auto; try (apply not_flush; [exact Q|discriminate]); try (rewrite acc_snoc, app_nil_r; assumption).
    + repeat split; assumption.
    + right. eexists. split; [reflexivity|]. split; assumption.
    + rewrite acc_snoc, app_nil_r. rewrite E in A. exact A.
    + apply quiet_file; auto.
  - destruct (call_one _ _ _ _ E C) as (-> & -> & (G1 & G2)). cbn [app] in *.
    constructor; auto; try (apply not_flush; [exact Q|discriminate]); try (rewrite acc_snoc, app_nil_r; assumption).
    + repeat split; assumption.
    + right. eexists. split; [reflexivity|]. split; assumption.
    + rewrite acc_snoc, app_nil_r. rewrite E in A. exact A.
    + apply quiet_file; auto.
  - (* add *)
    destruct (call_one _ _ _ _ E C) as (-> & -> & (G1 & G2)). assert (Ac : accepts less e s = true) by (unfold accepts; rewrite Mx; reflexivity).
    rewrite Ac in *. unfold add in *. rewrite Mx, Fl in *. cbn [Nat.eqb orb fst snd app] in *. destruct e as [id th [] lv ti m].
    constructor; auto; try (apply not_flush; [exact Q|discriminate]).
    + repeat split; assumption.
    + right. eexists. split; [reflexivity|]. split; assumption.
    + rewrite acc_snoc, map_app. rewrite E in A. rewrite <- A, <- !app_assoc. reflexivity.
    + rewrite acc_snoc. apply Forall_app. split; [exact N|]. constructor; [exact G2|constructor].
    + apply quiet_file; auto.
  - (* notify *)
    destruct (call_one _ _ _ _ E C) as (-> & -> & _). cbn [app] in *.
    constructor; auto; try (apply not_flush; [exact Q|discriminate]); try (rewrite acc_snoc, app_nil_r; assumption).
    + repeat split; assumption.
    + rewrite acc_snoc. cbn. rewrite !app_nil_r. rewrite E in A. cbn in A. rewrite app_nil_r in A. exact A.
    + apply quiet_file; auto.
    + intros X. specialize (O X). cbn. destruct (pc s); try exact I; exact O.
  - constructor; auto; try (apply not_flush; [exact Q|discriminate]); try (rewrite acc_snoc, app_nil_r; assumption).
    + repeat split; assumption.
    + apply quiet_file; auto.
    + intros _. exact I.
  - constructor; auto; try (apply not_flush; [exact Q|discriminate]); try (rewrite acc_snoc, app_nil_r; assumption).
    + repeat split; assumption.
    + apply quiet_file; auto.
    + intros _. cbn. rewrite Lg. destruct sw; exact I.
  - constructor; auto; try (apply not_flush; [exact Q|discriminate]); try (rewrite acc_snoc, app_nil_r; assumption).
    + repeat split; assumption.
    + apply quiet_file; auto.
    + intros _. exact I.
  - constructor; auto; try (apply not_flush; [exact Q|discriminate]); try (rewrite acc_snoc, app_nil_r; assumption).
    + repeat split; assumption.
    + apply quiet_file; auto.
    + intros _. exact I.
  - constructor; auto; try (apply not_flush; [exact Q|discriminate]); try (rewrite acc_snoc, app_nil_r; assumption).
    + repeat split; assumption.
    + apply quiet_file; auto.
    + intros _. cbn. destruct (next_file less p (lfiles s)) as [[k b]|]; [|exact I]. destruct (_ && _); exact I.
  - (* open *)
    constructor; auto; try (apply not_flush; [exact Q|discriminate]); try (rewrite acc_snoc, app_nil_r; assumption).
    + repeat split; assumption.
    + destruct F as (ws & es & F1 & F2 & F3). exists ws, es. rewrite wri_snoc, app_nil_r. split; [exact F1|]. split; [exact F2|]. apply holds_open, F3.
    + discriminate.
  - (* write *)
    assert (Nf : f <> None) by (intros X; specialize (O X); rewrite P in O; exact O). destruct k.
    constructor; auto; try (apply not_flush; [exact Q|discriminate]); try (rewrite acc_snoc, app_nil_r; assumption).
    + repeat split; assumption.
    + destruct F as (ws & es & F1 & F2 & F3). exists ws, (es ++ [e]). rewrite wri_snoc, F1, app_assoc. split; [reflexivity|]. split; [exact F2|]. apply holds_write; assumption.
    + destruct f; [discriminate|congruence].
  - constructor; auto; try (apply not_flush; [exact Q|discriminate]); try (rewrite acc_snoc, app_nil_r; assumption).
    + repeat split; assumption.
    + apply quiet_file; auto.
    + intros _. exact I.
  - constructor; auto; try (apply not_flush; [exact Q|discriminate]); try (rewrite acc_snoc, app_nil_r; assumption).
    + repeat split; assumption.
    + apply quiet_file; auto.
    + intros _. exact I.
Qed.
Lemma J_log tr s f gone since l m : J tr s f gone since -> calls s = [] -> (0 <= l)%Z -> neat m ->
  let e := Entry (next_id s) 0 tt l 0%Z m in
  J (tr ++ [ECall e]) (set_next (S (next_id s)) (set_calls [CEnter e] s)) f gone (since ++ [s_message m]).
Proof.
  intros [Ex Q (L & Lg & Mx & Fl & Dt & Pe) C A N F O] E Hl Hm e.
  constructor; auto; try (apply not_flush; [exact Q|discriminate]).
  - econstructor; [exact Ex|]. left. pose proof (c_call s 0 tt l m Dt) as X. rewrite E in X. apply X. intros [].
  - repeat split; assumption.
  - right. eexists. split; [reflexivity|]. split; assumption.
  - rewrite acc_snoc, app_nil_r. rewrite E, app_nil_r in A. rewrite A, <- app_assoc. reflexivity.
  - rewrite acc_snoc, app_nil_r. exact N.
  - destruct F as (ws & es & F1 & F2 & F3). exists ws, es. rewrite wri_snoc, app_nil_r. auto.
Qed.
(** at rest all is written *)
Definition clean (tr : list event) (s : logger) : Prop := accepted_for less tt tr = written_to less tt tr /\ calls s = [].
Lemma rest_clean tr s f gone since : J tr s f gone since -> quiescent less s -> clean tr s.
Proof.
  intros [Ex Q (L & Lg & Mx & Fl & Dt & Pe) C A N F O] Qu. destruct (quiescent_pc less s Qu) as ([P|P] & Hc & _).
  2:{ elim (exec_exited less unit_order _ _ _ _ _ _ Ex P Dt). }
  split; [|exact Hc]. destruct (buffered_proof less unit_order _ _ _ _ _ _ tt Ex Dt) as (n & Ln & E & Z). rewrite (Z P) in E. cbn [skipn] in E.
  pose proof (flushed_proof less unit_order _ _ _ _ tr s tt (fixed_calm less _ _ _ Ex Q) Qu Dt) as Du. rewrite Fl in Du. unfold due in Du.
  destruct (buffer less tt (lfiles s)) as [|x b]; [cbn in E; rewrite app_nil_r in E; exact E|]. elim Du. split; [discriminate|cbn; lia].
Qed.
Lemma nothing_more tr s e s1 : exec less init tr s -> accepted_for less tt tr = written_to less tt tr -> step less s e s1 -> written_in less tt e = [].
Proof.
  intros Ex E St. destruct (prefix_proof less unit_order _ _ _ _ _ _ tt (exec_snoc _ _ _ _ _ _ Ex St)) as (r & X). rewrite acc_snoc, wri_snoc, E in X.
  rewrite <- app_assoc in X. apply app_inv_head in X. destruct e; try reflexivity. cbn in X. destruct (equivb less tt k); discriminate X.
Qed.
Lemma clean_step tr s f gone since e s1 : J tr s f gone since -> clean tr s -> internal less s e s1 \/ other s e s1 -> clean (tr ++ [e]) s1.
Proof.
  intros Hj (E & C) H. destruct Hj as [Ex Q (L & Lg & Mx & Fl & Dt & Pe) _ A N F O].
  assert (St : step less s e s1) by (destruct H as [H|H]; [right; left; exact H|right; right; right; exact H]).
  pose proof (nothing_more _ _ _ _ Ex E St) as W. split.
  - rewrite acc_snoc, wri_snoc, W, app_nil_r, <- E. assert (X : accepted_in less tt e = []); [|rewrite X, app_nil_r; reflexivity].
    destruct H as [H|H]; [|destruct H; reflexivity]. destruct H; try reflexivity; try (rewrite C in H; destruct l1; discriminate H).
    all: match goal with |- context [match ?x with _ => _ end] => destruct x end; reflexivity.
  - destruct H as [H|H]; [|destruct H; exact C]. destruct H; try exact C; rewrite C in H; destruct l1; discriminate H.
Qed.
Lemma J_remove tr s f gone since : J tr s f gone since -> clean tr s -> J tr s None (gone ++ since) [].
Proof.
  intros [Ex Q (L & Lg & Mx & Fl & Dt & Pe) C A N F O] (E & Hc). constructor; auto.
  - repeat split; assumption.
  - rewrite app_nil_r. exact A.
  - exists (written_to less tt tr), []. rewrite app_nil_r. split; [reflexivity|]. split; [|reflexivity]. rewrite <- E. rewrite Hc in A. cbn in A. rewrite app_nil_r in A. exact A.
  - intros _. destruct (pc s) as [| | | | | | |k [|e todo] n| |] eqn:P; try exact I.
    pose proof (nothing_more tr s _ _ Ex E (or_intror (or_introl (l_write less s k e todo n P)))) as X. cbn in X. destruct k. discriminate X.
Qed.
(** what is read at rest *)
Lemma neat_view e : neat (e_msg e) -> neat_line (view e).
Proof. intros (A & B & C & _). split; [apply Plain|]. split; [exact A|]. split; [exact B|exact C]. Qed.
Lemma J_read tr s f gone since : J tr s f gone since -> clean tr s ->
  last_log_message (content f) = last since [] /\ count_logs (content f) = match since with [] => 0 | _ => 2 + List.length since end.
Proof.
  intros [Ex Q _ C A N F O] (E & Hc). destruct F as (ws & es & F1 & F2 & F3). rewrite Hc in A. cbn in A. rewrite app_nil_r, E, F1, map_app, F2 in A.
  apply app_inv_head in A. subst since. rewrite E, F1 in N. apply Forall_app in N as [_ N].
  destruct (snoc_case es) as [->|(l & e & ->)].
  - cbn in F3. rewrite F3. split; reflexivity.
  - assert (Fs : exists st, f = Some st /\ out st = file_text hide (map view (l ++ [e]))) by (destruct l; exact F3). destruct Fs as (st & -> & O1).
    cbn [content]. rewrite O1.
    assert (Wf : written_file hide (map view (l ++ [e])) (file_text hide (map view (l ++ [e])))).
    { exists (Stream [] 0 " " false). split; [reflexivity|]. generalize (map view (l ++ [e])). intros vs.
      symmetry. refine (eq_trans _ (eq_refl _)). unfold file_text, head_text. generalize (write_line (default_header_writer hide) (Stream [] 0 " " false)).
      induction vs as [|v vs IH]; intros st'; cbn [fold_left flat_map]; [rewrite app_nil_r; reflexivity|]. rewrite IH, write_row, <- app_assoc. reflexivity. }
    split.
    + rewrite map_app in Wf |- *. cbn [map] in Wf |- *. apply Forall_app in N as [_ N]. inversion N as [|? ? Ne _]; subst.
      destruct (neat_view e Ne) as (P1 & P2 & P3 & P4). rewrite map_app. cbn [map]. rewrite last_snoc.
      apply (proj2 (last_text hide _ _ _ P1 P2 P3 Wf)). split; [exact P4|apply Ne].
    + assert (Nv : Forall neat_line (map view (l ++ [e]))) by (apply Forall_map; eapply Forall_impl; [|exact N]; intros x; apply neat_view).
      rewrite (count_text hide _ _ Nv Wf).
      rewrite map_length. pose proof (map_length msg (l ++ [e])) as Lx. destruct (map msg (l ++ [e])) as [|y ys] eqn:X; [destruct l; discriminate X|].
      rewrite <- Lx. reflexivity.
Qed.

Section Rest.
Variable sleeps : logger -> Prop.
Hypothesis Rest : forall s, sleeps s -> quiescent less s.
Definition no_remove (prog : list statement) : Prop := match prog with Remove :: _ => False | _ => True end.
Lemma tidy_tail c prog : tidy (c :: prog) -> tidy prog.
Proof. intros T a l m b E. apply (T (c :: a) l m b). rewrite E. reflexivity. Qed.
Lemma neat_tail c prog : neat_program (c :: prog) -> neat_program prog.
Proof. intros T l m I. apply T. right. exact I. Qed.
Lemma run_reads s f prog tr s' f' rest seen : run hide local thread_id sleeps s f prog tr s' f' rest seen ->
  forall tr0 gone since, J tr0 s f gone since -> neat_program prog -> tidy prog -> clean tr0 s \/ no_remove prog ->
  exists since', expected since prog = seen ++ expected since' rest.
Proof.
  intros R. induction R as [s f prog|s f prog e s1 tr s' f' rest seen H R IH|s f l m prog tr s' f' rest seen C e R IH
    |s f c prog v tr s' f' rest seen C Sl Rd R IH|s f prog tr s' f' rest seen C R IH]; intros tr0 gone since Hj Hn Ht Hc.
  - exists since. reflexivity.
  - apply (IH (tr0 ++ [e]) gone since); [apply (J_step _ s); assumption|exact Hn|exact Ht|].
    destruct Hc as [Hc|Hc]; [left; apply (clean_step _ s f gone since); assumption|right; exact Hc].
  - destruct (Hn l m (or_introl eq_refl)) as (Hl & Hm).
    destruct (IH _ gone (since ++ [s_message m]) (J_log _ _ _ _ _ l m Hj C Hl Hm) (neat_tail _ _ Hn) (tidy_tail _ _ Ht)) as (since' & E).
    { right. destruct prog as [|[]]; try exact I. exact (Ht [] l m prog eq_refl). }
    exists since'. exact E.
  - pose proof (rest_clean _ _ _ _ _ Hj (Rest _ Sl)) as Cl. destruct (IH _ gone since Hj (neat_tail _ _ Hn) (tidy_tail _ _ Ht) (or_introl Cl)) as (since' & E).
    exists since'. destruct (J_read _ _ _ _ _ Hj Cl) as (R1 & R2). destruct c; try discriminate Rd; injection Rd as <-; cbn [expected app]; [rewrite R1|rewrite R2]; rewrite E; reflexivity.
  - destruct Hc as [Hc|[]]. destruct (IH _ _ _ (J_remove _ _ _ _ _ Hj Hc) (neat_tail _ _ Hn) (tidy_tail _ _ Ht) (or_introl Hc)) as (since' & E).
    exists since'. exact E.
Qed.
Lemma run_reads_proof prog tr s f rest seen : neat_program prog -> tidy prog -> run hide local thread_id sleeps init None prog tr s f rest seen ->
  exists since, expected [] prog = seen ++ expected since rest.
Proof. intros Hn Ht R. apply (run_reads _ _ _ _ _ _ _ _ R [] [] [] J_init Hn Ht). left. split; reflexivity. Qed.
End Rest.
End Runs.
