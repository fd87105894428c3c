From Coq Require Import List Bool Arith Ascii Permutation Lia.
From Verif Require Import MacroModel MacroSpec.
Import ListNotations.

Lemma evaluated_app a b : evaluated (a ++ b) = evaluated a ++ evaluated b.
Proof. apply flat_map_app. Qed.
Lemma added_app a b : added (a ++ b) = added a ++ added b.
Proof. apply flat_map_app. Qed.

Section Proofs.
Variables (checks adds : nat -> bool).

(** evaluating leaves the counters alone, adds nothing, and evaluates a prefix of the order *)
Lemma evaluate_spec ord ops s ok s' : evaluate ord ops s = (ok, s') ->
  nchecks s' = nchecks s /\ nadds s' = nadds s /\
  exists l1 l2, ord = l1 ++ l2 /\ trace s' = trace s ++ map EEval l1 /\ (ok = true -> l2 = []).
Proof.
  revert s. induction ord as [|i ord IH]; cbn; intros s E.
  - injection E as <- <-. repeat split; auto. exists [], []. cbn. rewrite !app_nil_r. auto.
  - destruct (nth_error ops i) as [[t|t]|] eqn:N.
    + apply IH in E. destruct E as (E1 & E2 & l1 & l2 & -> & E3 & E4). repeat split; auto. exists (i :: l1), l2.
      cbn in *. rewrite E3, <- app_assoc. auto.
    + injection E as <- <-. repeat split; auto. exists [i], ord. repeat split; auto. discriminate.
    + injection E as <- <-. repeat split; auto. exists [i], ord. repeat split; auto. discriminate.
Qed.
Lemma evaluate_gives ord ops s : (forall i, In i ord -> i < length ops) -> Forall gives ops -> fst (evaluate ord ops s) = true.
Proof.
  revert s. induction ord as [|i ord IH]; cbn; intros s B G; [reflexivity|].
  destruct (nth_error ops i) as [o|] eqn:N; [|apply nth_error_None in N; specialize (B i (or_introl eq_refl)); lia].
  rewrite Forall_forall in G. destruct (G o) as (t & ->); [eapply nth_error_In; eauto|]. apply IH; [auto|apply Forall_forall; exact G].
Qed.
Lemma evaluate_fails ord ops s t : In (Fails t) ops -> (forall i, i < length ops -> In i ord) -> fst (evaluate ord ops s) = false.
Proof.
  intros F A. apply In_nth_error in F. destruct F as (k & F). assert (K : In k ord) by (apply A, nth_error_Some; congruence).
  clear A. revert s. induction ord as [|i ord IH]; [destruct K|]. cbn. intros s. destruct (nth_error ops i) as [[u|u]|] eqn:N; auto.
  apply IH. destruct K as [->|K]; [congruence|exact K].
Qed.
Lemma evaluated_evals l : evaluated (map EEval l) = l.
Proof. induction l as [|x l IH]; cbn; [reflexivity|]. first [exact IH | f_equal; exact IH]. Qed.
Lemma added_evals l : added (map EEval l) = [].
Proof. induction l as [|x l IH]; cbn; [reflexivity|]. first [exact IH | f_equal; exact IH]. Qed.
Lemma loggers_evals l : loggers (map EEval l) = 0.
Proof. induction l; cbn; auto. Qed.
Lemma loggers_app a b : loggers (a ++ b) = loggers a + loggers b.
Proof. unfold loggers. rewrite filter_app, app_length. reflexivity. Qed.
Lemma order_in n ord : some_order n ord -> (forall i, In i ord -> i < n) /\ forall i, i < n -> In i ord.
Proof.
  intros P. split; intros i Hi.
  - apply (Permutation_in _ P), in_seq in Hi. lia.
  - apply (Permutation_in _ (Permutation_sym P)), in_seq. lia.
Qed.

(** the streaming of operands *)
Lemma stream_all_spec args : forall i buf s ok buf' s', stream_all i args buf s = (ok, buf', s') ->
  nchecks s' = nchecks s /\ nadds s' = nadds s /\
  exists n, n <= length args /\ trace s' = trace s ++ map EEval (seq i n) /\
    buf' = buf ++ concat (map value_of (firstn n args)) /\
    (ok = true -> n = length args /\ Forall gives args) /\
    (ok = false -> exists t, 0 < n /\ nth_error args (n - 1) = Some (Fails t) /\ Forall gives (firstn (n - 1) args)).
Proof.
  induction args as [|[t|t] args IH]; cbn; intros i buf s ok buf' s' E.
  - injection E as <- <- <-. repeat split; auto. exists 0. cbn. rewrite !app_nil_r. repeat split; auto. discriminate.
  - apply IH in E. destruct E as (E1 & E2 & n & L & E3 & E4 & E5 & E6). cbn in E1, E2. repeat split; auto. exists (S n). split; [lia|].
    cbn in E3. split; [rewrite E3, <- app_assoc; reflexivity|]. split; [rewrite E4, <- app_assoc; reflexivity|]. split.
    + intros X. apply E5 in X. destruct X as [-> X]. split; [reflexivity|]. constructor; [exists t; reflexivity|exact X].
    + intros X. apply E6 in X. destruct X as (u & N & F & G). exists u. split; [lia|]. destruct n as [|n]; [lia|]. cbn in *.
      rewrite Nat.sub_0_r in *. split; [exact F|]. constructor; [exists t; reflexivity|exact G].
  - injection E as <- <- <-. repeat split; auto. exists 1. cbn. rewrite app_nil_r. repeat split; auto; try lia; try discriminate. eauto.
Qed.
Lemma stream_all_gives args i buf s : Forall gives args -> exists s', stream_all i args buf s = (true, buf ++ concat (map value_of args), s').
Proof.
  revert i buf s. induction args as [|o args IH]; cbn; intros i buf s G; [rewrite app_nil_r; eauto|]. inversion G as [|? ? (t & ->) G']; subst.
  destruct (IH (S i) (buf ++ t) (emit (EEval i) s) G') as (s' & E). rewrite E. cbn. rewrite <- app_assoc. eauto.
Qed.

Ltac ev := rewrite ?evaluated_app, ?added_app, ?loggers_app, ?evaluated_evals, ?added_evals, ?loggers_evals; cbn; rewrite ?app_nil_r.

(** * write, writef and format *)
Lemma write_runs fmt ord file args o s' : log_write checks adds fmt ord file args start = (o, s') ->
  exists l1 l2 r, ord = l1 ++ l2 /\
  trace s' = ELogger :: ECheck (checks 0) :: (if checks 0 then ELogger :: map EEval l1 ++ r else []) /\
  (r = [] \/ l2 = [] /\ (r = [ECheck false] /\ checks 1 = false /\ o = Fine \/ checks 1 = true /\
     (r = [ECheck true] /\ o = Threw /\ (fmt (map value_of args) = None \/ adds 0 = false) \/
      exists m, fmt (map value_of args) = Some m /\ adds 0 = true /\ o = Fine /\ r = [ECheck true; EAdd (value_of file) m]))).
Proof.
  unfold log_write, should_log. cbn. destruct (checks 0) eqn:C.
  - destruct (evaluate ord (file :: args) _) as (ok, s1) eqn:Ev. pose proof Ev as V. apply evaluate_spec in V.
    destruct V as (V1 & V2 & l1 & l2 & O & V3 & V4). cbn in V1, V2, V3. destruct ok.
    + unfold write_call, should_log. rewrite V1. cbn. rewrite V3. cbn. destruct (checks 1) eqn:C1.
      * destruct (fmt (map value_of args)) as [m|] eqn:F.
        -- unfold add_log_to_buffer. cbn. rewrite V2. destruct (adds 0) eqn:A; intros E; injection E as <- <-; cbn; exists l1, l2.
           ++ exists [ECheck true; EAdd (value_of file) m]. rewrite <- !app_assoc. repeat split; auto. right. split; [apply V4; reflexivity|]. right. split; [reflexivity|]. right. eauto.
           ++ exists [ECheck true]. repeat split; auto. right. split; [apply V4; reflexivity|]. right. split; [reflexivity|]. left. auto.
        -- intros E. injection E as <- <-. exists l1, l2, [ECheck true]. repeat split; auto. right. split; [apply V4; reflexivity|]. right. split; [reflexivity|]. left. auto.
      * intros E. injection E as <- <-. exists l1, l2, [ECheck false]. repeat split; auto. right. split; [apply V4; reflexivity|]. left. auto.
    + intros E. injection E as <- <-. exists l1, l2, []. rewrite V3. cbn. rewrite app_nil_r. repeat split; auto.
  - intros E. injection E as <- <-. exists [], ord, []. auto.
Qed.
Lemma write_call_quiet fmt file args s o s' : write_call checks adds fmt file args s = (o, s') ->
  exists r, trace s' = trace s ++ r /\ evaluated r = [].
Proof.
  unfold write_call, should_log, add_log_to_buffer. cbn. destruct (checks (nchecks s)).
  - destruct (fmt args) as [m|]; [destruct (adds (nadds s))|]; intros E; injection E as _ <-; cbn; rewrite <- ?app_assoc; eauto.
  - intros E; injection E as _ <-. cbn. eauto.
Qed.
Lemma write_lazy fmt ord file args o s' : log_write checks adds fmt ord file args start = (o, s') ->
  (exists l, ord = evaluated (trace s') ++ l) /\ (checks 0 = false -> o = Fine /\ evaluated (trace s') = []) /\
  (checks 0 = true -> some_order (S (length args)) ord -> Forall gives (file :: args) -> evaluated (trace s') = ord).
Proof.
  unfold log_write, should_log. cbn. destruct (checks 0) eqn:C; cbn.
  - destruct (evaluate ord (file :: args) _) as (ok, s1) eqn:Ev. pose proof Ev as V. apply evaluate_spec in V.
    destruct V as (_ & _ & l1 & l2 & O & V3 & V4). cbn in V3.
    assert (E1 : evaluated (trace s1) = l1) by (rewrite V3; cbn; ev; reflexivity).
    intros H. assert (E : evaluated (trace s') = l1).
    { destruct ok; [|injection H as _ <-; exact E1]. apply write_call_quiet in H. destruct H as (r & -> & R). ev. rewrite R, app_nil_r. exact E1. }
    rewrite E. split; [exists l2; auto|]. split; [discriminate|]. intros _ So G. destruct (order_in _ _ So) as [B _].
    assert (ok = true) as -> by (change ok with (fst (ok, s1)); rewrite <- Ev; apply evaluate_gives; auto).
    rewrite O, V4, app_nil_r; reflexivity.
  - intros H. injection H as <- <-. split; [exists ord; reflexivity|]. split; [auto|discriminate].
Qed.
Lemma write_added fmt ord file args m o s' : some_order (S (length args)) ord -> Forall gives (file :: args) ->
  fmt (map value_of args) = Some m -> (forall n, adds n = true) ->
  log_write checks adds fmt ord file args start = (o, s') ->
  o = Fine /\ added (trace s') = if checks 0 && checks 1 then [(value_of file, m)] else [].
Proof.
  intros So G F A H. destruct (order_in _ _ So) as [B _]. revert H. unfold log_write, should_log. cbn. destruct (checks 0) eqn:C; cbn.
  - destruct (evaluate ord (file :: args) _) as (ok, s1) eqn:Ev.
    assert (ok = true) as -> by (change ok with (fst (ok, s1)); rewrite <- Ev; apply evaluate_gives; auto).
    apply evaluate_spec in Ev. destruct Ev as (V1 & V2 & k1 & k2 & O' & V3 & V4). cbn in V1, V2, V3.
    unfold write_call, should_log, add_log_to_buffer. rewrite V1, F. cbn. destruct (checks 1); rewrite ?A; intros H; injection H as <- <-; (split; [reflexivity|]); cbn; rewrite V3; cbn; ev; reflexivity.
  - intros H. injection H as <- <-. auto.
Qed.
Lemma write_once fmt ord file args o s' : log_write checks adds fmt ord file args start = (o, s') -> length (added (trace s')) <= 1.
Proof.
  intros H. destruct (write_runs _ _ _ _ _ _ H) as (l1 & l2 & r & O & T & X). rewrite T.
  assert (R : length (added r) <= 1) by (destruct X as [->|(_ & [(-> & _)|(_ & [(-> & _)|(m & _ & _ & _ & ->)])])]; cbn; lia).
  destruct (checks 0); cbn; ev; lia.
Qed.
Lemma write_call_threw fmt file args s o s' : write_call checks adds fmt file args s = (o, s') -> added (trace s) = [] ->
  o <> Terminated /\ (o = Threw -> added (trace s') = []).
Proof.
  unfold write_call, should_log, add_log_to_buffer. cbn. intros E A. revert E. destruct (checks (nchecks s)).
  - destruct (fmt args) as [m|]; [destruct (adds (nadds s))|]; intros E; injection E as <- <-; cbn; (split; [discriminate|]); intros X; try discriminate; ev; exact A.
  - intros E; injection E as <- <-. split; discriminate.
Qed.
Lemma write_threw fmt ord file args o s' : log_write checks adds fmt ord file args start = (o, s') ->
  o <> Terminated /\ (o = Threw -> added (trace s') = []).
Proof.
  unfold log_write, should_log. cbn. destruct (checks 0) eqn:C; cbn.
  - destruct (evaluate ord (file :: args) _) as (ok, s1) eqn:Ev. apply evaluate_spec in Ev.
    destruct Ev as (V1 & V2 & k1 & k2 & O' & V3 & V4). cbn in V3. assert (A : added (trace s1) = []) by (rewrite V3; cbn; ev; reflexivity).
    destruct ok; intros H.
    + exact (write_call_threw _ _ _ _ _ _ H A).
    + injection H as <- <-. split; [discriminate|auto].
  - intros H. injection H as <- <-. split; discriminate.
Qed.
Lemma write_operand_throws fmt ord file args t o s' : some_order (S (length args)) ord -> In (Fails t) (file :: args) ->
  log_write checks adds fmt ord file args start = (o, s') -> added (trace s') = [] /\ o = if checks 0 then Threw else Fine.
Proof.
  intros So F H. destruct (order_in _ _ So) as [_ B]. revert H. unfold log_write, should_log. cbn. destruct (checks 0) eqn:C; cbn.
  - destruct (evaluate ord (file :: args) _) as (ok, s1) eqn:Ev.
    assert (ok = false) as -> by (change ok with (fst (ok, s1)); rewrite <- Ev; eapply evaluate_fails; eauto).
    apply evaluate_spec in Ev. destruct Ev as (V1 & V2 & k1 & k2 & O' & V3 & V4). intros H. injection H as <- <-. rewrite V3. cbn. ev. auto.
  - intros H. injection H as <- <-. auto.
Qed.

(** * stream *)
Lemma end_spec live f buf s o live' s' : streamer_end checks adds live f buf s = (o, live', s') ->
  exists r, trace s' = trace s ++ r /\ evaluated r = [] /\ loggers r = 0 /\
  (live = false /\ o = Fine /\ live' = false /\ r = [] /\ nchecks s' = nchecks s /\ nadds s' = nadds s \/
   live = true /\ nchecks s' = S (nchecks s) /\
   (checks (nchecks s) = false /\ o = Fine /\ live' = true /\ added r = [] /\ nadds s' = nadds s \/
    checks (nchecks s) = true /\ nadds s' = S (nadds s) /\
    (adds (nadds s) = true /\ o = Fine /\ live' = false /\ added r = [(f, buf)] \/
     adds (nadds s) = false /\ o = Threw /\ live' = true /\ added r = []))).
Proof.
  unfold streamer_end, should_log, add_log_to_buffer. destruct live; cbn.
  - destruct (checks (nchecks s)); [destruct (adds (nadds s))|]; intros E; injection E as <- <- <-; cbn.
    + exists [ECheck true; EAdd f buf]. rewrite <- app_assoc. repeat split; auto 15.
    + exists [ECheck true]. repeat split; auto 15.
    + exists [ECheck false]. repeat split; auto 15.
  - intros E. injection E as <- <- <-. exists []. rewrite app_nil_r. repeat split; auto 15.
Qed.
Lemma destroy_spec o0 live f buf s o s' : streamer_destroy checks adds o0 live f buf s = (o, s') ->
  exists r, trace s' = trace s ++ r /\ evaluated r = [] /\ loggers r = 0 /\
  (live = false /\ o = o0 /\ r = [] \/
   live = true /\ checks (nchecks s) = false /\ o = o0 /\ added r = [] \/
   live = true /\ checks (nchecks s) = true /\ adds (nadds s) = true /\ o = o0 /\ added r = [(f, buf)] \/
   live = true /\ checks (nchecks s) = true /\ adds (nadds s) = false /\ o = Terminated /\ added r = []).
Proof.
  unfold streamer_destroy. destruct (streamer_end checks adds live f buf s) as ((o1, live1), s1) eqn:E. apply end_spec in E.
  destruct E as (r & T & R & Rl & X).
  destruct X as [(-> & -> & -> & -> & _)|(-> & _ & [(C & -> & -> & A & _)|(C & _ & [(Ad & -> & -> & A)|(Ad & -> & -> & A)])])]; intros E; injection E as <- <-;
    eexists; repeat split; eauto 10.
Qed.

Local Arguments streamer_end : simpl never.
Local Arguments streamer_destroy : simpl never.
(** everything about PLUTO_LOG_STREAM: [n] operands have been evaluated after the file *)
Lemma stream_runs file args o s' : log_stream checks adds file args start = (o, s') ->
  if checks 0 then
    exists n r, n <= length args /\ trace s' = [ELogger; ECheck true; ELogger; EEval 0] ++ map EEval (seq 1 n) ++ r /\
      evaluated r = [] /\ loggers r = 0 /\
      match file with
      | Fails _ => n = 0 /\ r = [] /\ o = Threw
      | Gives f =>
          (n = length args /\ Forall gives args /\
           (checks 1 = true /\ adds 0 = true /\ o = Fine /\ added r = [(f, concat (map value_of args))] \/
            checks 1 = true /\ adds 0 = false /\ (checks 2 = false /\ o = Threw /\ added r = [] \/
              checks 2 = true /\ adds 1 = true /\ o = Threw /\ added r = [(f, concat (map value_of args))] \/
              checks 2 = true /\ adds 1 = false /\ o = Terminated /\ added r = []) \/
            checks 1 = false /\ (checks 2 = false /\ o = Fine /\ added r = [] \/
              checks 2 = true /\ adds 0 = true /\ o = Fine /\ added r = [(f, concat (map value_of args))] \/
              checks 2 = true /\ adds 0 = false /\ o = Terminated /\ added r = []))) \/
          (0 < n /\ (exists t, nth_error args (n - 1) = Some (Fails t)) /\ Forall gives (firstn (n - 1) args) /\
           (checks 1 = false /\ o = Threw /\ added r = [] \/
            checks 1 = true /\ adds 0 = true /\ o = Threw /\ added r = [(f, concat (map value_of (firstn n args)))] \/
            checks 1 = true /\ adds 0 = false /\ o = Terminated /\ added r = []))
      end
  else o = Fine /\ trace s' = [ELogger; ECheck false].
Proof.
  unfold log_stream, should_log. cbn. destruct (checks 0) eqn:C.
  2:{ intros E. injection E as <- <-. auto. }
  destruct file as [f|tf].
  2:{ intros E. injection E as <- <-. exists 0, []. cbn. repeat split; auto. lia. }
  destruct (stream_all 1 args [] _) as ((ok, buf), s1) eqn:Ev. apply stream_all_spec in Ev.
  destruct Ev as (V1 & V2 & n & L & V3 & V4 & V5 & V6). cbn in V1, V2, V3, V4. subst buf. destruct ok.
  - destruct (V5 eq_refl) as [-> G]. rewrite firstn_all in *. clear V5 V6.
    match goal with |- context [streamer_end checks adds true f ?b s1] => destruct (streamer_end checks adds true f b s1) as ((o1, live1), s2) eqn:En end. apply end_spec in En. destruct En as (r & T & R & Rl & X).
    rewrite V1, V2 in X. intros D. apply destroy_spec in D. destruct D as (r' & T' & R' & Rl' & Y).
    exists (length args), (r ++ r'). rewrite T', T, V3, <- !app_assoc. cbn. split; [lia|]. split; [reflexivity|]. split; [ev; rewrite R, R'; reflexivity|].
    split; [ev; lia|]. left. split; [reflexivity|]. split; [exact G|]. rewrite added_app.
    destruct X as [(X & _)|(_ & Nc & [(Ck & -> & -> & A & Na)|(Ck & Na & [(Ad & -> & -> & A)|(Ad & -> & -> & A)])])]; [discriminate|..]; rewrite Nc, ?Na in Y.
    + right. right. split; [exact Ck|]. destruct Y as [(Y & _)|[(_ & Y1 & -> & Y2)|[(_ & Y1 & Y2 & -> & Y3)|(_ & Y1 & Y2 & -> & Y3)]]]; [discriminate|..]; rewrite A, ?Y2, ?Y3; auto 10.
    + left. destruct Y as [(_ & -> & ->)|[(Y & _)|[(Y & _)|(Y & _)]]]; try discriminate. rewrite A. auto.
    + right. left. split; [exact Ck|]. split; [exact Ad|]. destruct Y as [(Y & _)|[(_ & Y1 & -> & Y2)|[(_ & Y1 & Y2 & -> & Y3)|(_ & Y1 & Y2 & -> & Y3)]]]; [discriminate|..]; rewrite A, ?Y2, ?Y3; auto 10.
  - destruct (V6 eq_refl) as (t & N & F & G). intros D. apply destroy_spec in D. destruct D as (r & T & R & Rl & Y). rewrite V1, V2 in Y.
    exists n, r. rewrite T, V3, <- ?app_assoc. cbn. split; [exact L|]. split; [reflexivity|]. split; [exact R|]. split; [exact Rl|]. right.
    split; [exact N|]. split; [eauto|]. split; [exact G|].
    destruct Y as [(Y & _)|[(_ & Y1 & -> & Y2)|[(_ & Y1 & Y2 & -> & Y3)|(_ & Y1 & Y2 & -> & Y3)]]]; [discriminate|..]; auto 10.
Qed.
Lemma stream_lazy file args o s' : log_stream checks adds file args start = (o, s') ->
  (exists n, n <= S (length args) /\ evaluated (trace s') = seq 0 n) /\
  (checks 0 = false -> o = Fine /\ evaluated (trace s') = []) /\
  (checks 0 = true -> Forall gives (file :: args) -> evaluated (trace s') = seq 0 (S (length args))).
Proof.
  intros H. apply stream_runs in H. destruct (checks 0).
  - destruct H as (n & r & L & T & R & _ & X). rewrite T.
    assert (E : evaluated ([ELogger; ECheck true; ELogger; EEval 0] ++ map EEval (seq 1 n) ++ r) = seq 0 (S n)) by (ev; rewrite R, app_nil_r; reflexivity).
    rewrite E. split; [exists (S n); split; [lia|reflexivity]|]. split; [discriminate|]. intros _ G. inversion G as [|? ? (f & ->) G']; subst.
    destruct X as [(-> & _)|(N & (t & F) & _)]; [reflexivity|]. exfalso. rewrite Forall_forall in G'. apply nth_error_In, G' in F. destruct F. discriminate.
  - destruct H as [-> ->]. cbn. split; [exists 0; split; [lia|reflexivity]|]. split; [auto|discriminate].
Qed.
Lemma stream_added file args o s' : Forall gives (file :: args) -> (forall n, adds n = true) ->
  log_stream checks adds file args start = (o, s') ->
  o = Fine /\ added (trace s') = if checks 0 && (checks 1 || checks 2) then [(value_of file, concat (map value_of args))] else [].
Proof.
  intros G A H. apply stream_runs in H. inversion G as [|? ? (f & ->) G']; subst. destruct (checks 0).
  - destruct H as (n & r & L & T & R & _ & X). rewrite T. cbn. ev.
    destruct X as [(-> & _ & X)|(N & (t & F) & _)]; [|exfalso; rewrite Forall_forall in G'; apply nth_error_In, G' in F; destruct F; discriminate].
    rewrite !A in X. destruct X as [(-> & _ & -> & ->)|[(-> & X & _)|(-> & [(-> & -> & ->)|[(-> & _ & -> & ->)|(_ & X & _)]])]]; try discriminate; auto.
  - destruct H as [-> ->]. auto.
Qed.
Lemma stream_once file args o s' : log_stream checks adds file args start = (o, s') -> length (added (trace s')) <= 1.
Proof.
  intros H. apply stream_runs in H. destruct (checks 0).
  - destruct H as (n & r & L & T & R & _ & X). rewrite T. cbn. ev.
    assert (Y : added r = [] \/ exists x, added r = [x]).
    { destruct file as [f|t]; [|destruct X as (_ & -> & _); auto].
      destruct X as [(_ & _ & X)|(_ & _ & _ & X)]; repeat match goal with
        | X : _ \/ _ |- _ => destruct X as [X|X] | X : _ /\ _ |- _ => destruct X end; eauto. }
    destruct Y as [->|(x & ->)]; cbn; lia.
  - destruct H as [-> ->]. cbn. lia.
Qed.
Lemma stream_operand_throws f l1 t l2 o s' : Forall gives l1 -> (forall n, adds n = true) ->
  log_stream checks adds (Gives f) (l1 ++ Fails t :: l2) start = (o, s') ->
  added (trace s') = (if checks 0 && checks 1 then [(f, concat (map value_of l1) ++ t)] else []) /\ o = if checks 0 then Threw else Fine.
Proof.
  intros G A H. apply stream_runs in H. destruct (checks 0).
  - destruct H as (n & r & L & T & R & _ & X). rewrite T. cbn. ev.
    destruct X as [(_ & X & _)|(N & (u & F) & G1 & X)].
    { exfalso. rewrite Forall_forall in X. destruct (X (Fails t)); [apply in_or_app; right; left; reflexivity|discriminate]. }
    assert (E : n = S (length l1)).
    { destruct (Nat.lt_trichotomy (n - 1) (length l1)) as [Q|[Q|Q]]; [|lia|].
      - exfalso. rewrite nth_error_app1 in F by exact Q. rewrite Forall_forall in G. apply nth_error_In, G in F. destruct F. discriminate.
      - exfalso. rewrite Forall_forall in G1. destruct (G1 (Fails t)); [|discriminate]. rewrite firstn_app.
        apply in_or_app. right. destruct (n - 1 - length l1) eqn:Z; [lia|]. left. reflexivity. }
    subst n. assert (V : map value_of (firstn (S (length l1)) (l1 ++ Fails t :: l2)) = map value_of l1 ++ [t]).
    { replace (S (length l1)) with (length (l1 ++ [Fails t])) by (rewrite app_length; cbn; lia).
      replace (l1 ++ Fails t :: l2) with ((l1 ++ [Fails t]) ++ l2) by (rewrite <- app_assoc; reflexivity).
      rewrite firstn_app, firstn_all, Nat.sub_diag. cbn. rewrite app_nil_r, map_app. reflexivity. }
    rewrite V, concat_app in X. cbn in X. rewrite app_nil_r in X. rewrite !A in X.
    destruct X as [(-> & -> & ->)|[(-> & _ & -> & ->)|(_ & X & _)]]; try discriminate; auto.
  - destruct H as [-> ->]. auto.
Qed.
Lemma stream_survives file args o s' : log_stream checks adds file args start = (o, s') -> o = Terminated ->
  checks 0 = true /\ (checks 1 = true \/ checks 2 = true) /\ adds 0 = false /\ added (trace s') = [].
Proof.
  intros H ->. apply stream_runs in H. destruct (checks 0); [|destruct H; discriminate].
  destruct H as (n & r & L & T & R & _ & X). rewrite T. cbn. ev. destruct file as [f|t]; [|destruct X as (_ & _ & X); discriminate].
  destruct X as [(_ & _ & X)|(_ & _ & _ & X)]; repeat match goal with
        | X : _ \/ _ |- _ => destruct X as [X|X] | X : _ /\ _ |- _ => destruct X end; try discriminate; auto 10.
Qed.
Lemma logger_twice_write fmt ord file args o s' : log_write checks adds fmt ord file args start = (o, s') ->
  loggers (trace s') = if checks 0 then 2 else 1.
Proof.
  intros H. destruct (write_runs _ _ _ _ _ _ H) as (l1 & l2 & r & O & T & X). rewrite T.
  assert (R : loggers r = 0) by (destruct X as [->|(_ & [(-> & _)|(_ & [(-> & _)|(m & _ & _ & _ & ->)])])]; reflexivity).
  destruct (checks 0); [|reflexivity].
  change (loggers ([ELogger; ECheck true; ELogger] ++ map EEval l1 ++ r) = 2). ev. rewrite R. reflexivity.
Qed.
Lemma logger_twice_stream file args o s' : log_stream checks adds file args start = (o, s') ->
  loggers (trace s') = if checks 0 then 2 else 1.
Proof.
  intros H. apply stream_runs in H. destruct (checks 0).
  - destruct H as (n & r & L & T & R & Rl & X). rewrite T. ev. lia.
  - destruct H as [_ ->]. reflexivity.
Qed.
End Proofs.
