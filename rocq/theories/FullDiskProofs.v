From Coq Require Import List Bool Arith Ascii Lia.
From Verif Require Import Base LoggerModel LoggerSpec LogFileModel LogFileSpec CrashModel CrashSpec CrashProofs CrashSystem FullDiskModel FullDiskSpec.
Import ListNotations.

Section Prog.
Context {P K M : Type} (peqb : P -> P -> bool).
Hypothesis Peq : forall p q, peqb p q = true <-> p = q.
Variable full : Prop.
Notation item := (item (entry K M)).
Notation wst := (wst P).
Notation wprog := (wprog P).
Implicit Types (s : wst) (d : bdisk P).

(** ** Programs that are safe whatever the operating system does *)
Inductive env s : wst -> Prop :=
| env_here : env s s
| env_flush n s' : env (w_flush peqb n s) s' -> env s s'
| env_fail n s' : full -> env (w_fail peqb n s) s' -> env s s'.
Section Safe.
Variables (J : wst -> Prop) (Q : outcome -> nat -> wst -> Prop).
Fixpoint safe (p : wprog) s : Prop := forall s', env s s' -> J s' /\
  match p with
  | WEnd o n => Q o n s'
  | WOpen p ok fail => safe ok (w_opened peqb p s') /\ safe fail s' /\ safe fail (WSt (create peqb p (w_disk s')) (w_stream s'))
  | WRemove p ok fail => safe ok (w_removed peqb p s') /\ safe fail s'
  | WRename p q ok fail => (w_disk s' p <> None -> safe ok (w_renamed peqb p q s')) /\ safe fail s'
  | WExists p f fail => safe (f (match w_disk s' p with Some _ => true | None => false end)) s' /\ safe fail s'
  | WTell f => safe (f (w_tell s')) s'
  | WPut b k => safe k (w_put b s')
  | WClose k => safe k (w_closed peqb (fun w => w) s') /\ forall n, full -> safe k (w_closed peqb (firstn n) s')
  end.
Lemma safe_env p s s' : safe p s -> env s s' -> safe p s'.
Proof.
  intros H. revert s'.
  assert (X : forall s1 s2, env s1 s2 -> forall s3, env s2 s3 -> env s1 s3).
  { intros s1 s2 A. induction A; intros s3 B; [exact B|apply (env_flush _ n); auto|apply (env_fail _ n); auto]. }
  intros s' A. destruct p; intros s2 B; apply H, (X _ _ A _ B).
Qed.
Lemma safe_run p s s' p' : wrun peqb full s p s' p' -> safe p s -> safe p' s'.
Proof.
  intros R. induction R as [|s p s1 p1 s2 p2 S1 R IH]; [auto|]. intros H. apply IH. clear IH R.
  destruct S1; try (eapply H; [apply env_here|]; assumption); try (eapply H; apply env_here).
  - eapply safe_env; [exact H|]. apply (env_flush _ n). constructor.
  - eapply safe_env; [exact H|]. apply (env_fail _ n); [assumption|]. constructor.
Qed.
Lemma safe_now p s : safe p s -> J s /\ forall o n, p = WEnd o n -> Q o n s.
Proof. destruct p; intros H; destruct (H s (env_here s)) as [A B]; split; try discriminate; auto. intros o' n' [= <- <-]. exact B. Qed.
End Safe.
Lemma env_closed s s' : env s s' -> w_stream s = None -> s' = s.
Proof.
  intros A. induction A as [|s n s' A IH|s n s' F A IH]; [auto| |]; intros N.
  - unfold w_flush in IH. rewrite N in IH. auto.
  - unfold w_fail in IH. rewrite N in IH. auto.
Qed.

(** ** The stream *)
Section Stream.
Variable path : nat -> P.
Hypothesis Inj : forall i j, path i = path j -> i = j.
Variables (HT : bytes -> Prop) (LT : entry K M -> bytes -> Prop) (log : list item).
Hypothesis Ok : Forall (item_ok HT LT) log.
Notation part := (part log).
Notation stream_text := (stream_text HT LT).

Lemma part_nil n : part n n = [].
Proof. unfold FullDiskSpec.part. rewrite Nat.sub_diag. reflexivity. Qed.
Lemma part_snoc l n i : l <= n -> nth_error log n = Some i -> part l (S n) = part l n ++ [i_entry i].
Proof.
  intros Le E. unfold FullDiskSpec.part. replace (S n - l) with (S (n - l)) by lia.
  change [i_entry i] with (map (@i_entry _) [i]). rewrite <- map_app. f_equal.
  assert (E' : nth_error (skipn l log) (n - l) = Some i).
  { rewrite <- E. clear -Le. revert l n Le. induction log as [|x y IH]; intros l n Le; [destruct l, n; cbn; try reflexivity; destruct (n - l); reflexivity|].
    destruct l; [cbn [skipn]; rewrite Nat.sub_0_r; reflexivity|]. destruct n; [lia|]. cbn [skipn nth_error]. apply (IH l n). lia. }
  revert E'. generalize (n - l), (skipn l log). clear. intros n x. revert n. induction x as [|y x IH]; intros n E; [destruct n; discriminate|].
  destruct n; cbn in *; [injection E as ->; reflexivity|]. rewrite <- (IH _ E). reflexivity.
Qed.
Lemma stream_text_torn es t a : torn HT LT es t -> stream_text es (firstn a t).
Proof. intros H. exists t, a, 0, 0. cbn [firstn]. rewrite app_nil_r. auto using Nat.le_0_l. Qed.
Lemma firstn_all_app {A} (x y : list A) n : firstn (length x + n) (x ++ y) = x ++ firstn n y.
Proof. rewrite firstn_app, firstn_all2 by lia. f_equal. f_equal. lia. Qed.
Lemma append_at p x d : append peqb p x d p = match d p with Some c => Some (c ++ x) | None => None end.
Proof. unfold append. apply (bput_same _ Peq). Qed.
Lemma append_other p x d q : q <> p -> append peqb p x d q = d q.
Proof. intros N. unfold append. apply (bput_other _ Peq), N. Qed.

(** the stream was opened when the file was [c0], the other files are [dr], it has got the entries from [l] to [n] and the
    first bytes [cur] of the next one; entries up to [hm] may be in the file *)
Definition sinv dr c0 l n hm cur s : Prop :=
  exists w bad, w_stream s = Some (path 0, w, bad) /\ (forall q, q <> path 0 -> w_disk s q = dr q) /\ l <= n <= hm /\ hm <= length log /\
  ((bad = false /\ exists B t, blocks HT LT (part l n) B /\ torn HT LT (part l hm) (B ++ cur) /\ w_disk s (path 0) = Some (c0 ++ t) /\ t ++ w = B ++ cur) \/
   (bad = true /\ full /\ exists h T a b, l <= h <= hm /\ torn HT LT (part l h) T /\ b <= a /\ w_disk s (path 0) = Some (c0 ++ firstn a T) /\ w = skipn b T)).
Lemma sinv_flush dr c0 l n hm cur s k : sinv dr c0 l n hm cur s -> sinv dr c0 l n hm cur (w_flush peqb k s).
Proof.
  intros (w & bad & A1 & A2 & A3 & A4 & [(-> & B & t & A5 & A6 & A7 & A8)|X]).
  - unfold w_flush. rewrite A1. exists (skipn k w), false. cbn [w_stream w_disk]. split; [reflexivity|].
    split; [intros q N; rewrite append_other by exact N; auto|]. split; [exact A3|]. split; [exact A4|]. left. split; [reflexivity|].
    exists B, (t ++ firstn k w). split; [exact A5|]. split; [exact A6|]. split; [rewrite append_at, A7, app_assoc; reflexivity|].
    rewrite <- app_assoc, firstn_skipn. exact A8.
  - destruct X as (-> & X). unfold w_flush. rewrite A1. exists w, true. split; [exact A1|]. split; [exact A2|]. split; [exact A3|]. split; [exact A4|]. right. split; [reflexivity|exact X].
Qed.
Lemma sinv_fail dr c0 l n hm cur s k : full -> sinv dr c0 l n hm cur s -> sinv dr c0 l n hm cur (w_fail peqb k s).
Proof.
  intros F (w & bad & A1 & A2 & A3 & A4 & [(-> & B & t & A5 & A6 & A7 & A8)|X]).
  - unfold w_fail. rewrite A1. exists w, true. cbn [w_stream w_disk]. split; [reflexivity|].
    split; [intros q N; rewrite append_other by exact N; auto|]. split; [exact A3|]. split; [exact A4|]. right. split; [reflexivity|]. split; [exact F|].
    exists hm, (B ++ cur), (length t + k), (length t). split; [lia|]. split; [exact A6|]. split; [lia|]. rewrite <- A8. split.
    + rewrite append_at, A7, firstn_all_app, app_assoc. reflexivity.
    + rewrite skipn_app, skipn_all, Nat.sub_diag. reflexivity.
  - destruct X as (-> & X). unfold w_fail. rewrite A1. exists w, true. split; [exact A1|]. split; [exact A2|]. split; [exact A3|]. split; [exact A4|]. right. split; [reflexivity|exact X].
Qed.
Lemma sinv_env dr c0 l n hm cur s s' : env s s' -> sinv dr c0 l n hm cur s -> sinv dr c0 l n hm cur s'.
Proof. intros A. induction A; auto using sinv_flush, sinv_fail. Qed.
Lemma block_torn l n i cur rest B : l <= n -> nth_error log n = Some i -> blocks HT LT (part l n) B -> block_of HT LT (i_entry i) (cur ++ rest) ->
  torn HT LT (part l (S n)) (B ++ cur).
Proof.
  intros Le E Bl Ho. rewrite (part_snoc _ _ _ Le E). apply torn_app; [exact Bl|]. exists [], [], cur. split; [constructor|]. split; [reflexivity|].
  right. exists (i_entry i), (cur ++ rest). split; [reflexivity|]. split; [exact Ho|]. exists rest. reflexivity.
Qed.
Lemma sinv_put dr c0 l n i cur b rest s : nth_error log n = Some i -> block_of HT LT (i_entry i) (cur ++ b :: rest) ->
  sinv dr c0 l n (S n) cur s -> sinv dr c0 l n (S n) (cur ++ [b]) (w_put b s).
Proof.
  intros E Ho (w & bad & A1 & A2 & A3 & A4 & [(-> & B & t & A5 & A6 & A7 & A8)|X]).
  - unfold w_put. rewrite A1. exists (w ++ [b]), false. cbn [w_stream w_disk]. split; [reflexivity|]. split; [exact A2|]. split; [exact A3|]. split; [exact A4|].
    left. split; [reflexivity|]. exists B, t. split; [exact A5|]. split; [|split; [exact A7|]].
    + apply (block_torn l n i _ rest); auto; [lia|]. rewrite <- app_assoc. exact Ho.
    + rewrite !app_assoc, A8. reflexivity.
  - destruct X as (-> & X). unfold w_put. rewrite A1. exists w, true. split; [exact A1|]. split; [exact A2|]. split; [exact A3|]. split; [exact A4|]. right. split; [reflexivity|exact X].
Qed.
Lemma sinv_start dr c0 l n i rest s : nth_error log n = Some i -> block_of HT LT (i_entry i) rest ->
  sinv dr c0 l n n [] s -> sinv dr c0 l n (S n) [] s.
Proof.
  intros E Ho (w & bad & A1 & A2 & A3 & A4 & X). assert (n < length log) by (apply nth_error_Some; congruence).
  exists w, bad. split; [exact A1|]. split; [exact A2|]. split; [lia|]. split; [lia|].
  destruct X as [(-> & B & t & A5 & A6 & A7 & A8)|(-> & F & h & T & a & b & A5 & X)].
  - left. split; [reflexivity|]. exists B, t. split; [exact A5|]. split; [apply (block_torn l n i _ rest); auto; lia|auto].
  - right. split; [reflexivity|]. split; [exact F|]. exists h, T, a, b. split; [lia|exact X].
Qed.
Lemma sinv_whole dr c0 l n i b s : nth_error log n = Some i -> block_of HT LT (i_entry i) b ->
  sinv dr c0 l n (S n) b s -> sinv dr c0 l (S n) (S n) [] s.
Proof.
  intros E Ho (w & bad & A1 & A2 & A3 & A4 & X). exists w, bad. split; [exact A1|]. split; [exact A2|]. split; [lia|]. split; [lia|].
  destruct X as [(-> & B & t & A5 & A6 & A7 & A8)|(-> & F & h & T & a & x & A5 & X)].
  - left. split; [reflexivity|].
    assert (Y : blocks HT LT (part l (S n)) (B ++ b)).
    { rewrite (part_snoc l n i) by (lia || exact E). apply blocks_app; [exact A5|]. apply blocks_one, Ho. }
    exists (B ++ b), t. rewrite app_nil_r. split; [exact Y|]. split; [apply blocks_torn, Y|auto].
  - right. split; [reflexivity|]. split; [exact F|]. exists h, T, a, x. split; [lia|exact X].
Qed.
(** what is in the file when the process is killed or the stream is closed *)
Definition left_by dr c0 l hm d : Prop :=
  (forall q, q <> path 0 -> d q = dr q) /\ exists w h, d (path 0) = Some (c0 ++ w) /\ l <= h <= hm /\ stream_text (part l h) w.
Lemma sinv_killed dr c0 l n hm cur s : sinv dr c0 l n hm cur s -> left_by dr c0 l hm (w_disk s).
Proof.
  intros (w & bad & A1 & A2 & A3 & A4 & X). split; [exact A2|]. destruct X as [(-> & B & t & A5 & A6 & A7 & A8)|(-> & F & h & T & a & x & A5 & A6 & A7 & A8 & A9)].
  - exists t, hm. split; [exact A7|]. split; [lia|]. replace t with (firstn (length t) (B ++ cur)).
    + apply stream_text_torn, A6.
    + rewrite <- A8, <- (Nat.add_0_r (length t)), firstn_all_app. cbn [firstn]. apply app_nil_r.
  - exists (firstn a T), h. split; [exact A8|]. split; [lia|]. apply stream_text_torn, A6.
Qed.
Lemma sinv_closed dr c0 l n hm cur s m : sinv dr c0 l n hm cur s ->
  w_stream (w_closed peqb (firstn m) s) = None /\ left_by dr c0 l hm (w_disk (w_closed peqb (firstn m) s)).
Proof.
  intros (w & bad & A1 & A2 & A3 & A4 & X). unfold w_closed. rewrite A1. cbn [w_stream w_disk]. split; [reflexivity|].
  split; [intros q N; rewrite append_other by exact N; apply A2, N|]. rewrite append_at.
  destruct X as [(-> & B & t & A5 & A6 & A7 & A8)|(-> & F & h & T & a & x & A5 & A6 & A7 & A8 & ->)].
  - exists (t ++ firstn m w), hm. rewrite A7. split; [rewrite app_assoc; reflexivity|]. split; [lia|]. rewrite <- firstn_all_app, A8.
    apply stream_text_torn, A6.
  - exists (firstn a T ++ firstn m (skipn x T)), h. rewrite A8. split; [rewrite app_assoc; reflexivity|]. split; [lia|].
    exists T, a, x, m. auto.
Qed.
Lemma closed_all s : exists m, w_closed peqb (fun w => w) s = w_closed peqb (firstn m) s.
Proof.
  unfold w_closed. destruct (w_stream s) as [[[p w] bad]|]; [|exists 0; reflexivity]. exists (length w). rewrite firstn_all. reflexivity.
Qed.
(** nothing fails: everything is in the file *)
Lemma sinv_closed_all dr c0 l n s : ~ full -> sinv dr c0 l n n [] s ->
  exists w, w_disk (w_closed peqb (fun w => w) s) (path 0) = Some (c0 ++ w) /\ blocks HT LT (part l n) w.
Proof.
  intros F (w & bad & A1 & A2 & A3 & A4 & [(-> & B & t & A5 & A6 & A7 & A8)|(_ & X & _)]); [|contradiction].
  unfold w_closed. rewrite A1. cbn [w_disk]. rewrite append_at, A7. exists B. split; [|exact A5]. rewrite <- app_assoc, A8, app_nil_r. reflexivity.
Qed.
Lemma sinv_opened n s : w_stream s = None -> n <= length log ->
  sinv (w_disk s) (match w_disk s (path 0) with Some c => c | None => [] end) n n n [] (w_opened peqb (path 0) s).
Proof.
  intros N Le. destruct (create_spec peqb Peq (path 0) (w_disk s)) as [C1 C2]. exists [], false. split; [reflexivity|]. split; [exact C2|]. split; [lia|]. split; [exact Le|]. left. split; [reflexivity|].
  exists [], []. rewrite part_nil. split; [constructor|]. split; [apply torn_nil|]. split; [|reflexivity]. cbn [w_opened w_disk]. rewrite C1, app_nil_r. reflexivity.
Qed.
Lemma block_w_of i header size : item_ok HT LT i -> block_of HT LT (i_entry i) (block_w header (i_head i) (i_line i) size).
Proof.
  intros [A B]. exists (i_line i). split; [exact A|]. unfold block_w. destruct (header && _); [right|left; reflexivity].
  exists (i_head i). split; [exact B|]. rewrite <- app_assoc. reflexivity.
Qed.
Section Puts.
Variables (J : wst -> Prop) (Q : outcome -> nat -> wst -> Prop) (dr : bdisk P) (c0 : bytes) (l : nat).
Hypothesis HJ : forall n hm cur s, sinv dr c0 l n hm cur s -> J s.
Lemma safe_puts n i k rest : forall cur, nth_error log n = Some i -> block_of HT LT (i_entry i) (cur ++ rest) ->
  (forall s, sinv dr c0 l (S n) (S n) [] s -> safe J Q k s) ->
  forall s, sinv dr c0 l n (S n) cur s -> safe J Q (puts_w rest k) s.
Proof.
  induction rest as [|b rest IH]; intros cur E Ho Hk s A.
  - apply Hk. rewrite app_nil_r in Ho. apply (sinv_whole dr c0 l n i cur); auto.
  - intros s' Ev. apply (sinv_env _ _ _ _ _ _ _ _ Ev) in A. split; [apply (HJ _ _ _ _ A)|]. fold safe. apply (IH (cur ++ [b])); auto.
    + rewrite <- app_assoc. exact Ho.
    + apply (sinv_put dr c0 l n i cur b rest); auto.
Qed.
End Puts.

(** ** The files *)
Section Files.
Variable old : bytes -> Prop.
Notation content := (content HT LT old log).
Definition holds (N : nat) d : Prop :=
  exists lo hi : nat -> nat,
  (forall i c, d (path i) = Some c -> content (lo i) (hi i) c /\ hi i <= N) /\
  (forall i j, i < j -> d (path i) <> None -> d (path j) <> None -> hi j <= lo i).
Lemma holds_more N N' d : N <= N' -> holds N d -> holds N' d.
Proof. intros Le (lo & hi & A & B). exists lo, hi. split; [|exact B]. intros i c E. destruct (A i c E). split; [auto|lia]. Qed.
Lemma content_le lo hi c : content lo hi c -> lo <= hi.
Proof. intros A. induction A; lia. Qed.
Lemma holds_create N d : holds N d -> holds N (create peqb (path 0) d).
Proof.
  intros (lo & hi & A & B). destruct (create_spec peqb Peq (path 0) d) as [C1 C2]. destruct (d (path 0)) as [c|] eqn:E.
  - assert (X : forall p, create peqb (path 0) d p = d p) by (intros p; destruct (p_dec peqb Peq p (path 0)) as [->|Np]; [congruence|auto]).
    exists lo, hi. split; [intros i c'; rewrite X; apply A|intros i j; rewrite !X; apply B].
  - assert (X : forall i, create peqb (path 0) d (path (S i)) = d (path (S i))) by (intros i; apply C2; intros Y; apply Inj in Y; discriminate).
    exists (fun i => match i with 0 => N | _ => lo i end), (fun i => match i with 0 => N | _ => hi i end). split.
    + intros [|i] c; [rewrite C1; intros [= <-]; split; [constructor|lia]|rewrite X; apply A].
    + intros [|i] [|j] Lt; try lia; rewrite !X; [|apply B; exact Lt]. intros _ Nj. destruct (d (path (S j))) as [c|] eqn:Ej; [|congruence]. apply (A _ _ Ej).
Qed.
Lemma holds_removed N d i : holds N d -> holds N (put_at peqb (path i) None d).
Proof.
  intros (lo & hi & A & B). exists lo, hi.
  assert (X : forall j, put_at peqb (path i) None d (path j) <> None -> put_at peqb (path i) None d (path j) = d (path j)).
  { intros j. destruct (p_dec peqb Peq (path j) (path i)) as [->|N1]; [rewrite (bput_same _ Peq); congruence|rewrite (bput_other _ Peq) by exact N1; auto]. }
  split.
  - intros j c E. apply A. rewrite <- X; congruence.
  - intros j k Lt N1 N2. apply B; [exact Lt|rewrite <- X; auto|rewrite <- X; auto].
Qed.
Lemma holds_renamed N d i : d (path i) <> None -> holds N d -> holds N (put_at peqb (path (S i)) (d (path i)) (put_at peqb (path i) None d)).
Proof.
  intros Ni (lo & hi & A & B). set (d' := put_at peqb (path (S i)) (d (path i)) (put_at peqb (path i) None d)).
  assert (X1 : d' (path i) = None).
  { unfold d'. rewrite (bput_other _ Peq) by (intros Y; apply Inj in Y; lia). apply (bput_same _ Peq). }
  assert (X2 : d' (path (S i)) = d (path i)) by apply (bput_same _ Peq).
  assert (X3 : forall j, j <> i -> j <> S i -> d' (path j) = d (path j)).
  { intros j N1 N2. unfold d'. rewrite !(bput_other _ Peq); [reflexivity|intros Y; apply Inj in Y; lia|intros Y; apply Inj in Y; lia]. }
  exists (fun j => if j =? S i then lo i else lo j), (fun j => if j =? S i then hi i else hi j). split.
  - intros j c E. destruct (Nat.eqb_spec j (S i)) as [->|N1]; [apply A; rewrite <- X2; exact E|].
    apply A. destruct (Nat.eq_dec j i) as [->|N2]; [congruence|]. rewrite <- X3 by auto. exact E.
  - intros j k Lt N1 N2. destruct (Nat.eq_dec j i) as [->|Nj]; [congruence|]. destruct (Nat.eq_dec k i) as [->|Nk]; [congruence|].
    destruct (Nat.eqb_spec k (S i)) as [->|Nk']; destruct (Nat.eqb_spec j (S i)) as [->|Nj']; try lia.
    + rewrite X3 in N1 by auto. apply B; [lia|exact N1|exact Ni].
    + rewrite X3 in N2 by auto. apply B; [lia|exact Ni|exact N2].
    + rewrite X3 in N1 by auto. rewrite X3 in N2 by auto. apply B; auto.
Qed.
Lemma holds_left dr c0 l hm d : holds l dr -> dr (path 0) = Some c0 -> left_by dr c0 l hm d -> holds hm d.
Proof.
  intros (lo & hi & A & B) E (L1 & w & h & L2 & L3 & L4).
  assert (X : forall i, d (path (S i)) = dr (path (S i))) by (intros i; apply L1; intros Y; apply Inj in Y; discriminate).
  exists lo, (fun i => match i with 0 => h | _ => hi i end). split.
  - intros [|i] c; [|rewrite X; intros F; destruct (A _ _ F); split; [auto|lia]]. rewrite L2. intros [= <-]. destruct (A 0 c0 E) as [C1 C2].
    split; [|lia]. apply (ct_part HT LT old log (lo 0) (hi 0) l h); auto; lia.
  - intros i j Lt N1 N2. destruct j; [lia|]. rewrite X in N2. apply B; auto. destruct i; [congruence|rewrite <- X; exact N1].
Qed.

(** ** write_buffer_to_file *)
Variables (base fuel rsize : nat) (header : bool).
Definition J s : Prop := holds (length log) (w_disk s).
Definition Q (o : outcome) (n : nat) s : Prop := holds (base + n) (w_disk s) /\ base + n <= length log.
Definition shut N s : Prop := w_stream s = None /\ holds N (w_disk s) /\ N <= length log.
Lemma shut_J N s : shut N s -> J s.
Proof. intros (_ & A & B). apply (holds_more N); auto. Qed.
Lemma safe_shut N o n s : N = base + n -> shut N s -> safe J Q (WEnd o n) s.
Proof. intros -> A s' Ev. rewrite (env_closed _ _ Ev) by apply A. split; [apply (shut_J _ _ A)|]. split; apply A. Qed.
Lemma safe_shift n i k : (forall s, shut (base + n) s -> safe J Q k s) -> forall s, shut (base + n) s -> safe J Q (shift_w path i n k) s.
Proof.
  intros Hk. induction i as [|i IH]; intros s A; [apply Hk, A|]. intros s' Ev. rewrite (env_closed _ _ Ev) by apply A. split; [apply (shut_J _ _ A)|].
  fold safe. split; [|apply (safe_shut _ _ _ _ eq_refl A)]. intros Ni. apply IH. split; [apply A|]. split; [|apply A]. cbn [w_renamed w_disk].
  apply holds_renamed; [exact Ni|apply A].
Qed.
Lemma safe_scan n limit k : (forall num s, shut (base + n) s -> safe J Q (k num) s) ->
  forall f i num s, shut (base + n) s -> safe J Q (scan_w path limit f i num n k) s.
Proof.
  intros Hk. induction f as [|f IH]; intros i num s A; [apply (safe_shut _ _ _ _ eq_refl A)|]. intros s' Ev. rewrite (env_closed _ _ Ev) by apply A.
  split; [apply (shut_J _ _ A)|]. fold safe. fold (scan_w path limit). split; [|apply (safe_shut _ _ _ _ eq_refl A)].
  destruct (w_disk s (path i)); [|apply Hk, A]. destruct (i <? limit); [apply IH, A|].
  intros s2 Ev2. rewrite (env_closed _ _ Ev2) by apply A. split; [apply (shut_J _ _ A)|]. fold safe. split; [|apply (safe_shut _ _ _ _ eq_refl A)].
  apply IH. split; [apply A|]. split; [apply holds_removed, A|apply A].
Qed.
Definition opened N s : Prop := exists dr c0 l, sinv dr c0 l N N [] s /\ holds l dr /\ dr (path 0) = Some c0.
Lemma opened_J dr c0 l n hm cur s : holds l dr -> dr (path 0) = Some c0 -> sinv dr c0 l n hm cur s -> J s.
Proof.
  intros A B C. apply (holds_more hm); [destruct C as (w & bad & _ & _ & _ & C & _); exact C|]. apply (holds_left dr c0 l); auto. apply (sinv_killed _ _ _ _ _ _ _ C).
Qed.
Lemma shut_opened N s : shut N s -> opened N (w_opened peqb (path 0) s).
Proof.
  intros (A & B & C). destruct (create_spec peqb Peq (path 0) (w_disk s)) as [C1 C2].
  exists (create peqb (path 0) (w_disk s)), (match w_disk s (path 0) with Some c => c | None => [] end), N. split; [|split; [apply holds_create, B|exact C1]].
  destruct (sinv_opened N s A C) as (w & bad & S1 & S2 & S3). exists w, bad. split; [exact S1|]. split; [reflexivity|exact S3].
Qed.
Lemma opened_shut N s m : opened N s -> shut N (w_closed peqb (firstn m) s).
Proof.
  intros (dr & c0 & l & A & B & C). destruct (sinv_closed _ _ _ _ _ _ _ m A) as [D E]. split; [exact D|]. split; [apply (holds_left dr c0 l); auto|].
  destruct A as (w & bad & _ & _ & _ & A & _). exact A.
Qed.
Lemma opened_env N s s' : env s s' -> opened N s -> opened N s'.
Proof. intros Ev (dr & c0 & l & A & B). exists dr, c0, l. split; [apply (sinv_env _ _ _ _ _ _ _ _ Ev A)|exact B]. Qed.
Lemma safe_open n k : (forall s, opened (base + n) s -> safe J Q k s) -> forall s, shut (base + n) s -> safe J Q (WOpen (path 0) k (WEnd Threw n)) s.
Proof.
  intros Hk s A s' Ev. rewrite (env_closed _ _ Ev) by apply A. split; [apply (shut_J _ _ A)|]. fold safe. split; [apply Hk, shut_opened, A|].
  split; [apply (safe_shut _ _ _ _ eq_refl A)|]. apply (safe_shut (base + n)); [reflexivity|]. split; [apply A|]. split; [apply holds_create, A|apply A].
Qed.
Lemma safe_batch es : forall n, (exists tail, skipn (base + n) log = es ++ tail) -> forall s, opened (base + n) s -> safe J Q (batch_w path fuel rsize header es n) s.
Proof.
  induction es as [|i es IH]; intros n (tail & Et) s A.
  - intros s' Ev. apply (opened_env _ _ _ Ev) in A. split; [destruct A as (dr & c0 & l & A & B & C); apply (opened_J _ _ _ _ _ _ _ B C A)|]. fold safe.
    split; [destruct (closed_all s') as [m ->]|intros m _]; apply (safe_shut (base + n)); try reflexivity; apply opened_shut, A.
  - assert (Ei : nth_error log (base + n) = Some i).
    { clear -Et. revert Et. generalize (base + n) as x. clear. induction log as [|y l IH]; intros [|x] E; cbn in *; try discriminate; [injection E as ->; reflexivity|apply IH, E]. }
    assert (Et' : skipn (base + S n) log = es ++ tail).
    { replace (base + S n) with (S (base + n)) by lia. clear -Et. revert Et. generalize (base + n) as x. induction log as [|y l IH]; intros [|x] E; cbn [skipn] in *; try discriminate; [injection E as -> ->; reflexivity|].
      apply (IH x E). }
    assert (Hi : item_ok HT LT i) by (apply nth_error_In in Ei; rewrite Forall_forall in Ok; auto).
    assert (Pu : forall size t, opened (base + n) t -> safe J Q (puts_w (block_w header (i_head i) (i_line i) size) (batch_w path fuel rsize header es (S n))) t).
    { intros size t (dr & c0 & l & B & C & D). apply (safe_puts J Q dr c0 l (fun n hm cur s X => opened_J _ _ _ _ _ _ _ C D X) (base + n) i _ _ [] Ei).
      - apply block_w_of, Hi.
      - intros u X. apply (IH (S n)); [eauto|]. replace (base + S n) with (S (base + n)) by lia. exists dr, c0, l. auto.
      - apply (sinv_start dr c0 l _ i (block_w header (i_head i) (i_line i) size) _ Ei); auto. apply block_w_of, Hi. }
    intros s' Ev. apply (opened_env _ _ _ Ev) in A. split; [destruct A as (dr & c0 & l & A & B & C); apply (opened_J _ _ _ _ _ _ _ B C A)|].
    fold safe. fold (@batch_w P (entry K M) path fuel rsize header). destruct (past rsize (w_tell s')); [|apply Pu, A].
    intros s2 Ev2. apply (opened_env _ _ _ Ev2) in A. split; [destruct A as (dr & c0 & l & A & B & C); apply (opened_J _ _ _ _ _ _ _ B C A)|].
    assert (X : forall m, safe J Q (scan_w path (i_limit i) fuel 0 0 n (fun num => shift_w path num n
        (WOpen (path 0) (WTell (fun size => puts_w (block_w header (i_head i) (i_line i) size) (batch_w path fuel rsize header es (S n)))) (WEnd Threw n)))) (w_closed peqb (firstn m) s2)).
    { intros m. apply safe_scan; [|apply opened_shut, A]. intros num t B. apply safe_shift; [|exact B]. clear t B. intros t B. apply safe_open; [|exact B]. clear t B.
      intros t B t' Ev3. apply (opened_env _ _ _ Ev3) in B. split; [destruct B as (dr & c0 & l & B1 & B2 & B3); apply (opened_J _ _ _ _ _ _ _ B2 B3 B1)|]. fold safe. apply Pu, B. }
    fold safe. split; [destruct (closed_all s2) as [m ->]; apply X|intros m _; apply X].
Qed.
Lemma safe_write es tail s : skipn base log = es ++ tail -> shut base s -> safe J Q (write_w path fuel rsize header es) s.
Proof.
  intros E A. apply safe_open; rewrite Nat.add_0_r; [|exact A]. intros t B. apply safe_batch; rewrite Nat.add_0_r; eauto.
Qed.
End Files.

(** ** Without rotation *)
Section Off.
Variables (d0 : bdisk P) (fuel : nat) (header : bool).
Let c0 : bytes := match d0 (path 0) with Some c => c | None => [] end.
Definition Joff s : Prop := (forall q, q <> path 0 -> w_disk s q = d0 q) /\
  (w_disk s (path 0) = d0 (path 0) \/ exists w h, w_disk s (path 0) = Some (c0 ++ w) /\ h <= length log /\ stream_text (part 0 h) w).
Definition Qoff (o : outcome) (n : nat) s : Prop := (o = Threw /\ n = 0) \/
  (o = Done /\ n = length log /\ (~ full -> exists w, w_disk s (path 0) = Some (c0 ++ w) /\ blocks HT LT (part 0 n) w)).
Lemma left_off hm s : left_by d0 c0 0 hm (w_disk s) -> hm <= length log -> Joff s.
Proof. intros (A & w & h & B & C & D) Le. split; [exact A|]. right. exists w, h. split; [exact B|]. split; [lia|exact D]. Qed.
Lemma sinv_off n hm cur s : sinv d0 c0 0 n hm cur s -> Joff s.
Proof. intros A. apply (left_off hm); [apply (sinv_killed _ _ _ _ _ _ _ A)|]. destruct A as (w & bad & _ & _ & _ & A & _). exact A. Qed.
Lemma safe_off es : forall n, skipn n log = es -> n <= length log -> forall s, sinv d0 c0 0 n n [] s -> safe Joff Qoff (batch_w path fuel 0 header es n) s.
Proof.
  induction es as [|i es IH]; intros n E Ln s A.
  - assert (n = length log) as -> by (apply (f_equal (@length _)) in E; rewrite skipn_length in E; cbn in E; lia).
    intros s' Ev. apply (sinv_env _ _ _ _ _ _ _ _ Ev) in A. split; [apply (sinv_off _ _ _ _ A)|]. fold safe.
    assert (Z : forall m, let t := w_closed peqb (firstn m) s' in w_stream t = None /\ Joff t).
    { intros m t. destruct (sinv_closed _ _ _ _ _ _ _ m A) as [B C]. split; [exact B|]. apply (left_off (length log)); auto. }
    split.
    + intros t Ev2. destruct (closed_all s') as [m Em]. destruct (Z m) as [Z1 Z2]. cbv zeta in Z1, Z2. rewrite <- Em in Z1, Z2. rewrite (env_closed _ _ Ev2 Z1). split; [exact Z2|].
      right. split; [reflexivity|]. split; [reflexivity|]. intros F. apply (sinv_closed_all d0 c0 0 (length log)); auto.
    + intros m F t Ev2. destruct (Z m) as [Z1 Z2]. rewrite (env_closed _ _ Ev2 Z1). split; [exact Z2|]. right. split; [reflexivity|]. split; [reflexivity|]. intros X. contradiction.
  - assert (Ei : nth_error log n = Some i).
    { clear -E. revert n E. induction log as [|y l IH]; intros [|x] E; cbn in *; try discriminate; [injection E as ->; reflexivity|apply IH, E]. }
    assert (Et' : skipn (S n) log = es).
    { clear -E. revert n E. induction log as [|y l IH]; intros [|x] E; cbn [skipn] in *; try discriminate; [injection E as -> ->; reflexivity|]. apply (IH x E). }
    assert (Hi : item_ok HT LT i) by (pose proof (nth_error_In _ _ Ei) as Y; rewrite Forall_forall in Ok; auto).
    intros s' Ev. apply (sinv_env _ _ _ _ _ _ _ _ Ev) in A. split; [apply (sinv_off _ _ _ _ A)|]. fold safe. fold (@batch_w P (entry K M) path fuel 0 header).
    unfold past. cbn [Nat.eqb negb andb].
    apply (safe_puts Joff Qoff d0 c0 0 (fun n hm cur s X => sinv_off _ _ _ _ X) n i _ _ [] Ei).
    + apply block_w_of, Hi.
    + intros u X. apply IH; auto. apply nth_error_Some. congruence.
    + apply (sinv_start d0 c0 0 _ i (block_w header (i_head i) (i_line i) (w_tell s')) _ Ei); auto. apply block_w_of, Hi.
Qed.
Lemma safe_write_off : safe Joff Qoff (write_w path fuel 0 header log) (WSt d0 None).
Proof.
  intros s Ev. rewrite (env_closed _ _ Ev) by reflexivity. fold safe. split; [split; [reflexivity|left; reflexivity]|]. split; [|split].
  - apply safe_off; [reflexivity|lia|]. apply (sinv_opened 0 (WSt d0 None)); [reflexivity|lia].
  - intros t Ev2. rewrite (env_closed _ _ Ev2) by reflexivity. split; [split; [reflexivity|left; reflexivity]|left; auto].
  - intros t Ev2. rewrite (env_closed _ _ Ev2) by reflexivity. split; [|left; auto]. destruct (create_spec peqb Peq (path 0) d0) as [C1 C2]. split; [exact C2|]. right.
    exists [], 0. cbn [w_disk]. rewrite C1, app_nil_r. split; [reflexivity|]. split; [lia|]. rewrite part_nil. change (@nil ascii) with (firstn 0 (@nil ascii)). apply stream_text_torn, torn_nil.
Qed.
End Off.
End Stream.

(** ** Calls one after the other *)
Variable path : nat -> P.
Hypothesis Inj : forall i j, path i = path j -> i = j.
Variables (HT : bytes -> Prop) (LT : entry K M -> bytes -> Prop).
Lemma content_agree old (log log' : list item) lo hi c : content HT LT old log lo hi c -> firstn hi log = firstn hi log' -> content HT LT old log' lo hi c.
Proof.
  intros A. induction A as [c A|n|lo hi l h c w A IH L1 L2 T]; intros E; [constructor; exact A|constructor|].
  apply (ct_part HT LT old log' lo hi l h); auto.
  - apply IH. apply (f_equal (firstn hi)) in E. rewrite !firstn_firstn, Nat.min_l in E by lia. exact E.
  - unfold part in *. rewrite firstn_skipn_comm in *. replace (l + (h - l)) with h in * by lia. rewrite <- E. exact T.
Qed.
Lemma holds_agree old (log log' : list item) N d : holds path HT LT log old N d -> firstn N log = firstn N log' -> holds path HT LT log' old N d.
Proof.
  intros (lo & hi & A & B) E. exists lo, hi. split; [|exact B]. intros i c Ec. destruct (A i c Ec) as [X Y]. split; [|exact Y]. apply (content_agree _ log); [exact X|].
  apply (f_equal (firstn (hi i))) in E. rewrite !firstn_firstn, Nat.min_l in E by lia. exact E.
Qed.
Theorem calls_proof d0 log d : calls peqb path full (item_ok HT LT) d0 log d ->
  files_hold HT LT path (fun c => exists i, d0 (path i) = Some c) log d.
Proof.
  intros A. enough (X : Forall (item_ok HT LT) log /\ holds path HT LT log (fun c => exists i, d0 (path i) = Some c) (length log) d) by apply X.
  induction A as [|log d fuel rsize header es s o n A [IH1 IH2] F R|log d fuel rsize header es s p A [IH1 IH2] F R].
  - split; [constructor|]. exists (fun _ => 0), (fun _ => 0). split; [|lia]. intros i c E. split; [constructor; eauto|lia].
  - assert (Fa : Forall (item_ok HT LT) (log ++ es)) by (apply Forall_app; auto).
    assert (S : safe (J path HT LT (log ++ es) (fun c => exists i, d0 (path i) = Some c)) (Q path HT LT (log ++ es) (fun c => exists i, d0 (path i) = Some c) (length log)) (write_w path fuel rsize header es) (WSt d None)).
    { apply (safe_write path Inj HT LT _ Fa _ _ _ _ _ es []); [rewrite skipn_app, skipn_all, Nat.sub_diag, app_nil_r; reflexivity|].
      split; [reflexivity|]. split; [|rewrite app_length; lia]. apply (holds_agree _ log); [exact IH2|]. rewrite firstn_app, firstn_all, Nat.sub_diag. cbn. rewrite app_nil_r. reflexivity. }
    apply (safe_run _ _ _ _ _ _ R), safe_now in S. destruct S as [_ S]. destruct (S o n eq_refl) as [S1 S2]. rewrite app_length in S2.
    split; [apply Forall_app; split; [exact IH1|rewrite <- (firstn_skipn n es) in F; apply Forall_app in F; apply F]|].
    rewrite app_length, firstn_length, Nat.min_l by lia. apply (holds_agree _ (log ++ es)); [exact S1|]. rewrite !firstn_all_app, firstn_firstn, Nat.min_id. reflexivity.
  - assert (Fa : Forall (item_ok HT LT) (log ++ es)) by (apply Forall_app; auto). split; [exact Fa|].
    assert (S : safe (J path HT LT (log ++ es) (fun c => exists i, d0 (path i) = Some c)) (Q path HT LT (log ++ es) (fun c => exists i, d0 (path i) = Some c) (length log)) (write_w path fuel rsize header es) (WSt d None)).
    { apply (safe_write path Inj HT LT _ Fa _ _ _ _ _ es []); [rewrite skipn_app, skipn_all, Nat.sub_diag, app_nil_r; reflexivity|].
      split; [reflexivity|]. split; [|rewrite app_length; lia]. apply (holds_agree _ log); [exact IH2|]. rewrite firstn_app, firstn_all, Nat.sub_diag. cbn. rewrite app_nil_r. reflexivity. }
    apply (safe_run _ _ _ _ _ _ R), safe_now in S. apply S.
Qed.
Theorem off_proof d0 fuel header es s p : Forall (item_ok HT LT) es ->
  wrun peqb full (WSt d0 None) (write_w path fuel 0 header es) s p ->
  let c0 := match d0 (path 0) with Some c => c | None => [] end in
  (forall q, q <> path 0 -> w_disk s q = d0 q) /\
  (w_disk s (path 0) = d0 (path 0) \/ exists w h, w_disk s (path 0) = Some (c0 ++ w) /\ stream_text HT LT (map (@i_entry _) (firstn h es)) w) /\
  (forall o n, p = WEnd o n -> (o = Threw /\ n = 0) \/
    (o = Done /\ n = length es /\ (~ full -> exists w, w_disk s (path 0) = Some (c0 ++ w) /\ blocks HT LT (map (@i_entry _) es) w))).
Proof.
  intros F R c0. pose proof (safe_write_off path Inj HT LT es F d0 fuel header) as S. apply (safe_run _ _ _ _ _ _ R), safe_now in S. destruct S as [[S1 S2] S3].
  assert (X : forall h, part es 0 h = map (@i_entry _) (firstn h es)) by (intros h; unfold part; rewrite Nat.sub_0_r; reflexivity).
  split; [exact S1|]. split.
  - destruct S2 as [S2|(w & h & S2 & _ & S4)]; [left; exact S2|]. right. exists w, h. rewrite <- X. auto.
  - intros o n E. destruct (S3 o n E) as [Y|(Y1 & -> & Y3)]; [left; exact Y|]. right. split; [exact Y1|]. split; [reflexivity|]. intros NF. destruct (Y3 NF) as (w & Z1 & Z2).
    exists w. split; [exact Z1|]. rewrite X, firstn_all in Z2. exact Z2.
Qed.
End Prog.
