(** Proofs about the bytes of the log files. *)
From Coq Require Import Ascii String List Bool Arith ZArith Lia.
From Verif Require Import Base LoggerModel LoggerSpec LogTextModel LogTextSpec LogTextProofs LogFileModel LogFileSpec LogFileProofs LogFileProps
  LogTestModel LogTestSpec LogTestProofs LogEndModel LogEndSpec.
Import ListNotations.
Open Scope list_scope.

Section End.
Context {P K M : Type} (peqb : P -> P -> bool) (path : K -> nat -> P) (ltb : K -> K -> bool).
Hypothesis Peqb : forall p q, peqb p q = true <-> p = q.
Variable hide : bool.
Variable view : entry K M -> log_line.
Variables L R : nat -> Prop.
Notation entry := (entry K M).
Notation disk := (@disk P entry).
Notation head := (head hide).
Notation line := (line hide view).
Notation text_step := (text_step peqb path hide view L R).
Notation text_system := (text_system peqb path hide view L R ltb).

Lemma text_step_disk d ev d' : text_step d ev d' -> disk_step peqb path L R (eq true) d ev d'.
Proof. intros []; econstructor; eauto. Qed.
Lemma text_system_disk s0 d0 tr s d : text_system s0 d0 tr s d -> system peqb path L R (eq true) ltb s0 d0 tr s d.
Proof. induction 1; econstructor; eauto using text_step_disk. Qed.

(** * every file is empty or a header and lines *)
Definition lines_chunk (es : list entry) : list (chunk entry) := map (fun e => Line e (line e)) es.
Definition shape (c : list (chunk entry)) : Prop := c = [] \/ exists e es, c = Head head :: lines_chunk (e :: es).
Definition shaped (d : disk) : Prop := forall p c, d p = Some c -> shape c.
Lemma set_shaped p c d : shaped d -> match c with Some c => shape c | None => True end -> shaped (set_file peqb p c d).
Proof. intros S C q x. unfold set_file. destruct (peqb q p); [intros ->; exact C|apply S]. Qed.
Lemma open_shaped p d : shaped d -> shaped (open_file peqb p d).
Proof. intros S. unfold open_file. destruct (d p); [exact S|]. apply set_shaped; [exact S|left; reflexivity]. Qed.
Lemma shape_snoc c e : shape c -> shape (c ++ (if size c =? 0 then [Head head] else []) ++ [Line e (line e)]).
Proof.
  intros [->|(e0 & es & ->)]; [right; exists e, []; reflexivity|]. right. exists e0, (es ++ [e]). cbn [size fold_right chunk_size Nat.eqb app].
  unfold lines_chunk. rewrite !map_cons, map_app. reflexivity.
Qed.
Lemma emit_shaped pth e d : shaped d -> shaped (emit peqb pth true head (line e) e d).
Proof.
  intros S. unfold emit. destruct (d (pth 0)) as [c|] eqn:D.
  - assert (X : emit peqb pth true head (line e) e d = set_file peqb (pth 0) (Some (c ++ (if size c =? 0 then [Head head] else []) ++ [Line e (line e)]))
        (if size c =? 0 then append peqb (pth 0) [Head head] d else d)).
    { unfold emit, size_at. rewrite D. cbn [andb]. unfold append at 1. destruct (size c =? 0).
      - unfold append. rewrite D. unfold set_file at 2. rewrite (proj2 (Peqb _ _) eq_refl), <- app_assoc. reflexivity.
      - rewrite D. reflexivity. }
    unfold emit in X. rewrite X. destruct (size c =? 0) eqn:Z.
    + intros q x. unfold set_file. destruct (peqb q (pth 0)) eqn:Q.
      * intros E. injection E as <-. pose proof (shape_snoc c e (S _ _ D)) as Y. rewrite Z in Y. exact Y.
      * unfold append, set_file. rewrite Q. apply S.
    + apply set_shaped; [exact S|]. pose proof (shape_snoc c e (S _ _ D)) as Y. rewrite Z in Y. exact Y.
  - unfold size_at. rewrite D. cbn [Nat.eqb andb]. unfold append. rewrite D.
    destruct (set_file peqb (pth 0) None d (pth 0)) eqn:Y; [unfold set_file in Y; rewrite (proj2 (Peqb _ _) eq_refl) in Y; discriminate|].
    apply set_shaped; [apply set_shaped|]; auto.
Qed.
Lemma scan_shaped pth ok limit fuel : forall i num c d o num' c' d', scan peqb pth ok limit fuel i num c d = (o, num', c', d') -> shaped d -> shaped d'.
Proof.
  induction fuel as [|fuel IH]; intros i num c d o num' c' d' H S; cbn [scan] in H; [injection H as <- <- <- <-; exact S|].
  destruct (ok c); [|injection H as <- <- <- <-; exact S]. destruct (d (pth i)); [|injection H as <- <- <- <-; exact S].
  destruct (i <? limit); [exact (IH _ _ _ _ _ _ _ _ H S)|]. destruct (ok (Datatypes.S c)); [|injection H as <- <- <- <-; exact S].
  refine (IH _ _ _ _ _ _ _ _ H _). apply set_shaped; [exact S|exact I].
Qed.
Lemma shift_shaped pth ok : forall n c d o c' d', shift peqb pth ok n c d = (o, c', d') -> shaped d -> shaped d'.
Proof.
  induction n as [|n IH]; intros c d o c' d' H S; cbn in H; [injection H as <- <- <-; exact S|].
  destruct (d (pth n)) as [x|] eqn:D; [|injection H as <- <- <-; exact S]. destruct (ok c); [|injection H as <- <- <-; exact S].
  refine (IH _ _ _ _ _ H _). unfold rename_file. apply set_shaped; [apply set_shaped; [exact S|exact I]|]. rewrite D. exact (S _ _ D).
Qed.
Lemma entry_shaped pth ok fuel limit rsize e d o d' : write_entry peqb pth ok fuel limit rsize true head (line e) e d = (o, d') -> shaped d -> shaped d'.
Proof.
  unfold write_entry. intros H S. destruct (_ && _); [|injection H as <- <-; apply emit_shaped, S].
  unfold rotate in H. destruct (scan peqb pth ok limit fuel 0 0 0 d) as [[[o1 num] c1] d1] eqn:Sc. apply scan_shaped in Sc; [|exact S].
  destruct o1; [|injection H as <- <-; exact Sc|injection H as <- <-; exact Sc].
  destruct (shift peqb pth ok num c1 d1) as [[o2 c2] d2] eqn:Sh. apply shift_shaped in Sh; [|exact Sc].
  destruct o2; [|injection H as <- <-; exact Sh|injection H as <- <-; exact Sh].
  destruct (ok c2); injection H as <- <-; [apply emit_shaped, open_shaped, Sh|exact Sh].
Qed.
Lemma step_shaped d ev d' : text_step d ev d' -> shaped d -> shaped d'.
Proof.
  intros [k|k e ok fuel limit rsize x _ _ H|k b|k e ok fuel limit rsize x b _ _ H|ev' _] S.
  - apply open_shaped, S.
  - exact (entry_shaped _ _ _ _ _ _ _ _ _ H S).
  - destruct b; [apply open_shaped, S|exact S].
  - apply entry_shaped in H; [|exact S]. destruct b; [apply open_shaped, H|exact H].
  - exact S.
Qed.
Lemma system_shaped s0 d0 tr s d : text_system s0 d0 tr s d -> shaped d0 -> shaped d.
Proof. induction 1 as [|tr s d e s' d' X IH St T]; intros S; [exact S|]. exact (step_shaped _ _ _ T (IH S)). Qed.

(** * the bytes *)
Lemma list_app s t : list_ascii_of_string (s ++ t) = list_ascii_of_string s ++ list_ascii_of_string t.
Proof. induction s as [|c s IH]; cbn; [reflexivity|]. f_equal. exact IH. Qed.
Lemma head_bytes : list_ascii_of_string head ++ [LogTextModel.newline] = head_text hide.
Proof. unfold LogEndModel.head, put_by. rewrite list_ascii_of_string_of_list_ascii. destruct hide; vm_compute; reflexivity. Qed.
Lemma line_bytes e : list_ascii_of_string (line e) ++ [LogTextModel.newline] = row hide (view e).
Proof. unfold LogEndModel.line, put_by. rewrite list_ascii_of_string_of_list_ascii, row_proof. reflexivity. Qed.
Lemma newline_bytes : list_ascii_of_string LogFileSpec.newline = [LogTextModel.newline].
Proof. reflexivity. Qed.
Lemma lines_bytes es : list_ascii_of_string (text_of (lines_chunk es)) = flat_map (row hide) (map view es).
Proof.
  induction es as [|e es IH]; [reflexivity|]. unfold lines_chunk. cbn [map text_of fold_right flat_map]. fold (lines_chunk es). fold (text_of (lines_chunk es)).
  rewrite !list_app, newline_bytes, IH, app_assoc, line_bytes. reflexivity.
Qed.
Lemma file_written l : written_file hide l (file_text hide l).
Proof.
  exists (Stream [] 0 " " false). split; [reflexivity|]. unfold file_text, head_text. generalize (write_line (default_header_writer hide) (Stream [] 0 " " false)).
  induction l as [|e l IH]; intros s; cbn [fold_left flat_map]; [apply app_nil_r|]. rewrite <- IH, write_row, <- app_assoc. reflexivity.
Qed.
Lemma shape_bytes c : shape c -> bytes_for hide view (lines_of c) c.
Proof.
  intros [->|(e & es & ->)]; [left; split; reflexivity|]. right.
  assert (X : forall l, lines_of (lines_chunk l) = l) by (induction l as [|x l IH]; [reflexivity|]; cbn; f_equal; exact IH).
  assert (Y : lines_of (Head head :: lines_chunk (e :: es)) = e :: es) by (exact (X (e :: es))).
  rewrite Y. split; [discriminate|]. cbn [text_of fold_right]. fold (text_of (lines_chunk (e :: es))). rewrite !list_app, newline_bytes, lines_bytes, app_assoc, head_bytes.
  apply file_written.
Qed.
Lemma files_bytes fs : Forall shape fs -> files_for hide view fs (map lines_of fs).
Proof. induction 1 as [|c fs S F IH]; constructor; [apply shape_bytes, S|exact IH]. Qed.
Lemma all_shaped pth d fs : shaped d -> all_files pth d fs -> Forall shape fs.
Proof.
  intros S (b & _ & ->). induction b as [|b IH]; cbn; [constructor|]. destruct (d (pth b)) as [c|] eqn:D; [|exact IH]. constructor; [exact (S _ _ D)|exact IH].
Qed.
Lemma lines_concat (fs : list (list (chunk entry))) : all_lines fs = concat (map lines_of fs).
Proof. unfold all_lines. apply flat_map_concat_map. Qed.

Lemma any_time_proof s0 d0 tr s d k fs : (forall p, d0 p = None) -> text_system s0 d0 tr s d -> all_files (path k) d fs -> files_for hide view fs (map lines_of fs).
Proof.
  intros N X A. apply files_bytes. refine (all_shaped _ d fs (system_shaped _ _ _ _ _ X _) A). intros p c E. rewrite N in E. discriminate.
Qed.
Lemma end_proof : strict_total_order ltb -> separate path ->
  forall limit lvl max flush clock d0 tr1 s1 d1 s2 tr2 s d k, (forall n, L n -> n = limit) -> (forall p, d0 p = None) ->
  text_system (initial lvl max flush clock) d0 tr1 s1 d1 -> step ltb s1 EDestroy s2 -> text_system s2 d1 tr2 s d -> dtor s = DDone -> ~ In (EFail k) tr2 ->
  exists fs ess, all_files (path k) d fs /\ files_for hide view fs ess /\
    suffix_of (concat ess) (accepted_for ltb k (tr1 ++ EDestroy :: tr2)) /\
    ((forall n, R n -> n = 0) -> concat ess = accepted_for ltb k (tr1 ++ EDestroy :: tr2)).
Proof.
  intros O Sp limit lvl max flush clock d0 tr1 s1 d1 s2 tr2 s d k Lim N T1 Sd T2 D NF.
  assert (S1 : shaped d1) by (refine (system_shaped _ _ _ _ _ T1 _); intros p c E; rewrite N in E; discriminate).
  destruct (logger_files_contain_everything P K M peqb path ltb Peqb O Sp L R (eq true) limit lvl max flush clock d0 tr1 s1 d1 s2 tr2 s d k []
    Lim (text_system_disk _ _ _ _ _ T1) Sd (text_system_disk _ _ _ _ _ T2) D NF) as (fs & A & Su & Ex).
  - exists 0. split; [intros i _; apply N|reflexivity].
  - intros i _. apply N.
  - exists fs, (map lines_of fs). split; [exact A|]. split; [apply files_bytes, (all_shaped (path k) d); [exact (system_shaped _ _ _ _ _ T2 S1)|exact A]|].
    rewrite <- lines_concat. split; [exact Su|exact Ex].
Qed.

(** * without rotation there is one file *)
Definition one_file (d : disk) : Prop := forall k i, d (path k (S i)) = None.
Lemma step_one d ev d' : separate path -> (forall n, R n -> n = 0) -> text_step d ev d' -> one_file d -> one_file d'.
Proof.
  intros Sp R0 T O. assert (Op : forall k d, one_file d -> one_file (open_file peqb (path k 0) d)).
  { intros k x Ox k' i. unfold open_file. destruct (x (path k 0)); [apply Ox|]. unfold set_file. destruct (peqb (path k' (S i)) (path k 0)) eqn:E; [|apply Ox].
    apply Peqb in E. apply Sp in E as (_ & E). discriminate. }
  assert (Em : forall k e x, one_file x -> one_file (emit peqb (path k) true head (line e) e x)).
  { intros k e x Ox k' i. unfold emit, append, set_file. destruct (peqb (path k' (S i)) (path k 0)) eqn:E; [apply Peqb in E; apply Sp in E as (_ & E); discriminate|].
    destruct (true && _); [rewrite E|]; apply Ox. }
  assert (We : forall k e ok fuel limit rsize o x, R rsize -> write_entry peqb (path k) ok fuel limit rsize true head (line e) e d = (o, x) -> one_file x).
  { intros k e ok fuel limit rsize o x Rr H. apply R0 in Rr as ->. unfold write_entry in H. cbn in H. injection H as _ <-. apply Em, O. }
  destruct T as [k|k e ok fuel limit rsize x _ Rr H|k b|k e ok fuel limit rsize x b _ Rr H|ev' _].
  - apply Op, O.
  - exact (We _ _ _ _ _ _ _ _ Rr H).
  - destruct b; [apply Op|]; exact O.
  - destruct b; [apply Op|]; exact (We _ _ _ _ _ _ _ _ Rr H).
  - exact O.
Qed.
Lemma system_one s0 d0 tr s d : separate path -> (forall n, R n -> n = 0) -> text_system s0 d0 tr s d -> one_file d0 -> one_file d.
Proof. intros Sp R0. induction 1 as [|tr s d e s' d' X IH St T]; intros S; [exact S|]. exact (step_one _ _ _ Sp R0 T (IH S)). Qed.
Lemma one_end_proof : strict_total_order ltb -> separate path ->
  forall limit lvl max flush clock d0 tr1 s1 d1 s2 tr2 s d k, (forall n, L n -> n = limit) -> (forall n, R n -> n = 0) -> (forall p, d0 p = None) ->
  text_system (initial lvl max flush clock) d0 tr1 s1 d1 -> step ltb s1 EDestroy s2 -> text_system s2 d1 tr2 s d -> dtor s = DDone -> ~ In (EFail k) tr2 ->
  (forall i, d (path k (S i)) = None) /\
  (accepted_for ltb k (tr1 ++ EDestroy :: tr2) <> [] -> exists c, d (path k 0) = Some c /\
    written_file hide (map view (accepted_for ltb k (tr1 ++ EDestroy :: tr2))) (list_ascii_of_string (text_of c))).
Proof.
  intros O Sp limit lvl max flush clock d0 tr1 s1 d1 s2 tr2 s d k Lim Rz N T1 Sd T2 D NF.
  assert (One : one_file d) by (apply (system_one _ _ _ _ _ Sp Rz T2), (system_one _ _ _ _ _ Sp Rz T1); intros k' i; apply N).
  split; [exact (One k)|]. intros Ne.
  destruct (end_proof O Sp limit lvl max flush clock d0 tr1 s1 d1 s2 tr2 s d k Lim N T1 Sd T2 D NF) as (fs & ess & A & F & _ & Ex). specialize (Ex Rz).
  assert (E : fs = match d (path k 0) with Some c => [c] | None => [] end).
  { rewrite (all_below (path k) 1 d fs); [cbn; rewrite app_nil_r; reflexivity| |exact A]. intros [|i] Li; [lia|apply One]. }
  rewrite <- Ex in Ne |- *. clear Ex. rewrite E in F. destruct (d (path k 0)) as [c|].
  - exists c. split; [reflexivity|]. inversion F as [|? es ? ? B F']; subst. inversion F'; subst. cbn [concat] in Ne |- *. rewrite app_nil_r in Ne |- *.
    destruct B as [(-> & _)|(_ & B)]; [congruence|exact B].
  - inversion F; subst. elim Ne. reflexivity.
Qed.

(** * executions with files that can always be written and are not rotated, or cannot be opened *)
Lemma play s0 d0 tr s : exec ltb s0 tr s -> L 0 -> R 0 -> exists d, text_system s0 d0 tr s d.
Proof.
  induction 1 as [|tr s e s' X IH St]; intros L0 R0; [exists d0; constructor|]. destruct (IH L0 R0) as (d & T).
  assert (Y : exists d', text_step d e d').
  { destruct e; try (eexists; apply t_other; exact I).
    - eexists; apply t_open.
    - eexists. eapply (t_write peqb path hide view L R d _ _ (fun _ => true) 0 0 0); [exact L0|exact R0|reflexivity].
    - eexists. apply (t_fail peqb path hide view L R d _ false). }
  destruct Y as (d' & Y). exists d'. econstructor; eauto.
Qed.
End End.
