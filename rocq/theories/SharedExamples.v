(** Concrete executions for SharedProps.v. *)
From Coq Require Import List Bool Arith Ascii Lia.
From Verif Require Import Base LogFileModel CrashModel OutsideModel OutsideSpec OutsideProofs OutsideExamples SharedModel SharedSpec.
Import ListNotations.
Local Open Scope char_scope.

Definition empty_shared : shared := Shared empty_fs (fun _ => Ready).
Lemma empty_shared_init : qinit empty_shared /\ all_named empty_shared.
Proof. split; [split; [exact empty_fs_init|split; [reflexivity|intros k k' o E; discriminate]]|intros o L; cbn in L; lia]. Qed.

Section Runs.
Variables (RS RL : nat -> Prop).
Notation step := (qstep RS RL never head_text line_text).
Notation one := (one_at_a_time RS RL never head_text line_text).
Notation run := (qrun RS RL never head_text line_text).
Lemma qgo s0 tr s e s' tr' s'' : run s0 tr s -> step s e s' -> s' = s'' -> tr ++ [e] = tr' -> run s0 tr' s''.
Proof. intros R S <- <-. econstructor; eauto. Qed.
Lemma ogo s0 tr s e s' tr' s'' : one s0 tr s -> step s e s' -> alone s e -> s' = s'' -> tr ++ [e] = tr' -> one s0 tr' s''.
Proof. intros R S A <- <-. econstructor; eauto. Qed.
End Runs.
Ltac lined := (left; reflexivity) || (right; reflexivity).
Ltac qs R c := eapply qgo in R; [|c|compute_it|compute_it].
Ltac qopen i := eapply (q_open _ _ _ _ _ _ i); reflexivity.
Ltac qflush i l := eapply (q_flush _ _ _ _ _ _ i _ l []); [reflexivity|reflexivity|discriminate].
Ltac qput i t := eapply (q_put _ _ _ _ _ _ i _ 3 false ["h"] t); [reflexivity|reflexivity|reflexivity|right; cbn; lia|reflexivity|reflexivity|lined].
Ltac qfresh i t := eapply (q_put_fresh _ _ _ _ _ _ i _ false ["h"] t); [reflexivity|reflexivity|reflexivity|reflexivity|lined].
Ltac qrotate i lim := eapply (q_rotate _ _ _ _ _ _ i _ 3 lim); [reflexivity|reflexivity|reflexivity|reflexivity|discriminate|cbn; lia|reflexivity].
Ltac qabsent i := eapply (q_absent _ _ _ _ _ _ i); reflexivity.
Ltac qkept i := eapply (q_kept _ _ _ _ _ _ i); [reflexivity|reflexivity|lia].
Ltac qold i := eapply (q_old _ _ _ _ _ _ i); [reflexivity|reflexivity|lia].
Ltac qremove i := eapply (q_remove _ _ _ _ _ _ i); reflexivity.
Ltac qrename i := eapply (q_rename _ _ _ _ _ _ i); reflexivity.
Ltac qreopen i := eapply (q_reopen _ _ _ _ _ _ i); reflexivity.

(** two processes find the file full; the second renames the new file of the first onto the old file *)
Definition lost_trace : list qevent :=
  [QOpen 0; QPut 0 (aa 0 0); QFlush 0 (aa 0 0) []; QOpen 1; QRotate 0 5; QRotate 1 5; QExists 0 0 true; QExists 0 1 false; QExists 1 0 true; QExists 1 1 false;
   QRename 0 0 None; QOpen 0; QPut 0 (bb 0 3); QFlush 0 (bb 0 3) []; QRename 1 0 (Some 0); QOpen 1; QPut 1 (aa 1 0); QFlush 1 (aa 1 0) []].
Lemma lost_run : exists s, qrun (eq 3) (eq 5) never head_text line_text empty_shared lost_trace s /\
  data (files s) 0 = aa 0 0 /\ data (files s) 1 = bb 0 3 /\ data (files s) 2 = aa 1 0 /\
  dir (files s) 0 = Some 2 /\ dir (files s) 1 = Some 1 /\ (forall k, 2 <= k -> dir (files s) k = None) /\ pending 0 (files s) = [] /\
  (forall o, 3 <= o -> data (files s) o = []).
Proof.
  pose proof (qrun_nil (eq 3) (eq 5) never head_text line_text empty_shared) as R.
  qs R ltac:(qopen 0). qs R ltac:(qput 0 ["a"; "a"]). qs R ltac:(qflush 0 (aa 0 0)). qs R ltac:(qopen 1).
  qs R ltac:(qrotate 0 5). qs R ltac:(qrotate 1 5). qs R ltac:(qkept 0). qs R ltac:(qabsent 0). qs R ltac:(qkept 1). qs R ltac:(qabsent 1).
  qs R ltac:(qrename 0). qs R ltac:(qreopen 0). qs R ltac:(qfresh 0 ["b"; "b"]). qs R ltac:(qflush 0 (bb 0 3)).
  qs R ltac:(qrename 1). qs R ltac:(qreopen 1). qs R ltac:(qfresh 1 ["a"; "a"]). qs R ltac:(qflush 1 (aa 1 0)).
  eexists. split; [exact R|]. repeat split; intros [|[|[|k]]] L; try lia; reflexivity.
Qed.
Lemma lost_shown : exists s, qinit empty_shared /\ all_named empty_shared /\ qrun (eq 3) (eq 5) never head_text line_text empty_shared lost_trace s /\
  In (Byte 0 0 "a") (wrote 0 lost_trace) /\ pending 0 (files s) = [] /\ (forall o, In (Byte 0 0 "a") (data (files s) o) -> ~ linked (files s) o) /\
  (forall i k lim o, ~ In (QRemove i k lim o) lost_trace) /\ (forall k, 2 <= k -> dir (files s) k = None).
Proof.
  destruct empty_shared_init as (A & B). destruct lost_run as (s & R & D0 & D1 & D2 & P0 & P1 & P2 & E & D3). exists s.
  split; [exact A|]. split; [exact B|]. split; [exact R|]. split; [left; reflexivity|]. split; [exact E|]. split; [|split].
  - intros o X (p & L). destruct o as [|[|[|o]]].
    + destruct p as [|[|p]]; [congruence|congruence|rewrite P2 in L by lia; discriminate].
    + rewrite D1 in X. cbn in X. repeat (destruct X as [X|X]; [discriminate X|]). exact X.
    + rewrite D2 in X. cbn in X. repeat (destruct X as [X|X]; [discriminate X|]). exact X.
    + rewrite D3 in X by lia. exact X.
  - intros i k lim o X. cbn in X. repeat (destruct X as [X|X]; [discriminate X|]). exact X.
  - exact P2.
Qed.

(** one rotation at a time, with one old file kept: the second rotation removes the oldest file; the other process writes to the file it has open *)
Definition fine_trace : list qevent :=
  [QOpen 0; QPut 0 (aa 0 0); QFlush 0 (aa 0 0) []; QRotate 0 1; QExists 0 0 true; QExists 0 1 false; QRename 0 0 None; QOpen 0; QOpen 1; QPut 1 (aa 1 0);
   QPut 0 (bb 0 3); QFlush 0 (bb 0 3) []; QRotate 0 1; QExists 0 0 true; QExists 0 1 true; QRemove 0 1 1 (Some 0); QExists 0 2 false; QRename 0 0 None; QOpen 0;
   QPut 0 (aa 0 6); QFlush 1 (aa 1 0) []].
Ltac os R c a := eapply ogo in R; [|c|a|compute_it|compute_it].
Ltac triv := exact I.
Ltac nobody := intros j; unfold rotating; cbn; destruct j as [|[|j]]; intros [].
Lemma fine_run : exists s, one_at_a_time (eq 3) (eq 1) never head_text line_text empty_shared fine_trace s /\
  data (files s) 1 = bb 0 3 ++ aa 1 0 /\ dir (files s) 0 = Some 2 /\ dir (files s) 1 = Some 1 /\ pending 0 (files s) = aa 0 6.
Proof.
  pose proof (oaat_nil (eq 3) (eq 1) never head_text line_text empty_shared) as R.
  os R ltac:(qopen 0) triv. os R ltac:(qput 0 ["a"; "a"]) triv. os R ltac:(qflush 0 (aa 0 0)) triv.
  os R ltac:(qrotate 0 1) ltac:(nobody). os R ltac:(qkept 0) triv. os R ltac:(qabsent 0) triv. os R ltac:(qrename 0) triv. os R ltac:(qreopen 0) triv.
  os R ltac:(qopen 1) triv. os R ltac:(qput 1 ["a"; "a"]) triv. os R ltac:(qfresh 0 ["b"; "b"]) triv. os R ltac:(qflush 0 (bb 0 3)) triv.
  os R ltac:(qrotate 0 1) ltac:(nobody). os R ltac:(qkept 0) triv. os R ltac:(qold 0) triv. os R ltac:(qremove 0) triv. os R ltac:(qabsent 0) triv.
  os R ltac:(qrename 0) triv. os R ltac:(qreopen 0) triv. os R ltac:(qfresh 0 ["a"; "a"]) triv. os R ltac:(qflush 1 (aa 1 0)) triv.
  eexists. split; [exact R|]. repeat split.
Qed.

(** a rotation that fails after the renaming, the next batch, and a file closed at the end of a batch *)
Definition failed_trace : list qevent :=
  [QOpen 0; QPut 0 (aa 0 0); QFlush 0 (aa 0 0) []; QClose 0; QOpen 0; QRotate 0 1; QExists 0 0 true; QExists 0 1 false; QRename 0 0 None; QFail 0; QOpen 0;
   QPut 0 (bb 0 3); QFlush 0 (bb 0 3) []; QClose 0].
Ltac qclose i := eapply (q_close _ _ _ _ _ _ i); reflexivity.
Ltac qfail i := eapply (q_fail _ _ _ _ _ _ i); reflexivity.
Lemma failed_run : exists s, one_at_a_time (eq 3) (eq 1) never head_text line_text empty_shared failed_trace s /\
  data (files s) 0 = aa 0 0 /\ data (files s) 1 = bb 0 3 /\ dir (files s) 0 = Some 1 /\ dir (files s) 1 = Some 0 /\ pending 0 (files s) = [].
Proof.
  pose proof (oaat_nil (eq 3) (eq 1) never head_text line_text empty_shared) as R.
  os R ltac:(qopen 0) triv. os R ltac:(qput 0 ["a"; "a"]) triv. os R ltac:(qflush 0 (aa 0 0)) triv. os R ltac:(qclose 0) triv. os R ltac:(qopen 0) triv.
  os R ltac:(qrotate 0 1) ltac:(nobody). os R ltac:(qkept 0) triv. os R ltac:(qabsent 0) triv. os R ltac:(qrename 0) triv. os R ltac:(qfail 0) triv.
  os R ltac:(qopen 0) triv. os R ltac:(qput 0 ["b"; "b"]) triv. os R ltac:(qflush 0 (bb 0 3)) triv. os R ltac:(qclose 0) triv.
  eexists. split; [exact R|]. repeat split.
Qed.
