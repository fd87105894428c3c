(** A buffer of two entries that is read while a third one is added. *)
From Coq Require Import List Bool Arith Lia.
From Verif Require Import BufferModel BufferSpec BufferProofs.
Import ListNotations.

(** node 2 (entry 20) is the front, node 1 (entry 10) the back *)
Definition two : memory nat :=
  Memory (fun n => match n with 0 => 2 | 2 => 1 | _ => 0 end) (fun n => match n with 0 => 1 | 1 => 2 | _ => 0 end)
    (fun n => match n with 1 => Some 10 | 2 => Some 20 | _ => None end) 2 2.
Lemma two_holds : holds two [2; 1] [20; 10].
Proof.
  split; try reflexivity.
  - cbn. intros a b F. repeat (apply follows_cons in F; destruct F as [[<- <-]|F]; [reflexivity|]). destruct (follows_one _ _ _ F).
  - cbn. intros a b F. repeat (apply follows_cons in F; destruct F as [[<- <-]|F]; [reflexivity|]). destruct (follows_one _ _ _ F).
  - repeat constructor; cbn; lia.
  - cbn. intros n [<-|[<-|[]]]; lia.
Qed.
Ltac go X c := eapply exec_step in X; [|apply c].
Lemma interleaved : exists tr s, exec (unlocked two) tr s /\ caller s = Idle /\ rdr s = At (first s) /\ first s = 2 /\ entries s = [10; 20] /\ given s = [30] /\
  tr = [(Call, Read, Next 0); (Reader, Read, Prev 0); (Call, Write, Data 3); (Call, Write, Next 3); (Reader, Read, Data 1); (Call, Read, Prev 2); (Call, Write, Prev 3);
        (Reader, Read, Prev 1); (Call, Write, Next 0); (Call, Write, Prev 2); (Call, Read, Size); (Call, Write, Size); (Reader, Read, Data 2)].
Proof.
  pose proof (exec_nil (unlocked two)) as X. unfold unlocked in X at 2.
  go X @call_begin. eapply exec_step in X; [|apply read_prev; discriminate]. eapply exec_step in X; [|apply call_create with (e := 30)]. go X @call_next.
  eapply exec_step in X; [|apply read_entry; reflexivity]. go X @call_prev_read. go X @call_prev. eapply exec_step in X; [|apply read_prev; discriminate].
  go X @call_link. go X @call_hook. go X @call_size. eapply exec_step in X; [|apply read_entry; reflexivity].
  eexists. eexists. split; [exact X|]. repeat split.
Qed.
Lemma interleaved_erased : exists tr s m', exec (unlocked two) tr s /\ caller s = Idle /\ rdr s = At 1 /\ entries s = [10] /\ given s = [30] /\
  erase 2 1 (mem s) = Some m' /\ holds m' [3; 2] [30; 20].
Proof.
  pose proof (exec_nil (unlocked two)) as X. unfold unlocked in X at 2.
  go X @call_begin. eapply exec_step in X; [|apply read_prev; discriminate]. eapply exec_step in X; [|apply call_create with (e := 30)]. go X @call_next.
  eapply exec_step in X; [|apply read_entry; reflexivity]. go X @call_prev_read. go X @call_prev. go X @call_link. go X @call_hook. go X @call_size.
  eexists. eexists. eexists. split; [exact X|]. do 4 (split; [reflexivity|]). split; [reflexivity|].
  split; try reflexivity.
  - cbn [app]. intros a b F. repeat (apply follows_cons in F; destruct F as [[<- <-]|F]; [reflexivity|]). destruct (follows_one _ _ _ F).
  - cbn [app]. intros a b F. repeat (apply follows_cons in F; destruct F as [[<- <-]|F]; [reflexivity|]). destruct (follows_one _ _ _ F).
  - repeat constructor; cbn; lia.
  - intros n [<-|[<-|[]]]; vm_compute; lia.
Qed.
