(** A logger with the default writers: an execution. *)
From Coq Require Import Ascii String List Bool Arith ZArith Lia.
From Verif Require Import Base LoggerModel LoggerSpec LoggerProofs LoggerExamples LogTextModel LogFileModel LogFileSpec LogTestModel LogTestSpec LogTestExamples LogEndModel LogEndSpec LogEndProofs.
Import ListNotations.
Open Scope list_scope.

Definition pair_eqb (p q : nat * nat) : bool := (fst p =? fst q) && (snd p =? snd q).
Lemma pair_eqb_eq p q : pair_eqb p q = true <-> p = q.
Proof. destruct p, q. unfold pair_eqb. cbn. rewrite andb_true_iff, !Nat.eqb_eq. split; [intros (-> & ->); reflexivity|intros E; injection E; auto]. Qed.
Definition numbered_path (k i : nat) : nat * nat := (k, i).
Lemma numbered_separate : separate numbered_path.
Proof. intros k i k' i' E. injection E. auto. Qed.
(** the message of an entry is a number *)
Definition nat_view (e : entry nat nat) : log_line :=
  LogLine (noon 0) (e_time e) (Z.of_nat (e_thread e)) (e_level e) (chars "main.cpp") 7 (chars "main") (to_string (e_msg e)).
Notation nat_system := (text_system pair_eqb numbered_path false nat_view (eq 0) (eq 0) Nat.ltb).
Lemma ended : exists tr1 s1 d1 s2 tr2 s d, nat_system (initial 0 0 2 100) (fun _ => None) tr1 s1 d1 /\ step Nat.ltb s1 EDestroy s2 /\
  nat_system s2 d1 tr2 s d /\ dtor s = DDone /\ ~ In (EFail 7) tr2 /\ map e_msg (accepted_for Nat.ltb 7 (tr1 ++ EDestroy :: tr2)) = [1; 2].
Proof.
  destruct whole_life as (tr1 & s1 & s2 & tr2 & s & X1 & Sd & X2 & D & NF & _ & A & W & _ & _ & _ & _).
  destruct (play pair_eqb numbered_path Nat.ltb false nat_view (eq 0) (eq 0) _ (fun _ => None) _ _ X1 eq_refl eq_refl) as (d1 & T1).
  destruct (play pair_eqb numbered_path Nat.ltb false nat_view (eq 0) (eq 0) _ d1 _ _ X2 eq_refl eq_refl) as (d & T2).
  exists tr1, s1, d1, s2, tr2, s, d. repeat (split; [first [exact T1|exact Sd|exact T2|exact D|exact (NF 7)]|]).
  assert (E : accepted_for Nat.ltb 7 tr2 = []).
  { assert (forall tr (s s0 : @logger nat nat), exec Nat.ltb s0 tr s -> dtor s0 <> DNone -> calls s0 = [] -> accepted_for Nat.ltb 7 tr = [] /\ dtor s <> DNone /\ calls s = []) as H.
    { clear. induction 1 as [|tr s e s' X IH St]; intros N C; [auto|]. destruct (IH N C) as (I1 & I2 & I3). unfold accepted_for in *. rewrite flat_map_app, I1. cbn.
      destruct St as [St|[St|[St|St]]]; inversion St; subst; cbn; try congruence; try (split; [reflexivity|split; [congruence|assumption]]);
      try (match goal with Hc : calls _ = _ |- _ => rewrite I3 in Hc; destruct l1; discriminate end).
      destruct (next_file _ _ _) as [[? ?]|]; [|split; [reflexivity|split; [congruence|assumption]]]; destruct (length _ =? 0); split; auto; split; congruence || assumption. }
    destruct (H _ _ _ X2) as (H1 & _); [| |exact H1].
    - destruct Sd as [Sd|[Sd|[Sd|Sd]]]; inversion Sd; cbn; try congruence; repeat match goal with H : (if ?b then _ else _) = EDestroy |- _ => destruct b; discriminate H | H : match ?b with _ => _ end = EDestroy |- _ => destruct b; discriminate H end.
    - destruct Sd as [Sd|[Sd|[Sd|Sd]]]; inversion Sd; cbn; try congruence; repeat match goal with H : (if ?b then _ else _) = EDestroy |- _ => destruct b; discriminate H | H : match ?b with _ => _ end = EDestroy |- _ => destruct b; discriminate H end. }
  unfold accepted_for in *. rewrite flat_map_app. cbn [flat_map accepted_in app]. rewrite E, app_nil_r. exact A.
Qed.
