(** Concrete compilers. *)
From Coq Require Import List Bool ZArith String Ascii Lia.
From Verif Require Import VersionModel VersionSpec VersionProofs.
Import ListNotations.
Open Scope Z_scope.

Definition compiler (c m : option Z) (a : string -> bool) : env := {| cplusplus := c; msvc_lang := m; win32 := false; available := a; user := fun _ => None |}.
Definition gcc (v : Z) : env := compiler (Some v) None (fun _ => true).
Definition msvc (v : Z) : env := compiler (Some 199711) (Some v) (fun _ => true).
Lemma gcc_17 : no_user (gcc 201703) /\ speaks (gcc 201703) S17 /\ at_least S17 S14 /\ ~ at_least S17 S20 /\ has (gcc 201703) S14 = true /\ has (gcc 201703) S20 = false /\
  has (gcc 201703) S17 = true.
Proof. unfold at_least; cbn. repeat split; try lia. exists 201703. cbn. auto. Qed.
Lemma msvc_20 : no_user (msvc 202002) /\ speaks (msvc 202002) S20 /\ has (msvc 202002) S20 = true /\ has (msvc 202002) S23 = false.
Proof. repeat split. exists 202002. cbn. auto. Qed.
(** -std=c++1y of old compilers *)
Lemma draft : no_user (gcc 201300) /\ has (gcc 201300) S14 = true /\ 201300 < 201402.
Proof. repeat split. Qed.
Lemma refuted_draft : exists e s v, no_user e /\ cplusplus e = Some v /\ (exists w, official s w /\ v < w) /\ has e s = true.
Proof. exists (gcc 201300), S14, 201300. repeat split. exists 201402. split; [reflexivity|lia]. Qed.
Definition user_20 : env :=
  {| cplusplus := Some 201402; msvc_lang := None; win32 := false; available := fun _ => true; user := fun m => match m with Cxx20 => Some true | _ => None end |}.
Lemma refuted_user : exists e, has e S20 = true /\ has e S17 = false.
Proof. exists user_20. split; reflexivity. Qed.
Definition lacks (h : string) (v : Z) : env := compiler (Some v) None (fun x => negb (String.eqb x h)).
Lemma no_format : no_user (lacks "format" 202002) /\ speaks (lacks "format" 202002) S20 /\ builds (lacks "format" 202002) = true /\
  belongs S20 "format" /\ In "span"%string (included (lacks "format" 202002)) /\ ~ In "format"%string (included (lacks "format" 202002)) /\
  has_format (lacks "format" 202002) = false /\ has_format (gcc 202002) = true.
Proof.
  split; [intros m; reflexivity|]. split; [exists 202002; cbn; auto|]. split; [vm_compute; reflexivity|]. split; [apply belongsb_belongs; vm_compute; reflexivity|].
  split; [apply mem_In; vm_compute; reflexivity|]. split; [|split; vm_compute; reflexivity]. intros I. apply mem_In in I. revert I. vm_compute. discriminate.
Qed.
Lemma complete_17 : complete_up_to_14 (gcc 201703) S17 /\ belongs S17 "ciso646" /\ ~ belongs S20 "ciso646" /\ ~ belongs S17 "codecvt".
Proof.
  split; [intros h f l _ _ _; reflexivity|]. split; [apply belongsb_belongs; vm_compute; reflexivity|].
  split; intros B; apply names_belong in B; try discriminate; apply mem_In in B; revert B; vm_compute; discriminate.
Qed.
(** a compiler of C++ 98 with exactly the headers of C++ 98 *)
Definition only_98 : env := compiler (Some 199711) None (belongsb S98).
Lemma fails_98 : exists e, no_user e /\ speaks e S98 /\ complete_up_to_14 e S98 /\ builds e = false.
Proof.
  exists only_98. split; [intros m; reflexivity|]. split; [exists 199711; cbn; auto|]. split; [|vm_compute; reflexivity].
  intros h f l _ (f2 & l2 & I & A & L) _. cbn [available only_98 compiler]. unfold belongsb. apply existsb_exists. exists (h, f2, l2). split; [exact I|].
  rewrite String.eqb_refl. unfold at_least in *. apply Nat.leb_le in A. rewrite A. cbn [andb]. destruct l2 as [k|]; [|reflexivity].
  apply negb_true_iff, Nat.leb_gt. specialize (L k eq_refl). lia.
Qed.
Lemma all_98 : no_user (gcc 199711) /\ speaks (gcc 199711) S98 /\ builds (gcc 199711) = true /\ belongs S11 "ccomplex".
Proof. split; [intros m; reflexivity|]. split; [exists 199711; cbn; auto|]. split; [vm_compute; reflexivity|apply belongsb_belongs; vm_compute; reflexivity]. Qed.
