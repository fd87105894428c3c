(** Proofs about version.hpp, standard.hpp and filesystem.hpp. *)
From Coq Require Import List Bool ZArith String Ascii Lia.
From Verif Require Import VersionModel VersionSpec.
Import ListNotations.
Open Scope Z_scope.

Lemma has_newer e s : no_user e -> s <> S98 -> has e s = newer e (before s).
Proof. intros U N. destruct s; [congruence|..]; cbn; unfold has_cxx_11, has_cxx_14, has_cxx_17, has_cxx_20, has_cxx_23, has_cxx_26, or_user; rewrite U; reflexivity. Qed.
Lemma newer_iff e v : newer e v = true <-> exists w, (cplusplus e = Some w \/ msvc_lang e = Some w) /\ v < w.
Proof.
  unfold newer. rewrite orb_true_iff. split.
  - intros [H|H]; [destruct (cplusplus e) as [w|]|destruct (msvc_lang e) as [w|]]; try discriminate; exists w; apply Z.ltb_lt in H; auto.
  - intros (w & [-> | ->] & L); apply Z.ltb_lt in L; auto.
Qed.
Lemma has_means_newer e s : no_user e -> s <> S98 ->
  (has e s = true <-> exists w, (cplusplus e = Some w \/ msvc_lang e = Some w) /\ before s < w).
Proof. intros U N. rewrite has_newer by assumption. apply newer_iff. Qed.
Lemma has_of_official e s t : no_user e -> speaks e s -> (has e t = true <-> at_least s t).
Proof.
  intros U (v & O & C). destruct t; [split; [intros _; unfold at_least; cbn; lia|reflexivity]|..];
    (rewrite has_means_newer; [|assumption|discriminate]); unfold at_least, before, rank, official in *;
    (split;
     [ intros (w & W & L); destruct C as [[C [M|M]]|[C M]]; rewrite C, M in W; destruct W as [W|W]; try discriminate; injection W as <-; destruct s; lia
     | intros L; exists v; split; [destruct C as [[C _]|[C M]]; auto | destruct s; lia] ]).
Qed.
Lemma newer_mono e v w : v <= w -> newer e w = true -> newer e v = true.
Proof. intros L H. apply newer_iff in H. destruct H as (x & X & Y). apply newer_iff. exists x. split; [exact X|lia]. Qed.
Lemma has_down e s t : no_user e -> at_least s t -> has e s = true -> has e t = true.
Proof.
  intros U A H. destruct t; [reflexivity|..]; (destruct s; [unfold at_least in A; cbn in A; lia|..]); unfold at_least in A; cbn [rank] in A; try lia;
    rewrite has_newer in * by (assumption || discriminate); eapply newer_mono; try eassumption; cbn; lia.
Qed.
Lemma features e : no_user e ->
  has_format e = has e S20 && available e "format" /\ has_source_location e = has e S20 && available e "source_location" /\
  has_32_bit_wchar e = negb (win32 e) /\ filesystem_is_experimental e = negb (has e S17).
Proof. intros U. unfold has_format, has_source_location, has_32_bit_wchar, filesystem_is_experimental, or_user. rewrite !U. auto. Qed.
Lemma texts e s : no_user e -> speaks e s ->
  (at_least s S20 -> nodiscard_constexpr e = ["[[nodiscard]]"; "constexpr"]%string) /\
  (at_least s S17 -> ~ at_least s S20 -> nodiscard_constexpr e = ["[[nodiscard]]"; "inline"]%string) /\
  (~ at_least s S17 -> nodiscard_constexpr e = ["inline"]%string) /\
  (at_least s S17 <-> filesystem_namespace e = "std::filesystem"%string) /\
  (~ at_least s S17 <-> filesystem_namespace e = "std::experimental::filesystem"%string).
Proof.
  intros U S. pose proof (has_of_official e s S17 U S) as A. pose proof (has_of_official e s S20 U S) as B. destruct (features e U) as (_ & _ & _ & F).
  assert (D : at_least s S20 -> at_least s S17) by (unfold at_least; cbn; lia).
  unfold nodiscard_constexpr, nodiscard, constexpr, filesystem_namespace. rewrite F. cbn [has] in *.
  destruct (has_cxx_17 e), (has_cxx_20 e); cbn; intuition (try discriminate; try congruence).
Qed.

(** the headers *)
Definition belongsb (s : standard) (h : string) : bool :=
  existsb (fun '(x, f, l) => String.eqb x h && (rank f <=? rank s)%nat && match l with Some l => negb (rank l <=? rank s)%nat | None => true end) headers.
Lemma belongsb_belongs s h : belongsb s h = true -> belongs s h.
Proof.
  unfold belongsb. rewrite existsb_exists. intros ([[x f] l] & I & H). apply andb_prop in H. destruct H as [H L]. apply andb_prop in H. destruct H as [E R].
  apply String.eqb_eq in E. subst x. exists f, l. split; [exact I|]. split; [apply Nat.leb_le, R|]. intros k -> K. apply Nat.leb_le in K. rewrite K in L. discriminate.
Qed.
Definition names (s : standard) : list string :=
  (always ++ (if (1 <=? rank s)%nat then from_11 else []) ++ (if (2 <=? rank s)%nat then from_14 else []) ++
   (if (3 <=? rank s)%nat then [] else before_17) ++ (if (4 <=? rank s)%nat then [] else before_20))%list.
Definition late_names (s : standard) : list string :=
  ((if (3 <=? rank s)%nat then from_17 else []) ++ (if (4 <=? rank s)%nat then from_20 else []) ++ (if (5 <=? rank s)%nat then from_23 else []) ++
   (if (6 <=? rank s)%nat then from_26 else []))%list.
Lemma has_leb e s t : no_user e -> speaks e s -> has e t = (rank t <=? rank s)%nat.
Proof.
  intros U S. pose proof (has_of_official e s t U S) as H. unfold at_least in H. destruct (rank t <=? rank s)%nat eqn:E.
  - apply H. apply Nat.leb_le, E.
  - apply Nat.leb_gt in E. destruct (has e t); [|reflexivity]. exfalso. assert (rank t <= rank s)%nat by (apply H; reflexivity). lia.
Qed.
Lemma names_eq e s : no_user e -> speaks e s -> unchecked e = names s /\ checked e = late_names s.
Proof.
  intros U S. unfold unchecked, checked, names, late_names.
  pose proof (has_leb e s S11 U S) as H1. pose proof (has_leb e s S14 U S) as H2. pose proof (has_leb e s S17 U S) as H3. pose proof (has_leb e s S20 U S) as H4.
  pose proof (has_leb e s S23 U S) as H5. pose proof (has_leb e s S26 U S) as H6. cbn [has rank] in *. rewrite H1, H2, H3, H4, H5, H6. auto.
Qed.
Definition mem (h : string) (l : list string) : bool := existsb (String.eqb h) l.
Lemma mem_In h l : mem h l = true <-> In h l.
Proof. unfold mem. rewrite existsb_exists. split; [intros (x & I & E); apply String.eqb_eq in E; subst x; exact I|]. intros I. exists h. split; [exact I|apply String.eqb_refl]. Qed.
Lemma names_belong s : s <> S98 -> forall h, In h (names s ++ late_names s) <-> belongs s h.
Proof.
  intros N h. split.
  - intros I. apply belongsb_belongs. revert h I. apply forallb_forall. destruct s; [congruence|..]; vm_compute; reflexivity.
  - intros (f & l & I & A & L).
    assert (F : forallb (fun '(x, f, l) => negb ((rank f <=? rank s)%nat && match l with Some l => negb (rank l <=? rank s)%nat | None => true end) ||
      mem x (names s ++ late_names s)) headers = true) by (destruct s; [congruence|..]; vm_compute; reflexivity).
    rewrite forallb_forall in F. specialize (F _ I). cbn beta iota in F. apply orb_prop in F. destruct F as [F|F]; [|apply mem_In, F].
    apply negb_true_iff in F. unfold at_least in *. apply Nat.leb_le in A. rewrite A in F. cbn [andb] in F.
    destruct l as [l|]; [|discriminate]. apply negb_false_iff, Nat.leb_le in F. destruct (L l eq_refl F).
Qed.
Lemma included_exact e s : no_user e -> speaks e s -> s <> S98 -> builds e = true -> forall h, In h (included e) <-> belongs s h /\ available e h = true.
Proof.
  intros U S N B h. destruct (names_eq e s U S) as [E1 E2]. rewrite <- (names_belong s N h). unfold included, builds in *. rewrite E1, E2 in *.
  rewrite !in_app_iff, filter_In. rewrite forallb_forall in B. specialize (B h). tauto.
Qed.
Lemma complete_builds e s : no_user e -> speaks e s -> s <> S98 -> complete_up_to_14 e s -> builds e = true.
Proof.
  intros U S N C. unfold builds. destruct (names_eq e s U S) as [-> _]. apply forallb_forall. intros h I.
  assert (B : belongs s h) by (apply names_belong; [exact N|]; apply in_or_app; auto).
  assert (F : forallb (fun x => existsb (fun '(y, f, _) => String.eqb x y && negb (3 <=? rank f)%nat) headers) (names s) = true)
    by (destruct s; [congruence|..]; vm_compute; reflexivity).
  rewrite forallb_forall in F. specialize (F h I). apply existsb_exists in F. destruct F as ([[y f] l] & J & F). apply andb_prop in F. destruct F as [F R].
  apply String.eqb_eq in F. subst y. apply (C h f l J B). unfold at_least. apply negb_true_iff, Nat.leb_gt in R. cbn [rank]. lia.
Qed.
(** C++ 98: five headers that only C++ 11 has *)
Lemma builds_98 e : no_user e -> speaks e S98 -> builds e = true -> forall h, In h before_17 -> available e h = true /\ ~ belongs S98 h.
Proof.
  intros U S B h I. destruct (names_eq e S98 U S) as [E _]. unfold builds in B. rewrite E in B. rewrite forallb_forall in B. split.
  - apply B. unfold names. rewrite !in_app_iff. cbn [rank Nat.leb]. tauto.
  - intros (f & l & J & A & _).
    assert (F : forallb (fun '(x, f, _) => negb (mem x before_17 && (rank f <=? 0)%nat)) headers = true) by (vm_compute; reflexivity).
    rewrite forallb_forall in F. specialize (F _ J). cbn beta iota in F. apply mem_In in I. rewrite I in F. unfold at_least in A. apply Nat.leb_le in A. cbn [rank] in A.
    rewrite A in F. discriminate.
Qed.

(** * Definitions of the user *)
Lemma user_kept_proof e b :
  (user e Cxx11 = Some b -> has e S11 = b) /\ (user e Cxx14 = Some b -> has e S14 = b) /\ (user e Cxx17 = Some b -> has e S17 = b) /\
  (user e Cxx20 = Some b -> has e S20 = b) /\ (user e Cxx23 = Some b -> has e S23 = b) /\ (user e Cxx26 = Some b -> has e S26 = b) /\
  (user e Format = Some b -> has_format e = b) /\ (user e SourceLocation = Some b -> has_source_location e = b) /\
  (user e Wchar32 = Some b -> has_32_bit_wchar e = b) /\ (user e Experimental = Some b -> filesystem_is_experimental e = b).
Proof. repeat split; intros U; cbn; unfold has_cxx_11, has_cxx_14, has_cxx_17, has_cxx_20, has_cxx_23, has_cxx_26, has_format, has_source_location, has_32_bit_wchar, filesystem_is_experimental, or_user; rewrite U; reflexivity. Qed.
