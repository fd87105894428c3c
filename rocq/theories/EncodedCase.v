(** Changes of case and comparisons without case on encoded text. *)
From Coq Require Import ZArith List Bool Lia Arith.
From Verif Require Import Base UnicodeModel UnicodeSpec UnicodeTextSpec UnicodeMain EncodedSpec StringModel SeqModel SeqSpec SeqProofs EncodedProofs EncodedOrder EncodedUse EncodedExamples.
Import ListNotations.
Open Scope Z_scope.

Lemma ascii_case p s f : (forall v, f v <> v -> ascii v /\ ascii (f v)) -> case_map p s f.
Proof. intros H v N. destruct (H v N). split; apply ascii_whole; assumption. Qed.
Theorem classic_case p s : case_map p s classic_upper /\ case_map p s classic_lower.
Proof.
  split; apply ascii_case; intros v; unfold ascii, classic_upper, classic_lower.
  - destruct (Z.leb_spec 97 v), (Z.leb_spec v 122); cbn [andb]; lia.
  - destruct (Z.leb_spec 65 v), (Z.leb_spec v 90); cbn [andb]; lia.
Qed.

Section Case.
Variables (p : platform) (s : str_type) (f : Z -> Z).
Notation M := (means p s).
Hypothesis F : case_map p s f.

Theorem upper_text a cs : M a cs -> M (upper f a) (upper f cs).
Proof.
  revert a. unfold upper. induction cs as [|c cs IH]; intros a Ha; [rewrite (proj1 (M_nil_iff _ _ _ _ Ha) eq_refl); apply M_nil|].
  destruct (M_cons _ _ _ _ _ Ha) as (x & y & -> & Hx & Hy). rewrite map_app. cbn [map]. apply (M_app p s _ _ [f c] (map f cs)); [|auto].
  destruct (M_one p s c x Hx) as (W & V). destruct (Z.eq_dec (f c) c) as [E|N].
  - rewrite E. replace (map f x) with x; [exact Hx|]. symmetry. rewrite <- map_id. apply map_ext_in. intros v Hv.
    destruct (Z.eq_dec (f v) v) as [Ev|Nv]; [exact Ev|]. rewrite (V v Hv (proj1 (F v Nv))). exact E.
  - rewrite (W (proj1 (F c N))). cbn [map]. exact (proj2 (F c N)).
Qed.
Lemma upper_place a cs i j : M a cs -> same_place p s (upper f a) (upper f cs) i j -> same_place p s a cs i j.
Proof.
  intros Ha (x' & y' & c1' & c2' & Ea & Ec & Hx & _ & Lx & Lc). unfold upper in *.
  apply map_eq_app in Ec. destruct Ec as (c1 & c2 & -> & <- & <-). destruct (M_split _ _ _ _ _ Ha) as (x & y & -> & H1 & H2).
  exists x, y, c1, c2. repeat (split; [first [reflexivity|assumption]|]). rewrite map_length in Lc. split; [|exact Lc].
  rewrite <- Lx, (M_inj p s _ _ _ Hx (upper_text _ _ H1)). unfold upper. rewrite map_length. reflexivity.
Qed.
Theorem iequals_text a b cs ds : M a cs -> M b ds -> iequals f a b = iequals f cs ds.
Proof.
  intros Ha Hb. rewrite !iequals_up. apply upper_text in Ha, Hb. apply eq_true_iff_eq.
  assert (E : forall l r, equals Z.eqb l r = true <-> l = r).
  { intros l r. rewrite equals_ok. split.
    - induction 1 as [|x y l r H _ IH]; [reflexivity|]. apply Z.eqb_eq in H. congruence.
    - intros <-. induction l; constructor; [apply Z.eqb_refl|assumption]. }
  rewrite !E. split; intros Q; [rewrite Q in Ha; exact (M_fun p s _ _ _ Ha Hb)|rewrite Q in Ha; exact (M_inj p s _ _ _ Ha Hb)].
Qed.
Theorem ifind_text a cs t ds : M a cs -> M t ds -> ds <> [] ->
  same_place p s a cs (ifind f a t) (ifind f cs ds) /\ same_place p s a cs (irfind f a t) (irfind f cs ds).
Proof.
  intros Ha Ht N. assert (N' : upper f ds <> []) by (destruct ds; [congruence|discriminate]).
  rewrite !ifind_up, !irfind_up. split; (apply upper_place; [exact Ha|]); [apply find_text|apply rfind_text]; auto using upper_text.
Qed.
Theorem icontains_text a cs t ds : M a cs -> M t ds -> icontains f a t = icontains f cs ds /\
  (forall cxx20, istarts_with f cxx20 a t = istarts_with f cxx20 cs ds) /\ (forall cxx20, iends_with f cxx20 a t = iends_with f cxx20 cs ds).
Proof.
  intros Ha Ht. apply upper_text in Ha, Ht. rewrite !icontains_up. split; [apply (contains_text p s); assumption|]. split; intros cxx20.
  - rewrite !istarts_with_up. unfold starts_with_on. rewrite !(proj2 (starts_with_prefix Z.eqb Z.eqb_eq _ _)), (starts_with_text p s _ _ _ _ Ha Ht). reflexivity.
  - rewrite !iends_with_up. unfold ends_with_on. rewrite !(proj2 (ends_with_suffix Z.eqb Z.eqb_eq _ _)), (ends_with_text p s _ _ _ _ Ha Ht). reflexivity.
Qed.
End Case.

Theorem is_lower_text p s q a cs : (forall c, q c = true -> whole p s c) -> means p s a cs -> is_lower q a = is_lower q cs /\ is_upper q a = is_upper q cs.
Proof.
  intros W Ha. destruct (is_lower_ok q q a) as (L1 & U1), (is_lower_ok q q cs) as (L2 & U2).
  assert (E : forallb (fun c => negb (q c)) a = forallb (fun c => negb (q c)) cs); [|split; congruence]. clear L1 U1 L2 U2.
  revert a Ha. induction cs as [|c cs IH]; intros a Ha; [rewrite (proj1 (M_nil_iff _ _ _ _ Ha) eq_refl); reflexivity|].
  destruct (M_cons _ _ _ _ _ Ha) as (x & y & -> & Hx & Hy). rewrite forallb_app. cbn [forallb]. f_equal; [|auto].
  destruct (q c) eqn:E; cbn [negb].
  - rewrite (proj1 (M_one p s c x Hx) (W _ E)). cbn [forallb]. rewrite E. reflexivity.
  - apply forallb_forall. intros v Hv. pose proof (M_none_sep p s q W [c] ltac:(repeat constructor; exact E) x Hx) as Fx.
    rewrite Forall_forall in Fx. rewrite (Fx v Hv). reflexivity.
Qed.

Theorem upper_converted p src dst f a m : case_map p src f -> case_map p dst f -> converted p src dst a m -> converted p src dst (upper f a) (upper f m).
Proof.
  intros F G H. destruct (converted_means p src dst a m H) as (cs & A & B). eapply means_converted; eapply upper_text; eassumption.
Qed.

(** é in lower case and the hiragana a in upper case are no texts under ISO 8859-1 *)
Lemma latin1_breaks : means linux SChar [-61; -87] [0xE9] /\ ~ text linux SChar (lower latin1_lower [-61; -87]) /\
  means linux SChar [-29; -127; -126] [0x3042] /\ ~ text linux SChar (upper latin1_upper [-29; -127; -126]).
Proof.
  split; [spelled_out|]. split; [apply (not_text _ SChar SChar32 _ [0xFFFD; 0xFFFD] [-17; -65; -67; -17; -65; -67]); (reflexivity || discriminate)|].
  split; [spelled_out|]. apply (not_text _ SChar SChar32 _ [0xC1; 0xFFFD] [-61; -127; -17; -65; -67]); (reflexivity || discriminate).
Qed.
Lemma latin1_breaks_somewhere : exists p a cs b ds, means p SChar a cs /\ ~ text p SChar (lower latin1_lower a) /\ means p SChar b ds /\ ~ text p SChar (upper latin1_upper b).
Proof. exact (ex_intro _ linux (ex_intro _ _ (ex_intro _ _ (ex_intro _ _ (ex_intro _ _ latin1_breaks))))). Qed.
Lemma case_example : means linux SChar [97; -61; -87] [97; 0xE9] /\ upper classic_upper [97; -61; -87] = [65; -61; -87] /\ upper classic_upper [97; 0xE9] = [65; 0xE9] /\
  ifind classic_upper [-61; -87; 97] [65] = 2%nat /\ ifind classic_upper [0xE9; 97] [65] = 1%nat.
Proof. split; [spelled_out|]. repeat split; reflexivity. Qed.
