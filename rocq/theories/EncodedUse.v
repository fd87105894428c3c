(** Searching and cutting encoded text. *)
From Coq Require Import ZArith List Bool Lia Arith.
From Verif Require Import Base UnicodeModel UnicodeSpec UnicodeTextSpec UnicodeProofs UnicodeBodies UnicodeMain EncodedSpec StringModel StringSpec StringProofs SeqModel SeqSpec SeqProofs EncodedProofs EncodedOrder.
Import ListNotations.
Open Scope Z_scope.

Lemma occurs_at_app (l r : list Z) i : occurs_at Z.eqb l r i <-> exists x y, l = x ++ r ++ y /\ length x = i.
Proof.
  split.
  - intros H. assert (L : (i <= length l)%nat) by (destruct H; lia).
    apply (occurs_at_skipn Z.eqb l r i L), match_front_ok, (match_front_prefix Z.eqb Z.eqb_eq) in H. destruct H as (y & E).
    exists (firstn i l), y. rewrite <- E, firstn_skipn, firstn_length. split; [reflexivity|lia].
  - intros (x & y & -> & <-). apply occurs_at_skipn; [rewrite app_length; lia|]. apply match_front_ok, (match_front_prefix Z.eqb Z.eqb_eq).
    exists y. rewrite skipn_app, skipn_all, Nat.sub_diag. reflexivity.
Qed.

Section Means.
Variables (p : platform) (s : str_type).
Notation M := (means p s).

(** an occurrence in the units is one in the code points, and the other way round *)
Lemma M_at a cs f ds i : M a cs -> M f ds -> ds <> [] -> occurs_at Z.eqb a f i ->
  exists x y c1 c2, a = x ++ y /\ cs = c1 ++ c2 /\ M x c1 /\ M y c2 /\ length x = i /\ occurs_at Z.eqb cs ds (length c1).
Proof.
  intros Ha Hf N H. apply occurs_at_app in H. destruct H as (x & y & -> & L). destruct (M_cut _ _ _ _ _ _ _ Ha Hf N) as (c1 & c2 & -> & Hx & Hy).
  exists x, (f ++ y), c1, (ds ++ c2). repeat (split; [first [reflexivity|assumption|apply M_app; assumption]|]). apply occurs_at_app. eauto.
Qed.
Lemma M_from a cs f ds i : M a cs -> M f ds -> occurs_at Z.eqb cs ds i ->
  exists x y c1 c2, a = x ++ y /\ cs = c1 ++ c2 /\ M x c1 /\ M y c2 /\ length c1 = i /\ occurs_at Z.eqb a f (length x).
Proof.
  intros Ha Hf H. apply occurs_at_app in H. destruct H as (c1 & c2 & Ec & L). destruct (M_occ _ _ _ _ _ _ _ _ Ha Hf Ec) as (x & y & -> & Hx & Hy).
  exists x, (f ++ y), c1, (ds ++ c2). repeat (split; [first [reflexivity|assumption|apply M_app; assumption]|]). apply occurs_at_app. eauto.
Qed.
Lemma M_nowhere a cs f ds : M a cs -> M f ds -> ds <> [] -> (forall j, ~ occurs_at Z.eqb cs ds j) -> forall j, ~ occurs_at Z.eqb a f j.
Proof. intros Ha Hf N H j Q. destruct (M_at _ _ _ _ _ Ha Hf N Q) as (x & y & c1 & c2 & _ & _ & _ & _ & _ & O). exact (H _ O). Qed.

Theorem find_text a cs f ds : M a cs -> M f ds -> ds <> [] ->
  same_place p s a cs (find_sequence Z.eqb a f) (find_sequence Z.eqb cs ds).
Proof.
  intros Ha Hf N. destruct (find_sequence_ok Z.eqb cs ds) as [(O & Min)|(E & No)].
  - destruct (M_from _ _ _ _ _ Ha Hf O) as (x & y & c1 & c2 & Ea & Ec & Hx & Hy & L & Oa).
    exists x, y, c1, c2. repeat (split; [assumption|]). split; [|exact L].
    destruct (find_sequence_ok Z.eqb a f) as [(Oi & Mini)|(_ & No)]; [|exfalso; exact (No _ Oa)].
    destruct (M_at _ _ _ _ _ Ha Hf N Oi) as (u & v & d1 & d2 & Ea' & Ec' & Hu & Hv & Lu & Od).
    destruct (M_mono p s _ _ _ _ _ _ _ _ (eq_trans (eq_sym Ea) Ea') (eq_trans (eq_sym Ec) Ec') Hx Hu Hy Hv) as (A & _).
    assert (L1 : (length c1 <= length d1)%nat) by (apply Nat.nlt_ge; intros Q; apply (Min (length d1)); [lia|exact Od]).
    apply A in L1. assert (L2 : (find_sequence Z.eqb a f <= length x)%nat) by (apply Nat.nlt_ge; intros Q; exact (Mini _ Q Oa)). lia.
  - exists a, [], cs, []. rewrite !app_nil_r. repeat (split; [first [reflexivity|assumption|apply M_nil]|]). split; [|auto].
    destruct (find_sequence_ok Z.eqb a f) as [(Oi & _)|(Ea & _)]; [|auto]. exfalso. exact (M_nowhere _ _ _ _ Ha Hf N No _ Oi).
Qed.
Theorem rfind_text a cs f ds : M a cs -> M f ds -> ds <> [] ->
  same_place p s a cs (rfind_sequence Z.eqb a f) (rfind_sequence Z.eqb cs ds).
Proof.
  intros Ha Hf N. assert (Nf : f <> []) by (intros E; apply N, (M_nil_iff _ _ _ _ Hf); exact E).
  destruct (rfind_sequence_ok Z.eqb cs ds) as (_ & R). destruct (rfind_sequence_ok Z.eqb a f) as (_ & R').
  destruct (R N) as [(O & Max)|(E & No)].
  - destruct (M_from _ _ _ _ _ Ha Hf O) as (x & y & c1 & c2 & Ea & Ec & Hx & Hy & L & Oa).
    exists x, y, c1, c2. repeat (split; [assumption|]). split; [|exact L].
    destruct (R' Nf) as [(Oi & Maxi)|(_ & No)]; [|exfalso; exact (No _ Oa)].
    destruct (M_at _ _ _ _ _ Ha Hf N Oi) as (u & v & d1 & d2 & Ea' & Ec' & Hu & Hv & Lu & Od).
    destruct (M_mono p s _ _ _ _ _ _ _ _ (eq_trans (eq_sym Ea') Ea) (eq_trans (eq_sym Ec') Ec) Hu Hx Hv Hy) as (A & _).
    assert (L1 : (length d1 <= length c1)%nat) by (apply Nat.nlt_ge; intros Q; apply (Max (length d1)); [lia|exact Od]).
    apply A in L1. assert (L2 : (length x <= rfind_sequence Z.eqb a f)%nat) by (apply Nat.nlt_ge; intros Q; exact (Maxi _ Q Oa)). lia.
  - exists a, [], cs, []. rewrite !app_nil_r. repeat (split; [first [reflexivity|assumption|apply M_nil]|]). split; [|auto].
    destruct (R' Nf) as [(Oi & _)|(Ea & _)]; [|auto]. exfalso. exact (M_nowhere _ _ _ _ Ha Hf N No _ Oi).
Qed.
Theorem contains_text a cs f ds : M a cs -> M f ds -> contains_sequence Z.eqb a f = contains_sequence Z.eqb cs ds.
Proof.
  intros Ha Hf. destruct (list_eq_dec Z.eq_dec ds []) as [->|N].
  { rewrite (proj1 (M_nil_iff _ _ _ _ Hf) eq_refl). reflexivity. }
  apply eq_true_iff_eq. rewrite !contains_sequence_ok. split; intros (i & O).
  - destruct (M_at _ _ _ _ _ Ha Hf N O) as (x & y & c1 & c2 & _ & _ & _ & _ & _ & Q). eauto.
  - destruct (M_from _ _ _ _ _ Ha Hf O) as (x & y & c1 & c2 & _ & _ & _ & _ & _ & Q). eauto.
Qed.
Theorem starts_with_text a cs f ds : M a cs -> M f ds -> starts_with_generic Z.eqb a f = starts_with_generic Z.eqb cs ds.
Proof.
  intros Ha Hf. apply eq_true_iff_eq. rewrite (proj1 (starts_with_prefix Z.eqb Z.eqb_eq a f)), (proj1 (starts_with_prefix Z.eqb Z.eqb_eq cs ds)). split; intros (y & E).
  - subst a. destruct Ha as (_ & Ha). rewrite map_app in Ha. destruct Hf as (_ & Hf).
    destruct (encodes_prefix (f_good _ _ _ _ (form_of p s)) _ _ Hf _ _ Ha) as (c3 & -> & _). eauto.
  - destruct (M_occ p s a cs f ds [] y Ha Hf E) as (x & z & -> & Hx & _). rewrite (proj1 (M_nil_iff _ _ _ _ Hx) eq_refl). simpl. eauto.
Qed.
Theorem ends_with_text a cs f ds : M a cs -> M f ds -> ends_with_generic Z.eqb a f = ends_with_generic Z.eqb cs ds.
Proof.
  intros Ha Hf. apply eq_true_iff_eq. rewrite (proj1 (ends_with_suffix Z.eqb Z.eqb_eq a f)), (proj1 (ends_with_suffix Z.eqb Z.eqb_eq cs ds)). split; intros (y & E).
  - destruct (list_eq_dec Z.eq_dec ds []) as [->|N]; [exists cs; rewrite app_nil_r; reflexivity|].
    subst a. rewrite <- (app_nil_r f) in Ha. destruct (M_cut _ _ _ _ _ _ _ Ha Hf N) as (c1 & c2 & -> & _ & Hc).
    rewrite (proj2 (M_nil_iff _ _ _ _ Hc) eq_refl), app_nil_r. eauto.
  - rewrite <- (app_nil_r ds) in E. destruct (M_occ p s a cs f ds y [] Ha Hf E) as (x & z & -> & _ & Hz).
    rewrite (proj1 (M_nil_iff _ _ _ _ Hz) eq_refl), app_nil_r. eauto.
Qed.

(** * Characters of one unit *)
Lemma M_one c x : M x [c] -> (whole p s c -> x = [c]) /\ (forall v, In v x -> whole p s v -> v = c).
Proof.
  intros Hx. split; [intros W; exact (M_inj p s _ _ _ Hx W)|]. intros v Hv W.
  apply in_split in Hv. destruct Hv as (x1 & x2 & ->). destruct (M_cut p s x1 [v] x2 [c] [v] Hx W) as (c1 & c2 & E & _); [discriminate|].
  destruct c1 as [|? [|]]; try discriminate. injection E as ->. reflexivity.
Qed.
Lemma M_cons a c cs : M a (c :: cs) -> exists x y, a = x ++ y /\ M x [c] /\ M y cs.
Proof. apply (M_split p s a [c] cs). Qed.
Theorem whole_text cs : Forall (whole p s) cs -> M cs cs.
Proof. induction 1 as [|c cs Hc H IH]; [apply M_nil|]. apply (M_app p s [c] cs [c] cs); [exact Hc|exact IH]. Qed.

Lemma bits_8 : 8 <= et_bits (et_of p s).
Proof. destruct s; simpl; try lia. destruct (wchar_32 p); lia. Qed.
Lemma ascii_pow v : ascii v -> 0 <= v < 2 ^ (et_bits (et_of p s) - 1).
Proof.
  unfold ascii. intros H. pose proof bits_8. split; [lia|]. apply Z.lt_le_trans with (2 ^ 7); [exact (proj2 H)|]. apply Z.pow_le_mono_r; lia.
Qed.
Lemma ascii_pattern v : ascii v -> pattern (et_bits (et_of p s)) v = v.
Proof.
  intros H. apply ascii_pow in H. apply Z.mod_small. split; [lia|]. apply Z.lt_le_trans with (2 ^ (et_bits (et_of p s) - 1)); [lia|].
  apply Z.pow_le_mono_r; lia.
Qed.
Lemma seq_ascii c u : seq_of p s c u -> ascii c -> u = [c].
Proof.
  unfold ascii. destruct s; simpl; try (destruct (wchar_32 p)); intros H A; destruct H; try reflexivity; lia.
Qed.
Theorem ascii_whole c : ascii c -> whole p s c.
Proof.
  intros H. split.
  - constructor; [|constructor]. pose proof (ascii_pow c H) as B. unfold holds. destruct (et_signed (et_of p s)); [lia|].
    split; [lia|]. apply Z.lt_le_trans with (2 ^ (et_bits (et_of p s) - 1)); [lia|]. apply Z.pow_le_mono_r; lia.
  - simpl. rewrite ascii_pattern by exact H.
    apply (encodes_cons _ c [c] [] []); [|constructor].
    assert (S : scalar c) by (unfold scalar, ascii in *; lia).
    pose proof (f_enc _ _ _ _ (form_of p s) c S) as Q. rewrite (seq_ascii _ _ Q H) in Q. exact Q.
Qed.

Variable sep : Z -> bool.
Hypothesis sep_whole : forall c, sep c = true -> whole p s c.
Lemma M_none_sep w : Forall (fun c => sep c = false) w -> forall x, M x w -> Forall (fun v => sep v = false) x.
Proof.
  induction 1 as [|c w Hc H IH]; intros x Hx; [rewrite (proj1 (M_nil_iff _ _ _ _ Hx) eq_refl); constructor|].
  destruct (M_cons _ _ _ Hx) as (x1 & x2 & -> & H1 & H2). apply Forall_app. split; [|auto].
  apply Forall_forall. intros v Hv. destruct (sep v) eqn:E; [|reflexivity]. rewrite (proj2 (M_one _ _ H1) v Hv (sep_whole _ E)) in E. congruence.
Qed.
Lemma M_all_sep w : Forall (fun c => sep c = true) w -> forall x, M x w -> x = w.
Proof.
  intros H x Hx. apply (M_inj p s x w w Hx). apply whole_text. eapply Forall_impl; [|exact H]. auto.
Qed.
Lemma M_words cs qs : words sep cs qs -> forall a, M a cs -> exists ps, words sep a ps /\ Forall2 M ps qs.
Proof.
  induction 1 as [|c cs qs Hc H IH|w cs qs N Fw Sw H IH]; intros a Ha.
  - rewrite (proj1 (M_nil_iff _ _ _ _ Ha) eq_refl). exists []. split; constructor.
  - destruct (M_cons _ _ _ Ha) as (x & y & -> & Hx & Hy). rewrite (proj1 (M_one _ _ Hx) (sep_whole _ Hc)).
    destruct (IH _ Hy) as (ps & W & F2). exists ps. split; [constructor; assumption|exact F2].
  - destruct (M_split _ _ _ _ _ Ha) as (x & y & -> & Hx & Hy). destruct (IH _ Hy) as (ps & W & F2). exists (x :: ps). split; [|constructor; assumption].
    constructor; [|exact (M_none_sep _ Fw _ Hx)| |exact W].
    + intros E. apply N, (M_nil_iff _ _ _ _ Hx). exact E.
    + destruct cs as [|c cs]; [rewrite (proj1 (M_nil_iff _ _ _ _ Hy) eq_refl); exact I|]. simpl in Sw.
      destruct (M_cons _ _ _ Hy) as (y1 & y2 & -> & H1 & _). rewrite (proj1 (M_one _ _ H1) (sep_whole _ Sw)). exact Sw.
Qed.
Theorem split_space_text a cs : M a cs -> exists ps qs, split_space sep a = Ret ps /\ split_space sep cs = Ret qs /\ Forall2 M ps qs.
Proof.
  intros Ha. destruct (split_space_all sep cs) as (qs & Eq & Wq & _). destruct (M_words _ _ Wq _ Ha) as (ps & Wp & F2).
  destruct (split_space_all sep a) as (ps' & Ep & _ & U & _). rewrite <- (U _ Wp) in Ep. eauto.
Qed.
Lemma M_head q r : (forall c q', q = c :: q' -> sep c = false) -> M r q -> forall v r', r = v :: r' -> sep v = false.
Proof.
  intros H Hr v r' ->. destruct q as [|c q]; [discriminate (proj1 (M_nil_iff _ _ _ _ Hr) eq_refl)|].
  destruct (M_cons _ _ _ Hr) as (x & y & E & Hx & _).
  assert (Fx : Forall (fun v => sep v = false) x) by (apply (M_none_sep [c]); [repeat constructor; eauto|exact Hx]).
  destruct x as [|h x]; [discriminate (proj2 (M_nil_iff _ _ _ _ Hx) eq_refl)|]. injection E as -> _. inversion Fx. assumption.
Qed.
Lemma M_last q r : (forall c q', q = q' ++ [c] -> sep c = false) -> M r q -> forall v r', r = r' ++ [v] -> sep v = false.
Proof.
  intros H Hr v r' ->. destruct q as [|c q _] using rev_ind; [pose proof (proj1 (M_nil_iff _ _ _ _ Hr) eq_refl) as E; destruct r'; discriminate|].
  destruct (M_split _ _ _ _ _ Hr) as (y & x & E & _ & Hx).
  assert (Fx : Forall (fun v => sep v = false) x) by (apply (M_none_sep [c]); [repeat constructor; eauto|exact Hx]).
  destruct x as [|h x _] using rev_ind; [discriminate (proj2 (M_nil_iff _ _ _ _ Hx) eq_refl)|].
  rewrite app_assoc in E. apply app_inj_tail in E. destruct E as [_ <-]. apply Forall_app in Fx. destruct Fx as (_ & Fx). inversion Fx. assumption.
Qed.
Theorem strip_text a cs : M a cs -> exists r q, strip sep a = Ret r /\ strip sep cs = Ret q /\ M r q.
Proof.
  intros Ha. destruct (strip_all sep cs) as (q & Eq & (w1 & w2 & Ec & Fw & N1 & N2) & _). rewrite Ec in Ha.
  apply Forall_app in Fw. destruct Fw as (F1 & F2).
  destruct (M_split _ _ _ _ _ Ha) as (x & z & -> & Hx & Hz). destruct (M_split _ _ _ _ _ Hz) as (r & y & -> & Hr & Hy).
  rewrite (M_all_sep _ F1 _ Hx), (M_all_sep _ F2 _ Hy).
  destruct (strip_all sep (w1 ++ r ++ w2)) as (r' & Er & _ & U & _). exists r', q. split; [exact Er|]. split; [exact Eq|]. rewrite <- (U r); [exact Hr|].
  exists w1, w2. split; [reflexivity|]. split; [apply Forall_app; auto|]. split; [exact (M_head _ _ N1 Hr)|exact (M_last _ _ N2 Hr)].
Qed.
Theorem lstrip_text a cs : M a cs -> exists r q, lstrip sep a = Ret r /\ lstrip sep cs = Ret q /\ M r q.
Proof.
  intros Ha. destruct (lstrip_spec sep cs) as (q & Eq & (w & Ec & Fw & N1)). rewrite Ec in Ha.
  destruct (M_split _ _ _ _ _ Ha) as (x & r & -> & Hx & Hr). rewrite (M_all_sep _ Fw _ Hx).
  destruct (lstrip_spec sep (w ++ r)) as (r' & Er & S). exists r', q. split; [exact Er|]. split; [exact Eq|].
  rewrite (lstripped_unique sep _ _ r S); [exact Hr|]. exists w. split; [reflexivity|]. split; [exact Fw|exact (M_head _ _ N1 Hr)].
Qed.
Theorem rstrip_text a cs : M a cs -> exists r q, rstrip sep a = Ret r /\ rstrip sep cs = Ret q /\ M r q.
Proof.
  intros Ha. destruct (rstrip_spec sep cs) as (q & Eq & (w & Ec & Fw & N1)). rewrite Ec in Ha.
  destruct (M_split _ _ _ _ _ Ha) as (r & x & -> & Hr & Hx). rewrite (M_all_sep _ Fw _ Hx).
  destruct (rstrip_spec sep (r ++ w)) as (r' & Er & S). exists r', q. split; [exact Er|]. split; [exact Eq|].
  rewrite (rstripped_unique sep _ _ r S); [exact Hr|]. exists w. split; [reflexivity|]. split; [exact Fw|exact (M_last _ _ N1 Hr)].
Qed.
Lemma M_subst rep es cs : M rep es -> forall a, M a cs ->
  M (flat_map (fun c => if sep c then rep else [c]) a) (flat_map (fun c => if sep c then es else [c]) cs).
Proof.
  intros Hr. induction cs as [|c cs IH]; intros a Ha; [rewrite (proj1 (M_nil_iff _ _ _ _ Ha) eq_refl); apply M_nil|].
  destruct (M_cons _ _ _ Ha) as (x & y & -> & Hx & Hy). rewrite flat_map_app. cbn [flat_map]. apply M_app; [|auto].
  destruct (sep c) eqn:E.
  - rewrite (proj1 (M_one _ _ Hx) (sep_whole _ E)). cbn [flat_map]. rewrite E, app_nil_r. exact Hr.
  - assert (Fx : Forall (fun v => sep v = false) x) by (apply (M_none_sep [c]); [repeat constructor; exact E|exact Hx]).
    replace (flat_map (fun c => if sep c then rep else [c]) x) with x; [exact Hx|].
    clear - Fx. induction Fx as [|v x Hv _ IH]; [reflexivity|]. cbn [flat_map]. rewrite Hv, <- IH. reflexivity.
Qed.
End Means.

Section Sets.
Variables (p : platform) (s : str_type).
Notation M := (means p s).
Variable set : list Z.
Hypothesis set_whole : Forall (whole p s) set.
Definition in_set (c : Z) : bool := existsb (Z.eqb c) set.
Lemma in_set_ok c : in_set c = true <-> In c set.
Proof.
  unfold in_set. rewrite existsb_exists. split; [intros (x & H & E); apply Z.eqb_eq in E; congruence|]. intros H. exists c. split; [exact H|apply Z.eqb_refl].
Qed.
Lemma in_set_whole c : in_set c = true -> whole p s c.
Proof. intros H. apply in_set_ok in H. rewrite Forall_forall in set_whole. auto. Qed.
Theorem split_any_of_text a cs : M a cs ->
  exists ps qs, split_any_of Z.eqb a set = Ret ps /\ split_any_of Z.eqb cs set = Ret qs /\ Forall2 M ps qs.
Proof.
  intros Ha. destruct (split_any_of_all Z.eqb Z.eqb_eq cs set in_set in_set_ok) as (qs & Eq & Wq).
  destruct (M_words p s in_set in_set_whole _ _ Wq _ Ha) as (ps & Wp & F2).
  destruct (split_any_of_all Z.eqb Z.eqb_eq a set in_set in_set_ok) as (ps' & Ep & Wp'). rewrite (words_unique in_set _ _ _ Wp' Wp) in Ep. eauto.
Qed.
Theorem replace_any_of_text a cs r es : M a cs -> M r es ->
  exists b bs, replace_any_of Z.eqb a set r = Ret b /\ replace_any_of Z.eqb cs set es = Ret bs /\ M b bs.
Proof.
  intros Ha Hr. rewrite !(replace_any_of_all Z.eqb Z.eqb_eq _ _ _ in_set in_set_ok). do 2 eexists. split; [reflexivity|]. split; [reflexivity|].
  apply M_subst; auto. apply in_set_whole.
Qed.
End Sets.

(** * With conversions *)
Section Convert.
Variables (p : platform) (src dst : str_type).
Notation converted := (converted p src dst).
Lemma converted_means a m : converted a m -> exists cs, means p src a cs /\ means p dst m cs.
Proof.
  intros ((V & cs & H) & E). exists cs. split; [split; assumption|]. destruct (convert_means p src dst a cs (conj V H)) as (m' & E' & Hm).
  rewrite E in E'. injection E' as <-. exact Hm.
Qed.
Lemma means_converted a m cs : means p src a cs -> means p dst m cs -> converted a m.
Proof.
  intros Ha Hm. split; [split; [apply Ha|exists cs; apply Ha]|]. destruct (convert_means p src dst a cs Ha) as (m' & E & Hm'). rewrite E. f_equal.
  exact (M_inj p dst _ _ _ Hm' Hm).
Qed.
Lemma pieces_converted qs : forall ps ms, Forall2 (means p src) ps qs -> Forall2 (means p dst) ms qs -> Forall2 converted ps ms.
Proof.
  induction qs as [|q qs IH]; intros ps ms H K; inversion H; subst; inversion K; subst; constructor; [eapply means_converted; eauto|auto].
Qed.
Lemma converted_pieces ps ms : Forall2 converted ps ms -> exists qs, Forall2 (means p src) ps qs /\ Forall2 (means p dst) ms qs.
Proof.
  induction 1 as [|a m ps ms H F (qs & A & B)]; [exists []; split; constructor|]. destruct (converted_means _ _ H) as (q & Q1 & Q2).
  exists (q :: qs). split; constructor; assumption.
Qed.
Theorem split_converted a m f g : converted a m -> converted f g -> f <> [] ->
  exists ps ms, split Z.eqb a f = Ret ps /\ split Z.eqb m g = Ret ms /\ Forall2 converted ps ms.
Proof.
  intros Ha Hf N. destruct (converted_means _ _ Ha) as (cs & A1 & A2). destruct (converted_means _ _ Hf) as (ds & F1 & F2).
  assert (Nd : ds <> []) by (intros E; apply N, (M_nil_iff _ _ _ _ F1); exact E).
  destruct (split_text p src a cs f ds A1 F1 Nd) as (ps & qs & E1 & E2 & P1). destruct (split_text p dst m cs g ds A2 F2 Nd) as (ms & qs' & E3 & E4 & P2).
  rewrite E2 in E4. injection E4 as <-. exists ps, ms. split; [exact E1|]. split; [exact E3|]. exact (pieces_converted _ _ _ P1 P2).
Qed.
Theorem replace_converted a m f g r t : converted a m -> converted f g -> converted r t -> f <> [] ->
  exists b n, replace Z.eqb a f r = Ret b /\ replace Z.eqb m g t = Ret n /\ converted b n.
Proof.
  intros Ha Hf Hr N. destruct (converted_means _ _ Ha) as (cs & A1 & A2). destruct (converted_means _ _ Hf) as (ds & F1 & F2). destruct (converted_means _ _ Hr) as (es & R1 & R2).
  assert (Nd : ds <> []) by (intros E; apply N, (M_nil_iff _ _ _ _ F1); exact E).
  destruct (replace_text p src a cs f ds r es A1 F1 R1 Nd) as (b & bs & E1 & E2 & P1). destruct (replace_text p dst m cs g ds t es A2 F2 R2 Nd) as (n & bs' & E3 & E4 & P2).
  rewrite E2 in E4. injection E4 as <-. exists b, n. split; [exact E1|]. split; [exact E3|]. exact (means_converted _ _ _ P1 P2).
Qed.
Theorem join_converted ps ms f g : Forall2 converted ps ms -> converted f g -> converted (join ps f) (join ms g).
Proof.
  intros H Hf. destruct (converted_pieces _ _ H) as (qs & A & B). destruct (converted_means _ _ Hf) as (ds & F1 & F2).
  exact (means_converted _ _ _ (join_text p src _ _ _ _ A F1) (join_text p dst _ _ _ _ B F2)).
Qed.
End Convert.
