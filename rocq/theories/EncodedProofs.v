(** Cutting encoded text. *)
From Coq Require Import ZArith List Bool Lia Arith.
From Verif Require Import Base UnicodeModel UnicodeSpec UnicodeTextSpec UnicodeProofs UnicodeBodies UnicodeMain EncodedSpec StringModel StringSpec StringProofs SeqModel SeqSpec SeqProofs.
Import ListNotations.
Open Scope Z_scope.

Section Seq.
Context {seq : Z -> list Z -> Prop} {cont : Z -> Prop} (G : good_seq seq cont).

(** a unit that does not continue a sequence begins one *)
Lemma encodes_cut cs us : encodes seq cs us -> forall x v z, us = x ++ v :: z -> ~ cont v ->
  exists c1 c2, cs = c1 ++ c2 /\ encodes seq c1 x /\ encodes seq c2 (v :: z).
Proof.
  induction 1 as [|c u cs us Hs He IH]; intros x v z E N; [destruct x; discriminate|].
  destruct x as [|h x]; [exists [], (c :: cs); split; [reflexivity|]; split; [constructor|]; simpl in E; rewrite <- E; constructor; assumption|].
  destruct (gs_shape _ _ G _ _ Hs) as (h' & t & -> & _ & Ft). simpl in E. injection E as -> E.
  assert (P : exists x', x = t ++ x' /\ us = x' ++ v :: z).
  { clear IH He Hs. revert x E Ft. induction t as [|y t IHt]; intros x E Ft; [exists x; auto|].
    inversion Ft as [|? ? Cy Ft']; subst. destruct x as [|y' x].
    - simpl in E. injection E as -> E. contradiction.
    - simpl in E. injection E as -> E. destruct (IHt x E Ft') as (x' & -> & ->). exists x'. auto. }
  destruct P as (x' & -> & E'). destruct (IH x' v z E' N) as (c1 & c2 & -> & H1 & H2).
  exists (c :: c1), c2. split; [reflexivity|]. split; [|exact H2].
  change (h :: t ++ x') with ((h :: t) ++ x'). constructor; assumption.
Qed.

Lemma encodes_prefix ds vs : encodes seq ds vs -> forall cs y, encodes seq cs (vs ++ y) -> exists c3, cs = ds ++ c3 /\ encodes seq c3 y.
Proof.
  induction 1 as [|d u ds vs Hs He IH]; intros cs y H; [exists cs; auto|].
  rewrite <- app_assoc in H. remember (u ++ vs ++ y) as w eqn:Ew.
  destruct H as [|c u' cs us Hs' He'].
  - exfalso. symmetry in Ew. exact (seq_nonempty G _ _ _ Hs Ew).
  - destruct (gs_det _ _ G _ _ Hs' _ _ _ _ Hs Ew) as [-> ->]. apply app_inv_head in Ew. subst us.
    destruct (IH _ _ He') as (c3 & -> & H3). exists c3. auto.
Qed.

Lemma encodes_nil_iff cs us : encodes seq cs us -> (cs = [] <-> us = []).
Proof.
  intros H. destruct H as [|c u cs us Hs He]; [tauto|]. split; [discriminate|]. intros E. exfalso. exact (seq_nonempty G _ _ _ Hs E).
Qed.

Lemma encodes_occurs cs x vs y ds : encodes seq cs (x ++ vs ++ y) -> encodes seq ds vs -> vs <> [] ->
  exists c1 c2, cs = c1 ++ ds ++ c2 /\ encodes seq c1 x /\ encodes seq c2 y.
Proof.
  intros H D N. assert (L : exists v r, vs = v :: r /\ ~ cont v).
  { destruct D as [|d u ds vs Hs He]; [congruence|]. destruct (gs_shape _ _ G _ _ Hs) as (h & t & -> & Nc & _). exists h, (t ++ vs). auto. }
  destruct L as (v & r & -> & Nv). destruct (encodes_cut _ _ H x v (r ++ y) eq_refl Nv) as (c1 & c2 & -> & H1 & H2).
  change (v :: r ++ y) with ((v :: r) ++ y) in H2. destruct (encodes_prefix _ _ D _ _ H2) as (c3 & -> & H3). exists c1, c3. auto.
Qed.

Lemma encodes_split c1 : forall c2 us, encodes seq (c1 ++ c2) us -> exists x y, us = x ++ y /\ encodes seq c1 x /\ encodes seq c2 y.
Proof.
  induction c1 as [|c c1 IH]; intros c2 us H; [exists [], us; split; [reflexivity|]; split; [constructor|exact H]|].
  simpl in H. inversion H as [|c' u cs us' Hs He]; subst. destruct (IH _ _ He) as (x & y & -> & H1 & H2).
  exists (u ++ x), y. split; [apply app_assoc|]. split; [constructor; assumption|exact H2].
Qed.
End Seq.

(** * Strings *)
Definition enc_of (p : platform) (s : str_type) : Z -> list Z :=
  match s with SChar | SChar8 => enc8 | SChar16 => enc16 | SChar32 => enc32 | SWide => if wchar_32 p then enc32 else enc16 end.
Definition cont_of (p : platform) (s : str_type) : Z -> Prop :=
  match s with SChar | SChar8 => cont8 | SChar16 => cont16 | SChar32 => cont32 | SWide => if wchar_32 p then cont32 else cont16 end.
Lemma form_of p s : form (seq_of p s) (et_bits (et_of p s)) (enc_of p s) (cont_of p s).
Proof. destruct s; simpl; try apply form8; try apply form16; try apply form32. destruct (wchar_32 p); [apply form32|apply form16]. Qed.

Section Means.
Variables (p : platform) (s : str_type).
Notation M := (means p s).
Notation t := (et_of p s).
Notation pat := (pattern (et_bits t)).
Let F := form_of p s.
Let G := f_good _ _ _ _ F.

Lemma pat_inj a b : Forall (values t) a -> Forall (values t) b -> map pat a = map pat b -> a = b.
Proof. intros Ha Hb E. rewrite <- (cast_map t a), <- (cast_map t b), E by (auto; apply (f_bits _ _ _ _ F)). reflexivity. Qed.

Lemma M_fun a cs ds : M a cs -> M a ds -> cs = ds.
Proof. intros (_ & H) (_ & H'). apply (decodes_fun G (map pat a)); apply encodes_decodes; assumption. Qed.
Lemma M_inj a b cs : M a cs -> M b cs -> a = b.
Proof. intros (Ha & H) (Hb & H'). apply pat_inj; auto. exact (encodes_fun G _ _ _ H H'). Qed.
Lemma M_app a b cs ds : M a cs -> M b ds -> M (a ++ b) (cs ++ ds).
Proof. intros (Ha & H) (Hb & H'). split; [apply Forall_app; auto|]. rewrite map_app. apply encodes_app; assumption. Qed.
Lemma M_nil : M [] [].
Proof. split; constructor. Qed.
Lemma M_nil_iff a cs : M a cs -> (cs = [] <-> a = []).
Proof. intros (_ & H). rewrite (encodes_nil_iff G _ _ H). destruct a; simpl; split; congruence. Qed.
Lemma M_split a c1 c2 : M a (c1 ++ c2) -> exists x y, a = x ++ y /\ M x c1 /\ M y c2.
Proof.
  intros (Ha & H). destruct (encodes_split _ _ _ H) as (x & y & E & H1 & H2). apply map_eq_app in E. destruct E as (x' & y' & -> & <- & <-).
  apply Forall_app in Ha. destruct Ha. exists x', y'. split; [reflexivity|]. split; split; assumption.
Qed.
Lemma M_cut x f y cs ds : M (x ++ f ++ y) cs -> M f ds -> ds <> [] -> exists c1 c2, cs = c1 ++ ds ++ c2 /\ M x c1 /\ M y c2.
Proof.
  intros (Ha & H) Hf N. assert (Nf : f <> []) by (intros E; apply N, (M_nil_iff _ _ Hf); exact E). destruct Hf as (_ & Hf).
  rewrite !map_app in H. destruct (encodes_occurs G _ _ _ _ _ H Hf) as (c1 & c2 & -> & H1 & H2); [destruct f; [congruence|discriminate]|].
  apply Forall_app in Ha. destruct Ha as (Hx & Ha). apply Forall_app in Ha. destruct Ha as (_ & Hy). exists c1, c2.
  split; [reflexivity|]. split; split; assumption.
Qed.
Lemma M_occ a cs f ds c1 c2 : M a cs -> M f ds -> cs = c1 ++ ds ++ c2 -> exists x y, a = x ++ f ++ y /\ M x c1 /\ M y c2.
Proof.
  intros Ha Hf ->. destruct (M_split _ _ _ Ha) as (x & z & -> & Hx & Hz). destruct (M_split _ _ _ Hz) as (f' & y & -> & Hf' & Hy).
  rewrite (M_inj _ _ _ Hf' Hf). eauto.
Qed.
(** parts of a text that begin it: the shorter one of code points is the shorter one of units *)
Lemma M_mono x y x' y' c1 c2 c1' c2' : x ++ y = x' ++ y' -> c1 ++ c2 = c1' ++ c2' -> M x c1 -> M x' c1' -> M y c2 -> M y' c2' ->
  ((length c1 <= length c1')%nat <-> (length x <= length x')%nat) /\ ((length c1 < length c1')%nat <-> (length x < length x')%nat).
Proof.
  intros E Ec Hx Hx' Hy Hy'.
  assert (W : forall x y x' y' c1 c2 c1' c2', x ++ y = x' ++ y' -> c1 ++ c2 = c1' ++ c2' -> M x c1 -> M x' c1' ->
    (length c1 <= length c1')%nat -> (length x <= length x')%nat /\ (length c1 < length c1' -> length x < length x')%nat).
  { clear - G F. intros x y x' y' c1 c2 c1' c2' E Ec Hx Hx' L.
    assert (P : exists w, c1' = c1 ++ w).
    { exists (skipn (length c1) c1'). rewrite <- (firstn_skipn (length c1) c1') at 1. f_equal.
      apply (f_equal (firstn (length c1))) in Ec. rewrite firstn_app, Nat.sub_diag, firstn_O, app_nil_r, firstn_all in Ec.
      rewrite firstn_app in Ec. replace (length c1 - length c1')%nat with 0%nat in Ec by lia. rewrite firstn_O, app_nil_r in Ec. auto. }
    destruct P as (w & ->). destruct (M_split _ _ _ Hx') as (x1 & w' & -> & H1 & H2). rewrite (M_inj _ _ _ H1 Hx).
    rewrite !app_length. split; [lia|]. intros Lt. assert (w' <> []); [|destruct w'; [congruence|simpl; lia]].
    intros Q. apply (M_nil_iff _ _ H2) in Q. subst w. simpl in Lt. lia. }
  destruct (Nat.le_gt_cases (length c1) (length c1')) as [L|L].
  - destruct (W _ _ _ _ _ _ _ _ E Ec Hx Hx' L) as (A & B). split; [tauto|]. split; [exact B|]. intros Lt.
    destruct (Nat.eq_dec (length c1) (length c1')) as [Q|Q]; [|lia].
    destruct (W _ _ _ _ _ _ _ _ (eq_sym E) (eq_sym Ec) Hx' Hx) as (A' & _); [lia|]. lia.
  - destruct (W _ _ _ _ _ _ _ _ (eq_sym E) (eq_sym Ec) Hx' Hx) as (A & B); [lia|]. specialize (B L). split; split; lia.
Qed.

(** * Splitting and replacing *)
Lemma M_first f ds a cs c1 c2 : ds <> [] -> M f ds -> M a cs -> first_cut ds cs c1 c2 ->
  exists x y, first_cut f a x y /\ M x c1 /\ M y c2.
Proof.
  intros N Hf Ha (Ec & Min). destruct (M_occ _ _ _ _ _ _ Ha Hf Ec) as (x & y & Ea & Hx & Hy). exists x, y. split; [|auto].
  split; [exact Ea|]. intros u v E. rewrite E in Ha. destruct (M_cut _ _ _ _ _ Ha Hf N) as (d1 & d2 & Ed & Hu & Hv).
  assert (E1 : x ++ (f ++ y) = u ++ (f ++ v)) by congruence. assert (E2 : c1 ++ (ds ++ c2) = d1 ++ (ds ++ d2)) by congruence.
  apply (proj1 (M_mono _ _ _ _ _ _ _ _ E1 E2 Hx Hu (M_app _ _ _ _ Hf Hy) (M_app _ _ _ _ Hf Hv))). exact (Min _ _ Ed).
Qed.
Lemma M_none f ds a cs : ds <> [] -> M f ds -> M a cs -> ~ occurs ds cs -> ~ occurs f a.
Proof.
  intros N Hf Ha No (u & v & E). rewrite E in Ha. destruct (M_cut _ _ _ _ _ Ha Hf N) as (d1 & d2 & Ed & _). apply No. exists d1, d2. exact Ed.
Qed.
Lemma M_pieces f ds cs qs : ds <> [] -> M f ds -> pieces ds cs qs -> forall a, M a cs -> exists ps, pieces f a ps /\ Forall2 M ps qs.
Proof.
  intros N Hf. induction 1 as [cs No|cs c1 c2 qs Hc Hp IH]; intros a Ha.
  - exists [a]. split; [constructor; eapply M_none; eauto|]. repeat constructor; apply Ha.
  - destruct (M_first _ _ _ _ _ _ N Hf Ha Hc) as (x & y & Hxy & Hx & Hy). destruct (IH _ Hy) as (ps & Hps & F2).
    exists (x :: ps). split; [econstructor; eauto|]. constructor; assumption.
Qed.
Lemma M_interleaved sep ds ps qs : M sep ds -> Forall2 M ps qs -> M (interleaved sep ps) (interleaved ds qs).
Proof.
  intros Hs. induction 1 as [|x c ps qs Hx F2 IH]; [apply M_nil|].
  simpl. destruct F2 as [|x' c' ps qs Hx' F2]; [exact Hx|]. apply M_app; [exact Hx|]. apply M_app; assumption.
Qed.

Lemma eqb_decides x y : Z.eqb x y = true <-> x = y. Proof. apply Z.eqb_eq. Qed.

Theorem split_text a cs f ds : M a cs -> M f ds -> ds <> [] ->
  exists ps qs, split Z.eqb a f = Ret ps /\ split Z.eqb cs ds = Ret qs /\ Forall2 M ps qs.
Proof.
  intros Ha Hf N. destruct (split_all Z.eqb eqb_decides cs ds N) as (qs & Eq & Pq & _).
  destruct (M_pieces _ _ _ _ N Hf Pq a Ha) as (ps & Pp & F2).
  assert (Nf : f <> []) by (intros E; apply N, (M_nil_iff _ _ Hf); exact E).
  destruct (split_all Z.eqb eqb_decides a f Nf) as (ps' & Ep & _ & U & _). rewrite <- (U _ Pp) in Ep. exists ps, qs. auto.
Qed.
Theorem join_text ps qs sep ds : Forall2 M ps qs -> M sep ds -> M (join ps sep) (join qs ds).
Proof. intros F2 Hs. rewrite !join_spec. apply M_interleaved; assumption. Qed.
Theorem replace_text a cs f ds r es : M a cs -> M f ds -> M r es -> ds <> [] ->
  exists b bs, replace Z.eqb a f r = Ret b /\ replace Z.eqb cs ds es = Ret bs /\ M b bs.
Proof.
  intros Ha Hf Hr N. destruct (replace_spec Z.eqb eqb_decides cs ds es N) as (qs & Eq & Pq).
  destruct (M_pieces _ _ _ _ N Hf Pq a Ha) as (ps & Pp & F2).
  assert (Nf : f <> []) by (intros E; apply N, (M_nil_iff _ _ Hf); exact E).
  destruct (replace_spec Z.eqb eqb_decides a f r Nf) as (ps' & Ep & Pp'). rewrite (pieces_unique _ _ _ _ Pp' Pp) in Ep.
  exists (interleaved r ps), (interleaved es qs). split; [exact Ep|]. split; [exact Eq|]. apply M_interleaved; assumption.
Qed.
End Means.
