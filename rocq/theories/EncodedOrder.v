(** The orders of encoded texts, the sizes of converted strings. *)
From Coq Require Import ZArith List Bool Lia Arith.
From Verif Require Import Base UnicodeModel UnicodeSpec UnicodeTextSpec UnicodeProofs UnicodeBodies UnicodeMain EncodedSpec EncodedProofs.
Import ListNotations.
Open Scope Z_scope.

(** * Conversions keep the code points *)
Theorem convert_means p src dst a cs : means p src a cs -> exists m, to_type p dst src a = Ret m /\ means p dst m cs.
Proof.
  intros (Ha & H). assert (D : src = dst \/ src <> dst) by (destruct src, dst; auto; right; discriminate). destruct D as [<-|N].
  { exists a. split; [destruct src; reflexivity|split; assumption]. }
  destruct (string_functions p src dst a N) as (m & E & Hm & (ds & H1 & H2) & _); [split; [exact Ha|exists cs; exact H]|].
  exists m. split; [exact E|]. split; [exact Hm|].
  rewrite <- (M_fun p src a ds cs); [exact H2|split; assumption|split; assumption].
Qed.

(** * Order *)
Inductive slt : list Z -> list Z -> Prop :=
| slt_here x y l m : x < y -> slt (x :: l) (y :: m)
| slt_next x l m : slt l m -> slt (x :: l) (x :: m).
Lemma slt_lex u v : slt u v -> forall r r', lex Z.lt (u ++ r) (v ++ r').
Proof. induction 1; intros; simpl; [apply lex_here; assumption|apply lex_next; auto]. Qed.
Lemma slt_next' x y l m : x <= y -> (x = y -> slt l m) -> slt (x :: l) (y :: m).
Proof. intros H K. destruct (Z.eq_dec x y) as [->|N]; [apply slt_next; auto|apply slt_here; lia]. Qed.
Lemma lex_prefix lt u l m : lex lt l m -> lex lt (u ++ l) (u ++ m).
Proof. intros H. induction u; [exact H|simpl; apply lex_next; assumption]. Qed.
Lemma lex_asym (lt : Z -> Z -> Prop) (A : forall x y, lt x y -> lt y x -> False) (A' : forall x, lt x x -> False) l m : lex lt l m -> lex lt m l -> False.
Proof. induction 1 as [y m|x y l m H|x l m H IH]; intros K; inversion K; subst; eauto. Qed.
Lemma lex_irrefl (lt : Z -> Z -> Prop) (A : forall x, lt x x -> False) l : lex lt l l -> False.
Proof. induction l as [|x l IH]; intros K; inversion K; subst; eauto. Qed.
Lemma lex_total (lt : Z -> Z -> Prop) (T : forall x y, lt x y \/ x = y \/ lt y x) l : forall m, lex lt l m \/ l = m \/ lex lt m l.
Proof.
  induction l as [|x l IH]; intros [|y m]; auto; [left; constructor|right; right; constructor|].
  destruct (T x y) as [H|[<-|H]]; [left; apply lex_here; exact H| |right; right; apply lex_here; exact H].
  destruct (IH m) as [K|[<-|K]]; [left; apply lex_next; exact K|auto|right; right; apply lex_next; exact K].
Qed.

Lemma enc8_mono c d : 0 <= c < d -> d <= 0x10FFFF -> slt (enc8 c) (enc8 d).
Proof.
  intros H K. unfold enc8.
  destruct (Z.ltb_spec c 0x80), (Z.ltb_spec d 0x80); try lia;
    [apply slt_here; lia|destruct (Z.ltb_spec d 0x800); [|destruct (Z.ltb_spec d 0x10000)]; apply slt_here; zdm|].
  destruct (Z.ltb_spec c 0x800), (Z.ltb_spec d 0x800); try lia;
    [apply slt_next'; [zdm|intros E; apply slt_here; zdm]|destruct (Z.ltb_spec d 0x10000); apply slt_here; zdm|].
  destruct (Z.ltb_spec c 0x10000), (Z.ltb_spec d 0x10000); try lia; [|apply slt_here; zdm|].
  - apply slt_next'; [zdm|]. intros E. apply slt_next'; [zdm|]. intros E'. apply slt_here. zdm.
  - apply slt_next'; [zdm|]. intros E. apply slt_next'; [zdm|]. intros E'. apply slt_next'; [zdm|]. intros E2. apply slt_here. zdm.
Qed.
Lemma enc16_mono c d : scalar c -> scalar d -> less16 c d -> slt (enc16 c) (enc16 d).
Proof.
  unfold scalar, less16, enc16. intros H K L.
  destruct (Z.leb_spec 0x10000 c), (Z.leb_spec 0x10000 d), (Z.ltb_spec c 0x10000), (Z.ltb_spec d 0x10000); try lia; try (apply slt_here; zdm).
  apply slt_next'; [zdm|]. intros E. apply slt_here. zdm.
Qed.

Section Order.
Variables (seq : Z -> list Z -> Prop) (cont : Z -> Prop) (lt : Z -> Z -> Prop).
Hypothesis G : good_seq seq cont.
Hypothesis mono : forall c d u v, seq c u -> seq d v -> lt c d -> slt u v.
Hypothesis total : forall x y, lt x y \/ x = y \/ lt y x.
Lemma lex_units cs ds : lex lt cs ds -> forall us vs, encodes seq cs us -> encodes seq ds vs -> lex Z.lt us vs.
Proof.
  induction 1 as [y m|x y l m H|x l m H IH]; intros us vs Hu Hv.
  - inversion Hu; subst. inversion Hv as [|? u ? us Hs He]; subst. destruct (gs_shape _ _ G _ _ Hs) as (w & t & -> & _). constructor.
  - inversion Hu as [|? u ? us' Hs He]; subst. inversion Hv as [|? v ? vs' Ht Hf]; subst. apply slt_lex. eapply mono; eauto.
  - inversion Hu as [|? u ? us' Hs He]; subst. inversion Hv as [|? v ? vs' Ht Hf]; subst. rewrite (gs_inj _ _ G _ _ _ Ht Hs). apply lex_prefix. auto.
Qed.
Lemma lex_units_iff cs ds us vs : encodes seq cs us -> encodes seq ds vs -> (lex Z.lt us vs <-> lex lt cs ds).
Proof.
  intros Hu Hv. split; [|intros; eapply lex_units; eauto]. intros L.
  destruct (lex_total lt total cs ds) as [K|[<-|K]]; [exact K| |].
  - rewrite (encodes_fun G _ _ _ Hu Hv) in L. exfalso. apply lex_irrefl in L; [exact L|]. intros x. lia.
  - exfalso. eapply lex_asym; [| |exact L|eapply lex_units; eauto]; intros; lia.
Qed.
End Order.

Lemma pattern_small b v : holds b false v -> pattern b v = v.
Proof. unfold holds, pattern. intros H. apply Z.mod_small. exact H. Qed.
Lemma map_id_on f (l : list Z) (P : Z -> Prop) : (forall x, P x -> f x = x) -> Forall P l -> map f l = l.
Proof. intros E. induction 1; simpl; [reflexivity|]. rewrite E, IHForall; auto. Qed.
Lemma means_units p s a cs : is_utf16 p s = false \/ et_signed (et_of p s) = false -> means p s a cs -> compared s a = map (pattern (et_bits (et_of p s))) a.
Proof.
  assert (K : forall b, Forall (holds b false) a -> a = map (pattern b) a) by (intros b H; symmetry; eapply map_id_on; [|exact H]; apply pattern_small).
  intros O (Ha & H). destruct s; simpl in *; auto.
  destruct (wchar_32 p) eqn:W; simpl in *.
  - destruct (wchar_signed p); [|auto].
    assert (Q : Forall (fun v => 0 <= v <= 0x10FFFF) (map (pattern 32) a)).
    { clear - H. remember (map (pattern 32) a) as us. clear Hequs. induction H as [|c u cs us Hs He IH]; [constructor|]. apply Forall_app. split; [|exact IH].
      destruct Hs as [c Hc]. repeat constructor; unfold scalar in Hc; lia. }
    clear - Ha Q. induction a as [|v a IH]; [reflexivity|]. inversion Ha as [|? ? Hv Ha']; subst. inversion Q as [|? ? Hq Q']; subst. simpl. rewrite <- IH by auto. f_equal.
    unfold holds, pattern in *. change (2 ^ 32) with 4294967296 in *. change (2 ^ (32 - 1)) with 2147483648 in *. zdm.
  - destruct O as [O|O]; [discriminate|]. rewrite O in Ha. auto.
Qed.

Theorem order_of_text p s a b cs ds : is_utf16 p s = false -> means p s a cs -> means p s b ds -> (string_less s a b <-> lex Z.lt cs ds).
Proof.
  intros O Ha Hb. unfold string_less. rewrite (means_units p s a cs), (means_units p s b ds) by auto.
  apply (lex_units_iff _ _ Z.lt (f_good _ _ _ _ (form_of p s))); [|intros; lia|apply Ha|apply Hb].
  assert (E8 : forall c d u v, seq8 c u -> seq8 d v -> c < d -> slt u v).
  { intros c d u v Hu Hv L. pose proof (gs_scalar _ _ good8 _ _ Hu) as Sc. pose proof (gs_scalar _ _ good8 _ _ Hv) as Sd.
    rewrite (gs_inj _ _ good8 _ _ _ Hu (enc8_seq c Sc)), (gs_inj _ _ good8 _ _ _ Hv (enc8_seq d Sd)). apply enc8_mono; unfold scalar in *; lia. }
  assert (E32 : forall c d u v, seq32 c u -> seq32 d v -> c < d -> slt u v) by (intros c d u v [] [] L; apply slt_here; exact L).
  destruct s; simpl in O |- *; try discriminate; auto. destruct (wchar_32 p); [auto|discriminate].
Qed.
Theorem order_of_utf16 p s a b cs ds : is_utf16 p s = true -> et_signed (et_of p s) = false -> means p s a cs -> means p s b ds ->
  (string_less s a b <-> lex less16 cs ds).
Proof.
  intros O U Ha Hb. unfold string_less. rewrite (means_units p s a cs), (means_units p s b ds) by auto.
  apply (lex_units_iff _ _ less16 (f_good _ _ _ _ (form_of p s))); [| |apply Ha|apply Hb].
  - assert (E16 : forall c d u v, seq16 c u -> seq16 d v -> less16 c d -> slt u v).
    { intros c d u v Hu Hv L. pose proof (gs_scalar _ _ good16 _ _ Hu) as Sc. pose proof (gs_scalar _ _ good16 _ _ Hv) as Sd.
      rewrite (gs_inj _ _ good16 _ _ _ Hu (enc16_seq c Sc)), (gs_inj _ _ good16 _ _ _ Hv (enc16_seq d Sd)). apply enc16_mono; assumption. }
    destruct s; simpl in O |- *; try discriminate; auto. destruct (wchar_32 p); [discriminate|auto].
  - intros x y. unfold less16. destruct (Z.leb_spec 0x10000 x), (Z.leb_spec 0x10000 y); lia.
Qed.
Theorem conversions_keep_order p src dst a b m n : is_utf16 p src = false -> is_utf16 p dst = false -> text p src a -> text p src b ->
  to_type p dst src a = Ret m -> to_type p dst src b = Ret n -> (string_less dst m n <-> string_less src a b).
Proof.
  intros O O' (Va & cs & Ha) (Vb & ds & Hb) Em En.
  destruct (convert_means p src dst a cs (conj Va Ha)) as (m' & Em' & Hm). destruct (convert_means p src dst b ds (conj Vb Hb)) as (n' & En' & Hn).
  rewrite Em in Em'. injection Em' as <-. rewrite En in En'. injection En' as <-.
  rewrite (order_of_text p dst m n cs ds O' Hm Hn), (order_of_text p src a b cs ds O (conj Va Ha) (conj Vb Hb)). reflexivity.
Qed.

(** * Sizes *)
Notation len l := (Z.of_nat (length l)).
Definition unit_bounds (seq : Z -> list Z -> Prop) (enc : Z -> list Z) (lo hi : Z) : Prop :=
  (forall c u, seq c u -> len u <= lo * len (enc c) /\ len (enc c) <= hi * len u) /\
  (1 <= lo * len (enc 0xFFFD) /\ len (enc 0xFFFD) <= hi).
Lemma decodes_size seq enc lo hi us cs : unit_bounds seq enc lo hi -> decodes seq us cs ->
  len us <= lo * len (flat_map enc cs) /\ len (flat_map enc cs) <= hi * len us.
Proof.
  intros (B & BB). induction 1 as [|c u us cs Hs H IH|u us cs _ H IH]; [simpl; lia| |].
  - specialize (B _ _ Hs). cbn [flat_map]. rewrite !app_length, !Nat2Z.inj_add. lia.
  - cbn [flat_map]. rewrite app_length. cbn [length]. rewrite Nat2Z.inj_succ, Nat2Z.inj_add. lia.
Qed.
Lemma conv_size seq bits t t' enc f lo hi : unit_bounds seq enc lo hi -> conv_spec seq bits (values t) t' enc f ->
  forall a m, Forall (values t) a -> f a [] = Ret m -> len a <= lo * len m /\ len m <= hi * len a.
Proof.
  intros B S a m Ha E. destruct (S a [] Ha) as (cs & E' & D). rewrite E in E'. injection E' as ->. cbn [app].
  apply (decodes_size _ _ _ _ _ _ B) in D. rewrite map_length in *. exact D.
Qed.
Lemma len8 c u : seq8 c u -> len (enc16 c) <= len u <= 3 * len (enc16 c) /\ 1 <= len u <= 4.
Proof. intros H. unfold enc16. destruct H; match goal with |- context [if ?x <? ?y then _ else _] => destruct (Z.ltb_spec x y) end; simpl; lia. Qed.
Lemma len16 c u : seq16 c u -> len u <= len (enc8 c) <= 3 * len u /\ 1 <= len u <= 2.
Proof.
  intros H. unfold enc8. destruct H; repeat match goal with |- context [if ?x <? ?y then _ else _] => destruct (Z.ltb_spec x y) end; simpl; lia.
Qed.
Lemma len_enc8 c : 1 <= len (enc8 c) <= 4.
Proof. unfold enc8. repeat match goal with |- context [if ?x <? ?y then _ else _] => destruct (Z.ltb_spec x y) end; simpl; lia. Qed.
Lemma len_enc16 c : 1 <= len (enc16 c) <= 2.
Proof. unfold enc16. destruct (c <? 0x10000); simpl; lia. Qed.
Lemma b_8_16 : unit_bounds seq8 enc16 3 1.
Proof. split; [intros c u H; apply len8 in H; lia|simpl; lia]. Qed.
Lemma b_8_32 : unit_bounds seq8 enc32 4 1.
Proof. split; [intros c u H; apply len8 in H; change (len (enc32 c)) with 1; lia|simpl; lia]. Qed.
Lemma b_16_8 : unit_bounds seq16 enc8 1 3.
Proof. split; [intros c u H; apply len16 in H; lia|simpl; lia]. Qed.
Lemma b_16_32 : unit_bounds seq16 enc32 2 1.
Proof. split; [intros c u H; apply len16 in H; change (len (enc32 c)) with 1; lia|simpl; lia]. Qed.
Lemma b_32_8 : unit_bounds seq32 enc8 1 4.
Proof. split; [intros c u [c' _]; pose proof (len_enc8 c'); change (len [c']) with 1; lia|simpl; lia]. Qed.
Lemma b_32_16 : unit_bounds seq32 enc16 1 2.
Proof. split; [intros c u [c' _]; pose proof (len_enc16 c'); change (len [c']) with 1; lia|simpl; lia]. Qed.

Theorem conversion_sizes p src dst a m : Forall (holds (et_bits (et_of p src)) (et_signed (et_of p src))) a -> to_type p dst src a = Ret m ->
  len a <= least (et_bits (et_of p src)) (et_bits (et_of p dst)) * len m /\
  len m <= most (et_bits (et_of p src)) (et_bits (et_of p dst)) * len a.
Proof.
  intros Ha E. pose proof (is_ulong_of p) as UL. fold (values (et_of p src)) in Ha.
  assert (C : forall t, copy_units t a = Ret m -> len a <= 1 * len m /\ len m <= 1 * len a).
  { intros t Q. rewrite copy_units_spec in Q. injection Q as <-. rewrite map_length. lia. }
  assert (I : Ret a = Ret m -> len a <= 1 * len m /\ len m <= 1 * len a) by (intros [= ->]; lia).
  destruct src, dst; cbn [to_type str wstr u8str u16str u32str et_of et_bits et_signed] in Ha, E |- *;
    try (match type of E with context [if wchar_32 p then _ else _] => destruct (wchar_32 p) end); cbv beta iota delta [least most Z.eqb Pos.eqb];
    match type of E with
    | Ret _ = _ => try (destruct (wchar_32 p)); exact (I E)
    | copy_units _ _ = _ => exact (C _ E)
    | utf8_to_utf16 _ _ _ = _ => exact (conv_size _ _ _ _ _ _ _ _ b_8_16 (c_8_16 _ _) a m Ha E)
    | utf16_to_utf8 _ _ _ = _ => exact (conv_size _ _ _ _ _ _ _ _ b_16_8 (c_16_8 _ _) a m Ha E)
    | utf16_to_utf32 _ _ _ = _ => exact (conv_size _ _ _ _ _ _ _ _ b_16_32 (c_16_32 _ _) a m Ha E)
    | utf8_to_utf32 _ _ _ = _ => refine (conv_size _ _ _ _ _ _ _ _ b_8_32 (c_8_32 _ _ _) a m Ha E); reflexivity
    | utf32_to_utf8 _ _ _ _ = _ => refine (conv_size _ _ _ _ _ _ _ _ b_32_8 (c_32_8 _ _ _ _ UL) a m Ha E); reflexivity
    | utf32_to_utf16 _ _ _ _ = _ => refine (conv_size _ _ _ _ _ _ _ _ b_32_16 (c_32_16 _ _ _ _ UL) a m Ha E); reflexivity
    end.
Qed.

(** the bounds are reached *)
Definition spelled (p : platform) (s : str_type) (c : Z) : list Z := map (cast (et_of p s)) (enc_of p s c).
Lemma spelled_means p s c : scalar c -> means p s (spelled p s c) [c].
Proof.
  intros H. pose proof (form_of p s) as F. unfold spelled. split.
  - apply Forall_map. apply Forall_forall. intros x _. apply cast_holds. apply (f_bits _ _ _ _ F).
  - rewrite map_map. pose proof (f_range _ _ _ _ F c _ (f_enc _ _ _ _ F c H)) as R.
    rewrite (map_id_on _ _ (fun x => 0 <= x < 2 ^ et_bits (et_of p s))); [|intros x Hx; apply pattern_cast; [apply (f_bits _ _ _ _ F)|exact Hx]|exact R].
    rewrite <- (app_nil_r (enc_of p s c)). constructor; [apply (f_enc _ _ _ _ F c H)|constructor].
Qed.
Fixpoint times (n : nat) (l : list Z) : list Z := match n with O => [] | S n' => l ++ times n' l end.
Lemma times_len n l : len (times n l) = Z.of_nat n * len l.
Proof. induction n as [|n IH]; [reflexivity|]. cbn [times]. rewrite app_length, Nat2Z.inj_add, IH, Nat2Z.inj_succ. lia. Qed.
Lemma times_means p s c n : scalar c -> means p s (times n (spelled p s c)) (repeat c n).
Proof. intros H. induction n as [|n IH]; [apply M_nil|]. cbn [times repeat]. apply (M_app p s _ _ [c]); [apply spelled_means; exact H|exact IH]. Qed.
Lemma convert_times p src dst c n : scalar c -> text p src (times n (spelled p src c)) /\ to_type p dst src (times n (spelled p src c)) = Ret (times n (spelled p dst c)).
Proof.
  intros H. pose proof (times_means p src c n H) as Hm. split; [split; [apply Hm|exists (repeat c n); apply Hm]|].
  destruct (convert_means p src dst _ _ Hm) as (m & E & K). rewrite E. f_equal. exact (M_inj p dst _ _ _ K (times_means p dst c n H)).
Qed.
Theorem conversion_sizes_reached p src dst n :
  (exists a m, text p src a /\ to_type p dst src a = Ret m /\ len a = Z.of_nat n /\ len m = most (et_bits (et_of p src)) (et_bits (et_of p dst)) * Z.of_nat n) /\
  (et_bits (et_of p src) < et_bits (et_of p dst) -> exists a m, text p src a /\ to_type p dst src a = Ret m /\ len m = Z.of_nat n /\
    len a = least (et_bits (et_of p src)) (et_bits (et_of p dst)) * Z.of_nat n).
Proof.
  assert (S : forall c, 0 <= c < 0xD800 \/ 0xE000 <= c <= 0x10FFFF -> scalar c) by (unfold scalar; lia).
  assert (K : forall c, scalar c -> forall x y, len (spelled p src c) = x -> len (spelled p dst c) = y -> exists a m, text p src a /\ to_type p dst src a = Ret m /\ len a = Z.of_nat n * x /\ len m = Z.of_nat n * y).
  { intros c H x y <- <-. destruct (convert_times p src dst c n H) as (T & E). do 2 eexists. split; [exact T|]. split; [exact E|]. rewrite !times_len. auto. }
  assert (K1 : forall c y, scalar c -> len (spelled p src c) = 1 -> len (spelled p dst c) = y -> exists a m, text p src a /\ to_type p dst src a = Ret m /\ len a = Z.of_nat n /\ len m = y * Z.of_nat n).
  { intros c y H E1 E2. destruct (K c H _ _ E1 E2) as (a & m & A & B & C & D). exists a, m. repeat (split; [first [assumption|lia]|]). lia. }
  assert (K2 : forall c x, scalar c -> len (spelled p src c) = x -> len (spelled p dst c) = 1 -> exists a m, text p src a /\ to_type p dst src a = Ret m /\ len m = Z.of_nat n /\ len a = x * Z.of_nat n).
  { intros c x H E1 E2. destruct (K c H _ _ E1 E2) as (a & m & A & B & C & D). exists a, m. repeat (split; [first [assumption|lia]|]). lia. }
  clear K. destruct p as [cs ws [|] ul], src, dst; (split; [|cbn [et_of et_bits wchar_32]; intros L; try lia]);
    first [ apply (K1 0x41); [apply S; lia|reflexivity|reflexivity]
          | apply (K1 0x800); [apply S; lia|reflexivity|reflexivity]
          | apply (K1 0x10000); [apply S; lia|reflexivity|reflexivity]
          | apply (K2 0x800); [apply S; lia|reflexivity|reflexivity]
          | apply (K2 0x10000); [apply S; lia|reflexivity|reflexivity] ].
Qed.
