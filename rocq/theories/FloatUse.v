(** min, max, sort, search, abs, sums into integers and round of floating-point numbers. *)
From Coq Require Import List Bool Arith ZArith Floats.SpecFloat Lia Permutation.
From Verif Require Import Base SeqModel SeqSpec SeqProofs AlgoModel AlgoProofs FloatModel FloatSpec FloatProofs FloatSum.
Import ListNotations.
Open Scope outcome_scope.
Local Open Scope Z_scope.

(** ** the loop of min for elements some of which have no key *)
Section Keys.
Context {A : Type}.
Variables (less : A -> A -> bool) (key : A -> option Z) (P : A -> Prop).
Hypothesis less_by_key : forall x y, P x -> P y -> less x y = match key x, key y with Some a, Some b => a <? b | _, _ => false end.
Definition leads (l : list A) (i : nat) (x : A) (k : Z) : Prop :=
  nth_error l i = Some x /\ key x = Some k /\ (forall z kz, In z l -> key z = Some kz -> k <= kz) /\
  (forall j z kz, (j < i)%nat -> nth_error l j = Some z -> key z = Some kz -> k < kz).
Lemma nth_error_last (pre : list A) y j z : nth_error (pre ++ [y]) j = Some z -> (nth_error pre j = Some z /\ (j < length pre)%nat) \/ (j = length pre /\ z = y).
Proof.
  intros E. destruct (Nat.lt_ge_cases j (length pre)) as [L|L]; [rewrite nth_error_app1 in E by exact L; auto|].
  rewrite nth_error_app2 in E by exact L. destruct (j - length pre)%nat as [|k] eqn:D; cbn in E; [right; split; [lia|congruence]|destruct k; discriminate].
Qed.
Lemma min_loop_key : forall rest pre i b k, Forall P (pre ++ rest) -> leads pre i b k ->
  exists i' x k', min_loop less (length pre) rest (Some (i, b)) = Some (i', x) /\ leads (pre ++ rest) i' x k'.
Proof.
  induction rest as [|y rest IH]; intros pre i b k Fp L; cbn [min_loop].
  - rewrite app_nil_r. eauto.
  - replace (length pre + 1)%nat with (length (pre ++ [y])) by (rewrite app_length; reflexivity).
    assert (Fp' : Forall P ((pre ++ [y]) ++ rest)) by (rewrite <- app_assoc; exact Fp).
    replace (pre ++ y :: rest) with ((pre ++ [y]) ++ rest) by (rewrite <- app_assoc; reflexivity).
    destruct L as (Ei & Kb & Le & Lt). assert (Pb : P b) by (rewrite Forall_forall in Fp; apply Fp, in_or_app; left; apply nth_error_In with (1 := Ei)).
    assert (Py : P y) by (rewrite Forall_forall in Fp; apply Fp, in_or_app; right; left; reflexivity).
    assert (Li : (i < length pre)%nat) by (apply nth_error_Some; congruence).
    rewrite (less_by_key y b Py Pb), Kb. destruct (key y) as [ky|] eqn:Ky; [destruct (Z.ltb_spec ky k) as [C|C]|].
    + apply (IH _ _ _ ky Fp'). split; [rewrite nth_error_app2, Nat.sub_diag by lia; reflexivity|]. split; [exact Ky|]. split.
      * intros z kz I Kz. apply in_app_or in I. destruct I as [I|[<-|[]]]; [specialize (Le z kz I Kz); lia|]. assert (kz = ky) by congruence. lia.
      * intros j z kz J E Kz. apply nth_error_last in E. destruct E as [[E _]|[-> ->]]; [|lia]. specialize (Le z kz (nth_error_In _ _ E) Kz). lia.
    + apply (IH _ _ _ k Fp'). split; [rewrite nth_error_app1 by exact Li; exact Ei|]. split; [exact Kb|]. split.
      * intros z kz I Kz. apply in_app_or in I. destruct I as [I|[<-|[]]]; [exact (Le z kz I Kz)|]. assert (kz = ky) by congruence. lia.
      * intros j z kz J E Kz. apply nth_error_last in E. destruct E as [[E _]|[-> ->]]; [|lia]. exact (Lt j z kz J E Kz).
    + apply (IH _ _ _ k Fp'). split; [rewrite nth_error_app1 by exact Li; exact Ei|]. split; [exact Kb|]. split.
      * intros z kz I Kz. apply in_app_or in I. destruct I as [I|[<-|[]]]; [exact (Le z kz I Kz)|congruence].
      * intros j z kz J E Kz. apply nth_error_last in E. destruct E as [[E _]|[-> ->]]; [|lia]. exact (Lt j z kz J E Kz).
Qed.
Lemma min_of_key x l k : Forall P (x :: l) -> key x = Some k -> exists i y k', min_of less (x :: l) = Ret (i, y) /\ leads (x :: l) i y k'.
Proof.
  intros Fp K. destruct (min_loop_key l [x] 0 x k) as (i & y & k' & E & L); [exact Fp| |].
  - split; [reflexivity|]. split; [exact K|]. split; [intros z kz [<-|[]] Kz; assert (kz = k) by congruence; lia|lia].
  - exists i, y, k'. unfold min_of. cbn [min_loop]. cbn [length] in E. change (0 + 1)%nat with 1%nat. rewrite E. auto.
Qed.
(** an element without a key at the start stays the result *)
Lemma min_loop_stuck : forall rest i j b, P b -> Forall P rest -> key b = None -> min_loop less j rest (Some (i, b)) = Some (i, b).
Proof.
  induction rest as [|y rest IH]; intros i j b Pb Fp K; cbn [min_loop]; [reflexivity|]. inversion Fp; subst. rewrite (less_by_key y b) by assumption.
  rewrite K. destruct (key y); apply IH; assumption.
Qed.
End Keys.

Section Format.
Variables prec emax : Z.
Hypothesis F : a_format prec emax.
Notation emin := (emin prec emax).
Notation units := (units prec emax).
Notation number := (number prec emax).
Notation below := (below prec emax).
Notation same := (same prec emax).
Notation rank := (rank prec emax).
Notation rounded := (rounded prec).
Notation representable := (representable prec emax).
Notation computes := (computes prec emax).
Notation one := (one prec emax).
Notation top := (2 ^ (emax - emin)).

(** ** order and equality *)
Definition key (x : spec_float) : option Z := if is_nan x then None else Some (rank x).
Lemma less_key x y : number x -> number y -> SFltb x y = match key x, key y with Some a, Some b => a <? b | _, _ => false end.
Proof.
  intros Nx Ny. unfold key. destruct (is_nan x) eqn:Hx; [destruct x; try discriminate; reflexivity|].
  destruct (is_nan y) eqn:Hy; [destruct y; try discriminate; apply nan_less_r|]. apply less_rank; assumption.
Qed.
Lemma less_key_flip x y : number x -> number y -> SFltb y x = match option_map Z.opp (key x), option_map Z.opp (key y) with Some a, Some b => a <? b | _, _ => false end.
Proof.
  intros Nx Ny. rewrite less_key by assumption. destruct (key x) as [a|], (key y) as [b|]; cbn; try reflexivity. unfold Z.ltb. rewrite Z.compare_opp. reflexivity.
Qed.
Lemma key_below x y : number x -> number y -> below x y <-> exists a b, key x = Some a /\ key y = Some b /\ a < b.
Proof.
  intros Nx Ny. rewrite (below_rank _ _ F x y Nx Ny). unfold key. destruct (is_nan x), (is_nan y); split.
  all: try (intros (H1 & H2 & _); discriminate). all: try (intros (a & b & H1 & H2 & _); discriminate).
  - intros (_ & _ & H). eauto.
  - intros (a & b & [= <-] & [= <-] & H). auto.
Qed.
Lemma key_some x a : key x = Some a -> is_nan x = false.
Proof. unfold key. destruct (is_nan x); [discriminate|reflexivity]. Qed.
Lemma min_ok_f x l : Forall number (x :: l) -> is_nan x = false -> exists i y, min_of SFltb (x :: l) = Ret (i, y) /\ first_least prec emax (x :: l) i y.
Proof.
  intros N Hx. destruct (min_of_key SFltb key number less_key x l (rank x) N) as (i & y & k & E & (Ei & K & Le & Lt)); [unfold key; rewrite Hx; reflexivity|].
  exists i, y. split; [exact E|]. rewrite Forall_forall in N. assert (Ny : number y) by (apply N, nth_error_In with (1 := Ei)).
  split; [exact Ei|]. split; [apply key_some with (1 := K)|]. split.
  - intros z I B. apply key_below in B; [|exact (N z I)|exact Ny]. destruct B as (a & b & Ka & Kb & L). specialize (Le z a I Ka). assert (b = k) by congruence. lia.
  - intros j z J E' Hz. assert (I : In z (x :: l)) by (apply nth_error_In with (1 := E')). apply key_below; [exact Ny|exact (N z I)|].
    assert (Kz : key z = Some (rank z)) by (unfold key; rewrite Hz; reflexivity). exists k, (rank z). repeat split; auto. exact (Lt j z _ J E' Kz).
Qed.
Lemma max_ok_f x l : Forall number (x :: l) -> is_nan x = false -> exists i y, max_of SFltb (x :: l) = Ret (i, y) /\ first_greatest prec emax (x :: l) i y.
Proof.
  intros N Hx. destruct (min_of_key (fun a b => SFltb b a) (fun a => option_map Z.opp (key a)) number less_key_flip x l (- rank x) N) as (i & y & k & E & (Ei & K & Le & Lt)); [unfold key; rewrite Hx; reflexivity|].
  exists i, y. split; [unfold max_of; rewrite max_is_min; exact E|]. rewrite Forall_forall in N. assert (Ny : number y) by (apply N, nth_error_In with (1 := Ei)).
  destruct (key y) as [ky|] eqn:Ky; [|discriminate]. injection K as <-.
  split; [exact Ei|]. split; [apply key_some with (1 := Ky)|]. split.
  - intros z I B. apply key_below in B; [|exact Ny|exact (N z I)]. destruct B as (a & b & Ka & Kb & L). specialize (Le z (- b) I). rewrite Kb in Le. specialize (Le eq_refl). assert (a = ky) by congruence. lia.
  - intros j z J E' Hz. assert (I : In z (x :: l)) by (apply nth_error_In with (1 := E')). apply key_below; [exact (N z I)|exact Ny|].
    assert (Kz : key z = Some (rank z)) by (unfold key; rewrite Hz; reflexivity). exists (rank z), ky. repeat split; auto. specialize (Lt j z (- rank z) J E'). rewrite Kz in Lt. specialize (Lt eq_refl). lia.
Qed.
Lemma min_max_nan_first x l : is_nan x = true -> min_of SFltb (x :: l) = Ret (0%nat, x) /\ max_of SFltb (x :: l) = Ret (0%nat, x).
Proof.
  intros Hx. destruct x; try discriminate.
  assert (Lo : forall l j, min_loop SFltb j l (Some (0%nat, S754_nan)) = Some (0%nat, S754_nan)) by (clear; induction l as [|y l IH]; intros j; cbn [min_loop]; [reflexivity|]; rewrite nan_less_r; apply IH).
  assert (Hi : forall l j, max_loop SFltb j l (Some (0%nat, S754_nan)) = Some (0%nat, S754_nan)) by (clear; induction l as [|y l IH]; intros j; cbn [max_loop]; [reflexivity|]; rewrite nan_less_l; apply IH).
  unfold min_of, max_of. cbn [min_loop max_loop]. rewrite Lo, Hi. auto.
Qed.
Lemma two_nan x y : is_nan x = true \/ is_nan y = true -> min2 SFltb x y = false /\ max2 SFltb x y = false.
Proof. unfold min2, max2. intros [H|H]; [destruct x; try discriminate|destruct y; try discriminate]; rewrite nan_less_r; split; auto. Qed.
Lemma two_ok x y : number x -> number y -> (min2 SFltb x y = true <-> below y x) /\ (max2 SFltb x y = true <-> below x y).
Proof. intros Nx Ny. split; apply (less_below _ _ F); assumption. Qed.
Lemma same_rank x y : number x -> number y -> same x y <-> is_nan x = false /\ is_nan y = false /\ rank x = rank y.
Proof.
  intros Nx Ny. pose proof (top_pos _ _ F) as T. pose proof (units_bound _ _ F x Nx). pose proof (units_bound _ _ F y Ny).
  destruct x as [s1|[]| |s1 m1 e1]; destruct y as [s2|[]| |s2 m2 e2]; cbn [FloatSpec.same is_nan FloatProofs.rank] in *; intuition (try discriminate; try lia).
Qed.
Lemma eq_same x y : number x -> number y -> SFeqb x y = true <-> same x y.
Proof.
  intros Nx Ny. rewrite same_rank by assumption. destruct (is_nan x) eqn:Hx; [destruct x; try discriminate; split; [discriminate|intros [H _]; discriminate]|].
  destruct (is_nan y) eqn:Hy; [destruct y; try discriminate; rewrite nan_eq_r; split; [discriminate|intros (_ & H & _); discriminate]|].
  rewrite (eq_rank _ _ F) by assumption. rewrite Z.eqb_eq. tauto.
Qed.
(** ** search *)
Lemma search_nan l v : is_nan v = true -> find_elem SFeqb l v = length l /\ rfind_elem SFeqb l v = length l /\ contains_elem SFeqb l v = false /\ count SFeqb l v = 0%nat.
Proof.
  intros Hv. destruct v; try discriminate. assert (E : forall x, In x l -> SFeqb x S754_nan = false) by (intros; apply nan_eq_r).
  assert (Fi : find_elem SFeqb l S754_nan = length l).
  { clear E. unfold find_elem. induction l as [|x l IH]; cbn [std_find_if length]; [reflexivity|]. rewrite nan_eq_r, IH. reflexivity. }
  split; [exact Fi|]. split; [|split].
  - destruct (rfind_if_ok (fun x => SFeqb x S754_nan) l) as [(x & _ & H & _)|[H _]]; [rewrite nan_eq_r in H; discriminate|exact H].
  - unfold contains_elem. rewrite Fi, Nat.eqb_refl. reflexivity.
  - rewrite count_value_ok, (filter_none _ l E). reflexivity.
Qed.
Lemma equals_nan (a b : list spec_float) : Exists (fun x => is_nan x = true) a \/ Exists (fun x => is_nan x = true) b -> equals SFeqb a b = false.
Proof.
  intros H. destruct (equals SFeqb a b) eqn:E; [|reflexivity]. exfalso. apply equals_ok in E.
  assert (K : forall x y, SFeqb x y = true -> is_nan x = false /\ is_nan y = false).
  { intros x y Q. destruct x, y; try discriminate; auto. }
  induction E as [|x y a b Q E IH]; [destruct H as [H|H]; inversion H|]. destruct (K x y Q). destruct H as [H|H]; inversion H; subst; try congruence; apply IH; auto.
Qed.
Lemma equals_values a b : Forall number a -> Forall number b -> equals SFeqb a b = true <-> Forall2 same a b.
Proof.
  intros Na Nb. rewrite equals_ok. split; intros H.
  - induction H as [|x y a b Q E IH]; constructor; inversion Na; inversion Nb; subst; [apply eq_same; assumption|apply IH; assumption].
  - induction H as [|x y a b Q E IH]; constructor; inversion Na; inversion Nb; subst; [apply eq_same; assumption|apply IH; assumption].
Qed.
Lemma contains_value l v : Forall number l -> number v -> contains_elem SFeqb l v = true <-> exists x, In x l /\ same x v.
Proof.
  intros N Nv. rewrite contains_elem_ok. rewrite Forall_forall in N. split; intros (x & I & H); exists x; (split; [exact I|]); apply eq_same; auto.
Qed.
(** ** sort *)
Definition mixed (l : list spec_float) : Prop := exists n x y, In n l /\ In x l /\ In y l /\ is_nan n = true /\ below x y.
Lemma mixed_dec l : Forall number l -> {mixed l} + {~ mixed l}.
Proof.
  intros N. rewrite Forall_forall in N.
  destruct (existsb is_nan l && existsb (fun x => existsb (fun y => SFltb x y) l) l)%bool eqn:E.
  - left. apply andb_true_iff in E. destruct E as [E1 E2]. apply existsb_exists in E1. destruct E1 as (n & In' & Hn). apply existsb_exists in E2. destruct E2 as (x & Ix & E2).
    apply existsb_exists in E2. destruct E2 as (y & Iy & E2). exists n, x, y. repeat split; try assumption. apply (less_below _ _ F); auto.
  - right. intros (n & x & y & I1 & I2 & I3 & Hn & B). apply andb_false_iff in E. destruct E as [E|E].
    + assert (X : existsb is_nan l = true) by (apply existsb_exists; eauto). congruence.
    + assert (X : existsb (fun x => existsb (fun y => SFltb x y) l) l = true).
      { apply existsb_exists. exists x. split; [exact I2|]. apply existsb_exists. exists y. split; [exact I3|]. apply (less_below _ _ F); auto. }
      congruence.
Qed.
Lemma strict_weak_iff l : Forall number l -> strict_weak_on SFltb l <-> ~ mixed l.
Proof.
  intros N. rewrite Forall_forall in N. split.
  - intros (_ & _ & T) (n & x & y & I1 & I2 & I3 & Hn & B). destruct n; try discriminate. apply (less_below _ _ F) in B; [|auto..].
    destruct (T x S754_nan y I2 I1 I3) as [X _]; try apply nan_less_r; try apply nan_less_l. congruence.
  - intros M. split; [|split].
    + intros x I. rewrite less_key by auto. destruct (key x) as [a|]; [apply Z.ltb_irrefl|reflexivity].
    + intros x y z Ix Iy Iz. rewrite !less_key by auto. destruct (key x), (key y), (key z); try discriminate. rewrite !Z.ltb_lt. lia.
    + intros x y z Ix Iy Iz. destruct (is_nan y) eqn:Hy.
      * intros _ _ _ _. assert (K : forall u w, In u l -> In w l -> SFltb u w = false).
        { intros u w Iu Iw. destruct (SFltb u w) eqn:E; [|reflexivity]. exfalso. apply M. exists y, u, w. repeat split; try assumption. apply (less_below _ _ F); auto. }
        split; apply K; assumption.
      * rewrite !less_key by auto. assert (Ky : key y = Some (rank y)) by (unfold key; rewrite Hy; reflexivity). rewrite Ky.
        destruct (key x), (key z); try (intros; split; reflexivity). rewrite !Z.ltb_ge. lia.
Qed.
Lemma sort_undefined l : Forall number l -> sort SFltb l Ub <-> mixed l.
Proof.
  intros N. split.
  - intros H. inversion H as [K|]. destruct (mixed_dec l N) as [M|M]; [exact M|]. exfalso. apply K, strict_weak_iff; assumption.
  - intros M. apply sort_ub. intros K. apply strict_weak_iff in K; auto.
Qed.
Lemma sort_mixed_only l o : Forall number l -> mixed l -> sort SFltb l o -> o = Ub.
Proof. intros N M H. inversion H as [|l' K]; [reflexivity|]. exfalso. apply strict_weak_iff in K; auto. Qed.
Lemma sort_unmixed l o : Forall number l -> ~ mixed l -> sort SFltb l o ->
  exists l', o = Ret l' /\ Permutation l l' /\ forall i j x y, (i < j)%nat -> nth_error l' i = Some x -> nth_error l' j = Some y -> ~ below y x.
Proof.
  intros N M H. destruct (sort_defined SFltb l o) as (l' & E & Pm & S); [apply strict_weak_iff; assumption|exact H|].
  exists l'. split; [exact E|]. split; [exact Pm|]. intros i j x y L Ex Ey B. assert (N' : Forall number l') by (apply Permutation_Forall with (1 := Pm); exact N). rewrite Forall_forall in N'.
  apply (less_below _ _ F) in B; [|apply N', nth_error_In with (1 := Ey)|apply N', nth_error_In with (1 := Ex)]. rewrite (S i j x y L Ex Ey) in B. discriminate.
Qed.
Lemma no_nan_unmixed l : Forall (fun x => is_nan x = false) l -> ~ mixed l.
Proof. intros H (n & x & y & I1 & _ & _ & Hn & _). rewrite Forall_forall in H. rewrite (H n I1) in Hn. discriminate. Qed.
(** ** abs, is_true and is_false *)
Lemma less_zero x : number x -> SFltb x zero = true <-> below x zero.
Proof. intros N. apply (less_below _ _ F); [exact N|reflexivity]. Qed.
Lemma abs_number x : number x -> number (abs_f x).
Proof. intros N. unfold abs_f. destruct (SFltb x zero); [|exact N]. destruct x; exact N. Qed.
Lemma abs_value x : number x ->
  number (abs_f x) /\ is_finite (abs_f x) = is_finite x /\ is_nan (abs_f x) = is_nan x /\ units (abs_f x) = Z.abs (units x) /\
  (is_nan x = false -> sign (abs_f x) = true <-> x = S754_zero true).
Proof.
  intros N. split; [apply abs_number, N|]. destruct x as [[]|[]| |s m e].
  1-5: unfold abs_f; cbn; repeat split; try reflexivity; intros; discriminate.
  pose proof (magnitude _ _ F _ _ _ N) as M. unfold abs_f. replace (SFltb (S754_finite s m e) zero) with s by (destruct s; reflexivity). split; [destruct s; reflexivity|]. split; [destruct s; reflexivity|].
  split; [|destruct s; cbn [SFopp negb sign]; split; discriminate]. destruct s; cbn [SFopp negb FloatSpec.units]; lia.
Qed.
Lemma is_false_zero x : is_false_f x = true <-> exists s, x = S754_zero s.
Proof.
  unfold is_false_f. split; [|intros (s & ->); reflexivity]. destruct x as [s|[]| |[] m e]; cbn; try discriminate. eauto.
Qed.
Lemma is_true_not_zero x : is_true_f x = true <-> ~ exists s, x = S754_zero s.
Proof. rewrite <- is_false_zero. unfold is_true_f, is_false_f. destruct (SFeqb x zero); cbn; split; congruence. Qed.
Lemma any_all_not_zero l :
  (any is_true_f l = true <-> exists x, In x l /\ ~ exists s, x = S754_zero s) /\
  (all is_true_f l = true <-> forall x, In x l -> ~ exists s, x = S754_zero s).
Proof.
  induction l as [| x l [IH1 IH2]]; cbn [any all]; [split; split; try easy; intros (? & [] & _) |].
  pose proof (is_true_not_zero x) as T. destruct (is_true_f x).
  - split; split.
    + intros _. exists x. split; [left; reflexivity | apply T; reflexivity].
    + reflexivity.
    + intros H y [<- | Hy]; [apply T; reflexivity | exact (proj1 IH2 H y Hy)].
    + intros H. apply IH2. intros y Hy. apply H. right. exact Hy.
  - assert (N : ~ ~ exists s, x = S754_zero s) by (intros C; apply T in C; discriminate). split; split.
    + intros H. destruct (proj1 IH1 H) as (y & Hy & Ny). exists y. split; [right; exact Hy | exact Ny].
    + intros (y & [<- | Hy] & Ny); [destruct (N Ny) | apply IH1; exists y; split; assumption].
    + discriminate.
    + intros H. destruct (N (H x (or_introl eq_refl))).
Qed.
(** ** conversions *)
Lemma one_pos : 0 < one.
Proof. unfold FloatSpec.one. apply pow2_pos. pose proof (emin_neg _ _ F). lia. Qed.
Lemma of_int_computes n : computes (of_int prec emax n) (n * one).
Proof.
  unfold of_int, FloatSpec.one. pose proof (emin_neg _ _ F). replace (- emin) with (0 - emin) by lia. apply (normalize_computes _ _ F). lia.
Qed.
Lemma small_int n : Z.abs n <= 2 ^ prec -> representable (n * one).
Proof.
  intros H. destruct F as [F1 F2]. pose proof (emin_neg _ _ F). unfold FloatSpec.one. apply (small_representable _ _ F (- emin)); [lia|lia|apply Z.divide_factor_r|].
  rewrite Z.abs_mul, (Z.abs_eq (2 ^ _)), pow2_add by (try (apply Z.lt_le_incl, pow2_pos); lia). apply Z.mul_le_mono_nonneg_r; [apply Z.lt_le_incl, pow2_pos; lia|exact H].
Qed.
Lemma of_int_exact n : Z.abs n <= 2 ^ prec -> number (of_int prec emax n) /\ is_finite (of_int prec emax n) = true /\ units (of_int prec emax n) = n * one.
Proof. intros H. pose proof (of_int_computes n) as C. split; [apply C|]. apply (computes_representable _ _ F _ _ C), small_int, H. Qed.
(** dropping the fraction *)
Lemma trunc_quot x : number x -> is_finite x = true -> trunc x = Ret (Z.quot (units x) one).
Proof.
  intros N Fi. pose proof one_pos as O. pose proof (emin_neg _ _ F) as En. destruct x as [s|s| |s m e]; try discriminate; cbn [trunc FloatSpec.units].
  - rewrite Z.quot_0_l by lia. reflexivity.
  - destruct (finite_bounds _ _ F _ _ _ N) as (B & _). f_equal. unfold FloatSpec.one in *.
    assert (K : (if e <? 0 then Zpos m / 2 ^ (- e) else Zpos m * 2 ^ e) = Z.quot (Zpos m * 2 ^ (e - emin)) (2 ^ (- emin))).
    { destruct (Z.ltb_spec e 0).
      - replace (2 ^ (- emin)) with (2 ^ (- e) * 2 ^ (e - emin)) by (rewrite <- pow2_add by lia; f_equal; lia). pose proof (pow2_pos (- e) ltac:(lia)). pose proof (pow2_pos (e - emin) ltac:(lia)).
        rewrite Z.quot_mul_cancel_r, Z.quot_div_nonneg by lia. reflexivity.
      - replace (2 ^ (e - emin)) with (2 ^ e * 2 ^ (- emin)) by (rewrite <- pow2_add by lia; f_equal; lia). rewrite Z.mul_assoc, Z.quot_mul by lia. reflexivity. }
    rewrite K. destruct s; cbn [cond_Zopp]; [rewrite <- Z.quot_opp_l by lia; f_equal; ring|f_equal; ring].
Qed.
Lemma to_int_quot bits sgn x : number x -> is_finite x = true -> to_int bits sgn x = if fits bits sgn (Z.quot (units x) one) then Ret (Z.quot (units x) one) else Ub.
Proof. intros N Fi. unfold to_int. rewrite trunc_quot by assumption. reflexivity. Qed.
Lemma to_int_not_finite bits sgn x : is_finite x = false -> to_int bits sgn x = Ub.
Proof. destruct x; try discriminate; reflexivity. Qed.
(** ** sums into integers *)
Lemma sum_int_not_finite bits sgn c : forall v, Exists (fun x => is_finite x = false) c -> sum_int prec emax bits sgn c v = Ub.
Proof.
  induction c as [|x c IH]; intros v H; inversion H as [y l E|y l E]; subst; cbn [sum_int].
  - assert (K : is_finite (SFadd prec emax (of_int prec emax v) x) = false) by (destruct (is_finite (SFadd prec emax (of_int prec emax v) x)) eqn:Q; [apply add_finite in Q; destruct Q; congruence|reflexivity]).
    rewrite (to_int_not_finite _ _ _ K). reflexivity.
  - destruct (to_int bits sgn (SFadd prec emax (of_int prec emax v) x)) eqn:T; cbn; [apply IH; exact E|reflexivity|..]; unfold to_int, trunc in T.
    all: destruct (SFadd prec emax (of_int prec emax v) x); cbn in T; try discriminate; destruct (fits bits sgn _); discriminate.
Qed.
Lemma fits_in_type bits sgn z : fits bits sgn z = true <-> in_type bits sgn z.
Proof. unfold fits, in_type. destruct sgn; rewrite andb_true_iff, Z.leb_le, Z.ltb_lt; tauto. Qed.
Lemma in_type_small bits sgn z : bits < emax -> in_type bits sgn z -> Z.abs (z * one) < top.
Proof.
  intros H T. pose proof (emin_neg _ _ F) as En. pose proof one_pos as O. destruct F as [F1 F2]. assert (B : Z.abs z < 2 ^ emax).
  { unfold in_type in T. assert (2 ^ bits <= 2 ^ emax) by (apply pow2_le; lia). assert (2 ^ (bits - 1) <= 2 ^ emax) by (apply pow2_le; lia). assert (2 ^ (bits - 1) < 2 ^ emax) by (apply pow2_lt; lia). destruct sgn; lia. }
  rewrite Z.abs_mul, (Z.abs_eq one) by lia. replace (emax - emin) with (emax + - emin) by lia. rewrite pow2_add by lia. unfold FloatSpec.one in *. nia.
Qed.
Lemma of_int_nearest n : Z.abs n < 2 ^ (emax - 1) -> number (of_int prec emax n) /\ is_finite (of_int prec emax n) = true /\ nearest prec emax (n * one) (units (of_int prec emax n)).
Proof.
  intros B. destruct (of_int_computes n) as (N & [(Fi & U)|(_ & Ov)]).
  - split; [exact N|]. split; [exact Fi|]. rewrite U. apply (rounded_nearest _ _ F). rewrite <- U. apply (units_bound _ _ F), N.
  - exfalso. pose proof (overflow _ _ F (n * one) (2 ^ (emax - 1) * one) Ov) as K. destruct F as [F1 F2]. pose proof (emin_neg _ _ F) as En. pose proof one_pos as O. rewrite !Z.abs_mul in K. rewrite (Z.abs_eq one), (Z.abs_eq (2 ^ _)) in K by (try (apply Z.lt_le_incl, pow2_pos); lia).
    assert (R : representable (2 ^ (emax - 1) * one)).
    { unfold FloatSpec.one. rewrite <- pow2_add by lia. split; [exists 1, (emax - 1 + - emin); split; [lia|split; [lia|]]|]. - change (Z.abs 1) with (2 ^ 0). apply pow2_lt; lia. - rewrite Z.abs_eq by (apply Z.lt_le_incl, pow2_pos; lia). apply pow2_lt; lia. }
    specialize (K R). nia.
Qed.
Lemma to_int_defined bits sgn x : to_int bits sgn x = Ub \/ exists z, to_int bits sgn x = Ret z.
Proof. unfold to_int. destruct x as [s|s| |s m e]; cbn [trunc obind]; auto; destruct (fits bits sgn _); eauto. Qed.
Lemma sum_int_steps bits sgn c : bits < emax -> Forall number c -> forall v, in_type bits sgn v ->
  int_sum prec emax bits sgn c v (defined (sum_int prec emax bits sgn c v)) /\ (sum_int prec emax bits sgn c v = Ub \/ exists w, sum_int prec emax bits sgn c v = Ret w).
Proof.
  intros Hb. induction 1 as [|x c Nx Nc IH]; intros v V; cbn [sum_int].
  - split; [constructor|eauto].
  - destruct (is_finite x) eqn:Fx.
    2: { rewrite to_int_not_finite. { split; [apply int_sum_not_finite, Fx|left; reflexivity]. } destruct (is_finite (SFadd prec emax (of_int prec emax v) x)) eqn:Q; [apply add_finite in Q; destruct Q; congruence|reflexivity]. }
    assert (Bv : Z.abs v < 2 ^ (emax - 1) \/ Z.abs v <= 2 ^ prec).
    { left. destruct F as [F1 F2]. unfold in_type in V. assert (2 ^ bits <= 2 ^ (emax - 1)) by (apply pow2_le; lia). assert (2 ^ (bits - 1) < 2 ^ (emax - 1)) by (apply pow2_lt; lia). destruct sgn; lia. }
    assert (O : number (of_int prec emax v) /\ is_finite (of_int prec emax v) = true /\ nearest prec emax (v * one) (units (of_int prec emax v))).
    { destruct Bv as [Bv|Bv]; [exact (of_int_nearest v Bv)|]. destruct (of_int_exact v Bv) as (N & Fi & U). split; [exact N|]. split; [exact Fi|]. rewrite U. rewrite <- (rounded_representable _ _ F _ (small_int v Bv)) at 2. apply (rounded_nearest _ _ F). rewrite (rounded_representable _ _ F _ (small_int v Bv)). apply (small_int v Bv). }
    destruct O as (Nv & Fv & Rv). destruct (add_nearest _ _ F _ x Nv Nx Fv Fx) as (Nr & Big & Near). set (z := units (of_int prec emax v) + units x) in *.
    assert (D : too_large prec emax z \/ ~ too_large prec emax z) by (unfold too_large; lia). destruct D as [D|D].
    + rewrite (Big D). split; [|left; reflexivity]. cbn [to_int trunc obind defined]. exact (int_sum_overflow _ _ _ _ _ _ _ _ Fx Rv D).
    + destruct (Near D) as [Fr Rr]. rewrite to_int_quot by assumption. destruct (fits bits sgn (Z.quot (units (SFadd prec emax (of_int prec emax v) x)) one)) eqn:Ft; cbn [obind].
      * apply fits_in_type in Ft. destruct (IH _ Ft) as [I D']. split; [|exact D']. exact (int_sum_next _ _ _ _ _ _ _ _ _ _ Fx Rv D Rr Ft I).
      * split; [|left; reflexivity]. apply (int_sum_out _ _ _ _ _ _ _ _ _ Fx Rv D Rr). rewrite <- fits_in_type. congruence.
Qed.
(** the result is determined *)
Lemma int_sum_unique bits sgn c v o1 : int_sum prec emax bits sgn c v o1 -> forall o2, int_sum prec emax bits sgn c v o2 -> o1 = o2.
Proof.
  induction 1 as [v|x c v a r o Fx Na L Nr T I IH|x c v a r Fx Na L Nr T|x c v a Fx Na B|x c v Fx]; intros o2 H2;
    inversion H2 as [?|? ? ? a' r' ? Fx' Na' L' Nr' T' I'|? ? ? a' r' Fx' Na' L' Nr' T'|? ? ? a' Fx' Na' B'|? ? ? Fx']; subst; try congruence.
  all: try (assert (a' = a) by exact (nearest_unique _ _ _ _ _ Na' Na); subst a'). all: try (assert (r' = r) by exact (nearest_unique _ _ _ _ _ Nr' Nr); subst r'). all: try contradiction.
  apply IH, I'.
Qed.
(** elements that are integers *)
Lemma sum_int_exact bits sgn c ns : Forall2 (fun x n => number x /\ is_finite x = true /\ units x = n * one) c ns -> forall v,
  (forall k, (k <= length ns)%nat -> fits bits sgn (v + total (firstn k ns)) = true /\ Z.abs (v + total (firstn k ns)) <= 2 ^ prec) ->
  sum_int prec emax bits sgn c v = Ret (v + total ns).
Proof.
  induction 1 as [|x n c ns (Nx & Fx & Ux) H IH]; intros v P; cbn [sum_int].
  - f_equal. cbn. lia.
  - destruct (P 0%nat ltac:(lia)) as [_ B0]. cbn [firstn total fold_right] in B0. rewrite Z.add_0_r in B0. destruct (of_int_exact v B0) as (Nv & Fv & Uv).
    destruct (P 1%nat ltac:(cbn; lia)) as [B1 B2]. cbn [firstn total fold_right] in B1, B2. rewrite Z.add_0_r in B1, B2.
    pose proof (add_computes _ _ F _ x Nv Nx Fv Fx) as C. rewrite Uv, Ux, <- Z.mul_add_distr_r in C. destruct (computes_representable _ _ F _ _ C (small_int _ B2)) as (Fi & U).
    rewrite to_int_quot by (try apply C; exact Fi). pose proof one_pos. rewrite U, Z.quot_mul, B1 by lia. cbn [obind]. rewrite IH.
    + rewrite total_cons. f_equal. lia.
    + intros k L. specialize (P (S k)). cbn [firstn] in P. rewrite total_cons, Z.add_assoc in P. apply P. cbn. lia.
Qed.
(** elements up to one half are lost *)
Lemma add_half v x : 0 <= v < 2 ^ (prec - 1) -> number x -> is_finite x = true -> 0 <= units x -> 2 * units x <= one ->
  let r := SFadd prec emax (of_int prec emax v) x in number r /\ is_finite r = true /\ Z.quot (units r) one = v.
Proof.
  intros V Nx Fx U0 U1. destruct F as [F1 F2]. pose proof (emin_neg _ _ F) as En. pose proof one_pos as O.
  assert (Pp : 2 ^ prec = 2 * 2 ^ (prec - 1)) by (rewrite <- Z.pow_succ_r by lia; f_equal; lia). destruct (of_int_exact v) as (Nv & Fv & Uv); [lia|].
  pose proof (add_computes _ _ F _ x Nv Nx Fv Fx) as C. rewrite Uv in C. cbn zeta. set (r := SFadd prec emax (of_int prec emax v) x) in *.
  assert (Oh : one = 2 * 2 ^ (- emin - 1)) by (unfold FloatSpec.one; rewrite <- Z.pow_succ_r by lia; f_equal; lia).
  assert (Rh : representable ((2 * v + 1) * 2 ^ (- emin - 1))).
  { split; [exists (2 * v + 1), (- emin - 1); repeat split; lia|]. apply Z.le_lt_trans with (2 ^ prec * 2 ^ (- emin - 1)).
    - rewrite Z.abs_mul, (Z.abs_eq (2 ^ _)) by (apply Z.lt_le_incl, pow2_pos; lia). apply Z.mul_le_mono_nonneg_r; [apply Z.lt_le_incl, pow2_pos; lia|lia].
    - rewrite <- pow2_add by lia. apply pow2_lt; lia. }
  assert (Rv : representable (v * one)) by (apply small_int; lia).
  assert (Lo : v * one <= v * one + units x <= (2 * v + 1) * 2 ^ (- emin - 1)) by (rewrite Oh in *; lia).
  (* below the top *)
  assert (T : Z.abs (rounded (v * one + units x)) < top).
  { pose proof (rounded_relative _ _ F (v * one + units x)) as E. pose proof (prec_pos _ _ F).
    assert (Z.abs (v * one + units x) <= (2 * v + 1) * 2 ^ (- emin - 1)) by lia.
    assert (Bt : 2 * ((2 * v + 1) * 2 ^ (- emin - 1)) <= top).
    { apply Z.le_trans with (2 * (2 ^ prec * 2 ^ (- emin - 1))); [pose proof (pow2_pos (- emin - 1) ltac:(lia)); nia|]. rewrite <- pow2_add by lia. rewrite <- Z.pow_succ_r by lia. apply pow2_le. lia. }
    assert (K : Z.abs (rounded (v * one + units x) - (v * one + units x)) < Z.abs (v * one + units x) \/ v * one + units x = 0) by nia.
    destruct K as [K|K]; [lia|]. rewrite K. cbn. apply top_pos, F. }
  destruct (rounded_nearest _ _ F _ T) as (_ & Ne & _). pose proof (Ne _ Rh) as E1. pose proof (Ne _ Rv) as E2.
  destruct C as (Nr & [(Fr & Ur)|(_ & Ov)]); [|lia]. split; [exact Nr|]. split; [exact Fr|]. rewrite Ur.
  symmetry. apply Z.quot_unique with (rounded (v * one + units x) - v * one); [nia|rewrite Oh in *; lia|ring].
Qed.
Lemma sum_int_halves bits sgn c : Forall (fun x => number x /\ is_finite x = true /\ 0 <= units x /\ 2 * units x <= one) c ->
  forall v, 0 <= v < 2 ^ (prec - 1) -> fits bits sgn v = true -> sum_int prec emax bits sgn c v = Ret v.
Proof.
  induction 1 as [|x c (Nx & Fx & U0 & U1) H IH]; intros v V Fi; cbn [sum_int]; [reflexivity|]. destruct (add_half v x V Nx Fx U0 U1) as (Nr & Fr & Q).
  rewrite to_int_quot by assumption. rewrite Q, Fi. cbn [obind]. apply IH; assumption.
Qed.
(** a sum of integers in a floating-point type *)
Lemma sum_of_ints ns : total (map Z.abs ns) <= 2 ^ prec ->
  is_finite (sum_f prec emax (map (of_int prec emax) ns) zero) = true /\ units (sum_f prec emax (map (of_int prec emax) ns) zero) = total ns * one.
Proof.
  intros B. assert (Each : Forall (fun n => number (of_int prec emax n) /\ is_finite (of_int prec emax n) = true /\ units (of_int prec emax n) = n * one) ns).
  { rewrite Forall_forall. intros n I. apply of_int_exact. apply Z.le_trans with (2 := B). apply in_split in I. destruct I as (l1 & l2 & ->). rewrite map_app. cbn [map]. rewrite total_app, total_cons.
    pose proof (total_nonneg l1). pose proof (total_nonneg l2). lia. }
  assert (T : forall l, Forall (fun n => number (of_int prec emax n) /\ is_finite (of_int prec emax n) = true /\ units (of_int prec emax n) = n * one) l -> total (map units (map (of_int prec emax) l)) = total l * one).
  { induction 1 as [|n l (_ & _ & E) H IH]; [reflexivity|]. cbn [map]. rewrite !total_cons, E, IH. ring. }
  destruct (sum_exact _ _ F (map (of_int prec emax) ns) zero) as (A & B'); [reflexivity|reflexivity|..].
  - rewrite Forall_map. apply Forall_impl with (2 := Each). intros a (H & _). exact H.
  - rewrite Forall_map. apply Forall_impl with (2 := Each). intros a (_ & H & _). exact H.
  - intros k _. rewrite firstn_map. change (units zero) with 0. rewrite Z.add_0_l, T by (rewrite <- (firstn_skipn k ns) in Each; apply Forall_app in Each; apply Each).
    apply small_int. apply Z.le_trans with (2 := B). apply Z.le_trans with (1 := total_abs _). rewrite <- (firstn_skipn k ns) at 2. rewrite map_app, total_app. pose proof (total_nonneg (skipn k ns)). lia.
  - split; [exact A|]. rewrite B', (T ns Each). reflexivity.
Qed.
(** ** round *)
Lemma half_away m k : 1 <= k -> 0 <= m -> let q := (2 * m + 2 ^ k) / 2 ^ (k + 1) in
  0 <= q /\ q <= m /\ 2 * Z.abs (q * 2 ^ k - m) <= 2 ^ k /\ (2 * Z.abs (q * 2 ^ k - m) = 2 ^ k -> m < q * 2 ^ k).
Proof.
  intros K M. cbn zeta. pose proof (pow2_pos k ltac:(lia)) as P. rewrite Z.pow_add_r, Z.pow_1_r by lia. set (d := 2 ^ k) in *.
  assert (D2 : 2 <= d) by (unfold d; change 2 with (2 ^ 1) at 1; apply pow2_le; lia).
  pose proof (Z.div_mod (2 * m + d) (d * 2) ltac:(lia)) as E. pose proof (Z.mod_pos_bound (2 * m + d) (d * 2) ltac:(lia)) as B. set (q := (2 * m + d) / (d * 2)) in *. set (r := (2 * m + d) mod (d * 2)) in *.
  assert (Q0 : 0 <= q) by (apply Z.div_pos; lia). split; [exact Q0|]. split; [nia|]. split; nia.
Qed.
Lemma round_value x : number x -> is_finite x = true -> let r := round_f prec emax x in
  number r /\ is_finite r = true /\ sign r = sign x /\
  exists n, units r = n * one /\ 2 * Z.abs (n * one - units x) <= one /\ (2 * Z.abs (n * one - units x) = one -> Z.abs (units x) < Z.abs (n * one)).
Proof.
  intros N Fi. cbn zeta. pose proof one_pos as O. pose proof (emin_neg _ _ F) as En. destruct x as [s|s| |s m e]; try discriminate; cbn [round_f].
  - repeat split. exists 0. cbn. repeat split; lia.
  - destruct (finite_bounds _ _ F _ _ _ N) as (B1 & B2 & _). destruct F as [F1 F2]. destruct (Z.ltb_spec e 0) as [L|L].
    + destruct (half_away (Zpos m) (- e) ltac:(lia) ltac:(lia)) as (Q0 & Q1 & Q2 & Q3). replace (- e + 1) with (1 - e) in * by lia. set (q := (2 * Zpos m + 2 ^ (- e)) / 2 ^ (1 - e)) in *.
      assert (Pe : 0 < 2 ^ (e - emin)) by (apply pow2_pos; lia).
      assert (Os : one = 2 ^ (- e) * 2 ^ (e - emin)) by (unfold FloatSpec.one; rewrite <- pow2_add by lia; f_equal; lia).
      assert (W : forall sg, Z.abs sg = 1 -> let n := sg * q in 2 * Z.abs (n * one - sg * (Zpos m * 2 ^ (e - emin))) <= one /\
        (2 * Z.abs (n * one - sg * (Zpos m * 2 ^ (e - emin))) = one -> Z.abs (sg * (Zpos m * 2 ^ (e - emin))) < Z.abs (n * one))).
      { intros sg Hs. cbn zeta. rewrite Os. replace (sg * q * (2 ^ (- e) * 2 ^ (e - emin)) - sg * (Zpos m * 2 ^ (e - emin))) with (sg * (q * 2 ^ (- e) - Zpos m) * 2 ^ (e - emin)) by ring.
        rewrite !Z.abs_mul, Hs, (Z.abs_eq (2 ^ (e - emin))), (Z.abs_eq (2 ^ (- e))), (Z.abs_eq q), !Z.mul_1_l by (try (apply Z.lt_le_incl, pow2_pos); lia). pose proof (pow2_pos (- e) ltac:(lia)) as Pn. split; [nia|].
        intros Eq. rewrite Z.abs_eq by lia. assert (X : 2 * Z.abs (q * 2 ^ (- e) - Zpos m) = 2 ^ (- e)) by nia. specialize (Q3 X). nia. }
      destruct q as [|n|n] eqn:Eq; [|clear Eq|lia].
      * split; [reflexivity|]. split; [reflexivity|]. split; [reflexivity|]. exists 0. split; [reflexivity|]. cbn [FloatSpec.units].
        destruct (W (if s then -1 else 1)) as [W1 W2]; [destruct s; reflexivity|]. rewrite Z.mul_0_r in W1, W2. auto.
      * assert (R : representable ((if s then -1 else 1) * (Zpos n * one))).
        { replace ((if s then -1 else 1) * (Zpos n * one)) with ((if s then - Zpos n else Zpos n) * one) by (destruct s; ring). apply small_int. destruct s; lia. }
        destruct (round_spec _ _ F s n 0 ltac:(lia)) as (Nr & D). replace (2 ^ (0 - emin)) with one in D by (unfold FloatSpec.one; f_equal; lia).
        destruct D as [(_ & Ov)|(Fr & Sr & Ur & _)]; rewrite (rounded_representable _ _ F _ R) in *; [destruct R as [_ R]; lia|].
        split; [exact Nr|]. split; [exact Fr|]. split; [exact Sr|]. exists ((if s then -1 else 1) * Zpos n). split; [rewrite Ur; ring|]. cbn [FloatSpec.units]. apply (W (if s then -1 else 1)). destruct s; reflexivity.
    + split; [exact N|]. split; [reflexivity|]. split; [reflexivity|]. exists ((if s then -1 else 1) * (Zpos m * 2 ^ e)).
      assert (E : units (S754_finite s m e) = (if s then -1 else 1) * (Zpos m * 2 ^ e) * one).
      { cbn [FloatSpec.units]. unfold FloatSpec.one. replace (e - emin) with (e + - emin) by lia. rewrite pow2_add by lia. ring. }
      split; [exact E|]. rewrite <- E, Z.sub_diag. cbn [Z.abs]. split; lia.
Qed.
Lemma round_not_finite x : is_finite x = false -> round_f prec emax x = x.
Proof. destruct x; try discriminate; reflexivity. Qed.
(** the integer is the only one that near *)
Lemma round_of_int x n : number x -> is_finite x = true -> units x = n * one -> units (round_f prec emax x) = units x.
Proof.
  intros N Fi U. destruct (round_value x N Fi) as (_ & _ & _ & k & E & B & _). rewrite E, U in *. pose proof one_pos. replace (k * one - n * one) with ((k - n) * one) in B by ring.
  rewrite Z.abs_mul, (Z.abs_eq one) in B by lia. assert (k = n) by nia. congruence.
Qed.
End Format.

(** ** double *)
Lemma nearest_even_scale a d k : 0 < d -> 0 < k -> nearest_even (a * k) (d * k) = nearest_even a d * k.
Proof. intros D K. rewrite !nearest_quotient, quotient_scale by assumption. ring. Qed.
Lemma double_format : a_format 53 1024.
Proof. split; lia. Qed.
Lemma to_double_rounded n : rounded 53 (n * 2 ^ 1074) = AlgoModel.to_double n * 2 ^ 1074.
Proof.
  assert (P : 0 < 2 ^ 1074) by (apply pow2_pos; lia). destruct (Z.eq_dec n 0) as [->|N]; [reflexivity|].
  unfold rounded, AlgoModel.to_double, spacing_of. rewrite Z.abs_mul, (Z.abs_eq (2 ^ 1074)), Z.sgn_mul, (Z.sgn_pos (2 ^ 1074)), Z.mul_1_r by lia.
  rewrite (Z.mul_comm (Z.abs n)), Z.mul_comm with (n := 2 ^ 1074) at 1. rewrite Z.log2_mul_pow2 by lia.
  pose proof (Z.log2_nonneg (Z.abs n)) as L0. pose proof (Z.log2_spec (Z.abs n) ltac:(lia)) as L. destruct (Z.ltb_spec (Z.abs n) (2 ^ 53)) as [C|C].
  - assert (L1 : Z.log2 (Z.abs n) < 53) by (apply Z.log2_lt_pow2; lia). rewrite nearest_even_multiple; [|apply pow2_pos; lia|].
    + rewrite Z.mul_assoc. f_equal. rewrite Z.mul_comm. apply Z.abs_sgn.
    + apply Z.divide_mul_r. exists (2 ^ (1074 - Z.max 0 (1074 + Z.log2 (Z.abs n) + 1 - 53))). rewrite <- pow2_add by lia. f_equal. lia.
  - assert (L1 : 53 <= Z.log2 (Z.abs n)) by (apply Z.log2_le_pow2; lia). replace (Z.max 0 (1074 + Z.log2 (Z.abs n) + 1 - 53)) with ((Z.log2 (Z.abs n) - 52) + 1074) by lia.
    rewrite pow2_add by lia. rewrite nearest_even_scale by (try (apply pow2_pos; lia); lia). ring.
Qed.
Lemma of_int_double n : Z.abs n < 2 ^ 1023 -> let x := of_int 53 1024 n in
  number 53 1024 x /\ is_finite x = true /\ units 53 1024 x = AlgoModel.round n * one 53 1024.
Proof.
  intros B. cbn zeta. pose proof (of_int_computes 53 1024 double_format n) as C. change (one 53 1024) with (2 ^ 1074) in *. destruct C as (N & [(Fi & U)|(_ & Ov)]); rewrite to_double_rounded in *.
  - split; [exact N|]. split; [exact Fi|]. exact U.
  - exfalso. pose proof (to_double_error n) as E. assert (K : Z.abs (AlgoModel.to_double n) < 2 ^ 1024).
    { unfold AlgoModel.round in E. assert (Z.abs (AlgoModel.to_double n - n) <= Z.abs n) by (change (2 ^ 53) with 9007199254740992 in E; lia). change (2 ^ 1024) with (2 * 2 ^ 1023). lia. }
    change (SpecFloat.emin 53 1024) with (-1074) in Ov. change (1024 - -1074) with (1024 + 1074) in Ov. rewrite pow2_add, Z.abs_mul, (Z.abs_eq (2 ^ 1074)) in Ov by lia. pose proof (pow2_pos 1074 ltac:(lia)). nia.
Qed.
Lemma round_of_integer_double n : Z.abs n < 2 ^ 1023 -> let x := of_int 53 1024 n in
  number 53 1024 x /\ is_finite x = true /\ units 53 1024 x = AlgoModel.round n * one 53 1024 /\
  units 53 1024 (round_f 53 1024 x) = AlgoModel.round n * one 53 1024.
Proof.
  intros B. destruct (of_int_double n B) as (N & Fi & U). cbn zeta. split; [exact N|]. split; [exact Fi|]. split; [exact U|]. rewrite <- U. apply (round_of_int 53 1024 double_format _ (AlgoModel.round n)); assumption.
Qed.
