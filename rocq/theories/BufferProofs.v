(** Proofs about the unlocked reading of a log buffer. *)
From Coq Require Import List Bool Arith Lia.
From Verif Require Import BufferModel BufferSpec.
Import ListNotations.

Lemma set_same {A} (f : nat -> A) n v : set f n v n = v.
Proof. unfold set. rewrite Nat.eqb_refl. reflexivity. Qed.
Lemma set_other {A} (f : nat -> A) n v m : m <> n -> set f n v m = f m.
Proof. intros H. unfold set. destruct (Nat.eqb_spec m n); [contradiction|reflexivity]. Qed.
Lemma follows_cons {A} (x y : A) l a b : follows (x :: y :: l) a b <-> (x = a /\ y = b) \/ follows (y :: l) a b.
Proof.
  split.
  - intros (u & v & E). destruct u as [|z u]; cbn in E; [injection E as -> -> _; tauto|]. injection E as -> E. right. exists u, v. exact E.
  - intros [[-> ->]|(u & v & E)]; [exists [], l; reflexivity|]. exists (x :: u), v. cbn. rewrite E. reflexivity.
Qed.
Lemma follows_one {A} (x a b : A) : ~ follows [x] a b.
Proof. intros (u & v & E). apply (f_equal (@length A)) in E. rewrite app_length in E. cbn in E. lia. Qed.
Lemma follows_in_l {A} (l : list A) a b : follows l a b -> In a l.
Proof. intros (u & v & ->). apply in_elt. Qed.
Lemma follows_in_tl {A} (l : list A) a b : follows l a b -> In b (tl l).
Proof. intros (u & v & ->). destruct u; cbn; [left; reflexivity|]. apply in_app_iff. right. right. left. reflexivity. Qed.
Lemma follows_app_r {A} (u l : list A) a b : follows l a b -> follows (u ++ l) a b.
Proof. intros (x & y & ->). exists (u ++ x), y. rewrite app_assoc. reflexivity. Qed.
Lemma follows_app_l {A} (u l : list A) a b : follows l a b -> follows (l ++ u) a b.
Proof. intros (x & y & ->). exists x, (y ++ u). rewrite <- app_assoc. reflexivity. Qed.

Lemma NoDup_l {A} (l1 l2 : list A) : NoDup (l1 ++ l2) -> NoDup l1.
Proof. induction l1 as [|x l1 IH]; intros D; [constructor|]. cbn in D. inversion D as [|y z D0 D1]; subst. constructor; [|apply IH, D1]. intros I. apply D0, in_app_iff. left. exact I. Qed.
Lemma NoDup_r {A} (l1 l2 : list A) : NoDup (l1 ++ l2) -> NoDup l2.
Proof. induction l1 as [|x l1 IH]; intros D; [exact D|]. cbn in D. inversion D; subst. auto. Qed.

Lemma last_other (x : list nat) a q t : NoDup (x ++ a :: q :: t) -> last (x ++ a :: q :: t) 0 <> a.
Proof.
  intros D Eq. apply NoDup_remove_2 in D. apply D, in_app_iff. right. rewrite <- Eq at 1.
  replace (x ++ a :: q :: t) with ((x ++ [a]) ++ q :: t) by (rewrite <- app_assoc; reflexivity).
  destruct (@exists_last _ (q :: t)) as (z & w & W); [discriminate|]. rewrite W, app_assoc, last_last. apply in_elt.
Qed.

Section Proofs.
Context {E : Type}.
Notation memory := (memory E).
Notation state := (state E).
Implicit Types (m : memory) (es : list E) (s : state).

(** the memory of a call in progress, from the memory [m0] before it *)
Definition in_call (s : state) (m0 : memory) (ns : list nat) (es : list E) : Prop :=
  let pos := hd 0 ns in let new := S (allocated m0) in
  match caller s with
  | Idle => mem s = m0 /\ given s = es
  | Begun p => mem s = m0 /\ given s = es /\ p = pos
  | Created p n => exists e, mem s = new_node e m0 /\ given s = e :: es /\ p = pos /\ n = new
  | NextSet p n => exists e, mem s = set_next new pos (new_node e m0) /\ given s = e :: es /\ p = pos /\ n = new
  | PrevRead p n q => exists e, mem s = set_next new pos (new_node e m0) /\ given s = e :: es /\ p = pos /\ n = new /\ q = 0
  | PrevSet p n q => exists e, mem s = set_prev new 0 (set_next new pos (new_node e m0)) /\ given s = e :: es /\ p = pos /\ n = new /\ q = 0
  | Linked p n => exists e, mem s = set_next 0 new (set_prev new 0 (set_next new pos (new_node e m0))) /\ given s = e :: es /\ p = pos /\ n = new
  | Hooked n => exists e, mem s = set_prev pos new (set_next 0 new (set_prev new 0 (set_next new pos (new_node e m0)))) /\ given s = e :: es /\ n = new
  end.
(** what the reader has read of the nodes [ns] *)
Definition in_read (s : state) (ns : list nat) (es : list E) : Prop :=
  exists ns1 ns2 es1 es2, ns = ns1 ++ ns2 /\ es = es1 ++ es2 /\ length ns1 = length es1 /\ length ns2 = length es2 /\
  match rdr s with
  | At it => it = hd 0 ns2 /\ entries s = rev es2
  | Moved it => exists ns2' e es2', ns2 = it :: ns2' /\ es2 = e :: es2' /\ entries s = rev es2'
  end.
Definition inv (m : memory) (ns : list nat) (es : list E) (s : state) : Prop :=
  first s = hd 0 ns /\ in_read s ns es /\
  exists m0 ns' gs, holds m0 (ns' ++ ns) (gs ++ es) /\ length ns' = length gs /\ allocated m <= allocated m0 /\
  (forall n, In n ns' -> allocated m < n) /\ (exists g, in_call s m0 (ns' ++ ns) g /\ g = gs).

Lemma holds_length m ns es : holds (E := E) m ns es -> length ns = length es.
Proof. intros H. pose proof (h_data _ _ _ H) as D. apply (f_equal (@length _)) in D. rewrite !map_length in D. exact D. Qed.
Lemma hd_nonzero m ns es : ns <> [] -> holds (E := E) m ns es -> hd 0 ns <> 0.
Proof. intros N H. pose proof (h_nodup _ _ _ H) as D. destruct ns as [|n ns]; [congruence|]. cbn. inversion D as [|x y I _]; subst. intros ->. apply I. left. reflexivity. Qed.

Lemma init_inv m ns es : holds m ns es -> inv m ns es (unlocked m).
Proof.
  intros H. split; [|split].
  - cbn. apply (h_next _ _ _ H). destruct ns as [|n ns]; [exists [], []; reflexivity|exists [], (ns ++ [0]); reflexivity].
  - exists ns, [], es, []. rewrite !app_nil_r. repeat split. exact (holds_length _ _ _ H).
  - exists m, [], []. repeat split; try exact H; try apply le_n; try contradiction; try apply H. exists []. repeat split.
Qed.

(** one finished call *)
Lemma call_holds m0 ns es e : ns <> [] -> holds m0 ns es ->
  let pos := hd 0 ns in let new := S (allocated m0) in
  let m := set_prev pos new (set_next 0 new (set_prev new 0 (set_next new pos (new_node e m0)))) in
  holds (set_size (S (size m)) m) (new :: ns) (e :: es).
Proof.
  intros N H pos new m. assert (P0 : pos <> 0) by (eapply hd_nonzero; eassumption).
  assert (Fresh : forall n, In n ns -> n <> new) by (intros n I ->; apply (h_alloc _ _ _ H) in I; unfold new in I; lia).
  assert (Pin : In pos ns) by (unfold pos; destruct ns; [congruence|left; reflexivity]).
  assert (Pn : pos <> new) by (apply Fresh, Pin). assert (N0 : new <> 0) by (unfold new; lia).
  pose proof (h_nodup _ _ _ H) as D. inversion D as [|x y D0 D1]; subst x y.
  assert (Split : forall a b, follows (0 :: (new :: ns) ++ [0]) a b -> (a = 0 /\ b = new) \/ (a = new /\ b = pos) \/ (In a ns /\ b <> pos /\ b <> new /\ follows (0 :: ns ++ [0]) a b)).
  { intros a b F. cbn [app] in F. apply follows_cons in F. destruct F as [[<- <-]|F]; [left; split; reflexivity|]. right.
    destruct ns as [|n ns]; [congruence|]. cbn [app hd] in *. apply follows_cons in F. destruct F as [[<- <-]|F]; [left; split; reflexivity|]. right.
    assert (A : In a (n :: ns)).
    { destruct F as (u & v & Eq). change (n :: ns ++ [0]) with ((n :: ns) ++ [0]) in Eq. destruct (list_eq_dec Nat.eq_dec v []) as [->|Nv].
      - change (u ++ [a; b]) with (u ++ [a] ++ [b]) in Eq. rewrite app_assoc in Eq. apply app_inj_tail in Eq. destruct Eq as [-> _]. apply in_elt.
      - destruct (exists_last Nv) as (v' & z & ->). replace (u ++ a :: b :: v' ++ [z]) with ((u ++ a :: b :: v') ++ [z]) in Eq by (rewrite <- app_assoc; reflexivity).
        apply app_inj_tail in Eq. destruct Eq as [-> _]. apply in_elt. }
    pose proof (follows_in_tl _ _ _ F) as B. cbn in B. apply in_app_iff in B. inversion D1 as [|x y D2 D3]; subst x y.
    split; [exact A|]. split; [|split].
    - destruct B as [B|[<-|[]]]; [intros ->; apply D2, B|]. intros Eq. apply P0. symmetry. exact Eq.
    - destruct B as [B|[<-|[]]]; [apply Fresh; right; exact B|]. intros Eq. apply N0. symmetry. exact Eq.
    - apply follows_cons. right. exact F. }
  split.
  - intros a b F. apply Split in F. cbn. destruct F as [[-> ->]|[[-> ->]|(A & _ & _ & F)]].
    + apply set_same.
    + rewrite set_other by exact N0. apply set_same.
    + assert (a <> 0) by (intros ->; apply D0, A). rewrite !set_other by (auto). apply (h_next _ _ _ H), F.
  - intros a b F. apply Split in F. cbn. destruct F as [[-> ->]|[[-> ->]|(A & B1 & B2 & F)]].
    + rewrite set_other by auto. apply set_same.
    + apply set_same.
    + rewrite !set_other by assumption. apply (h_prev _ _ _ H), F.
  - cbn. fold new. rewrite set_same. f_equal. rewrite <- (h_data _ _ _ H). apply map_ext_in. intros n I. apply set_other. apply Fresh, I.
  - constructor; [|constructor; [|exact D1]].
    + intros [I|I]; [apply N0; exact I|apply D0, I].
    + intros I. apply (Fresh new I eq_refl).
  - cbn. intros n [<-|I]; [apply le_n|]. apply (h_alloc _ _ _ H) in I. lia.
  - cbn. f_equal. apply (h_size _ _ _ H).
Qed.

(** what calls in progress leave alone *)
Lemma mem_prev m ns es s a b : ns <> [] -> holds m ns es -> inv m ns es s -> follows (ns ++ [0]) a b -> prev (mem s) b = a.
Proof.
  intros N H0 (_ & _ & m0 & ns' & gs & H & L & A & Fr & g & C & ->) F.
  assert (F' : follows (0 :: (ns' ++ ns) ++ [0]) a b) by (rewrite <- app_assoc; apply (follows_app_r (0 :: ns')), F).
  assert (P : prev m0 b = a) by (apply (h_prev _ _ _ H), F').
  assert (B1 : b <> S (allocated m0)).
  { apply follows_in_tl in F'. cbn in F'. apply in_app_iff in F'. destruct F' as [I|[<-|[]]]; [|lia]. apply (h_alloc _ _ _ H) in I. lia. }
  assert (B2 : b <> hd 0 (ns' ++ ns)).
  { pose proof (h_nodup _ _ _ H) as D. destruct ns as [|n ns]; [congruence|]. apply follows_in_tl in F. cbn in F. apply in_app_iff in F.
    inversion D as [|x y D0 D1]; subst x y. destruct F as [I|[<-|[]]].
    - destruct ns' as [|n' ns']; cbn in D1 |- *; inversion D1 as [|x y D2 D3]; subst x y; intros ->; apply D2; [exact I|]. apply in_app_iff. right. right. exact I.
    - destruct ns' as [|n' ns']; cbn in D0 |- *; intros <-; apply D0; left; reflexivity. }
  unfold in_call in C. destruct (caller s).
  - destruct C as (-> & _). exact P.
  - destruct C as (-> & _). exact P.
  - destruct C as (e & -> & _). exact P.
  - destruct C as (e & -> & _). exact P.
  - destruct C as (e & -> & _). exact P.
  - destruct C as (e & -> & _). cbn. rewrite set_other by exact B1. exact P.
  - destruct C as (e & -> & _). cbn. rewrite set_other by exact B1. exact P.
  - destruct C as (e & -> & _). cbn. rewrite !set_other by assumption. exact P.
Qed.
Lemma mem_data m ns es s : inv m ns es s -> map (data (mem s)) ns = map Some es.
Proof.
  intros (_ & _ & m0 & ns' & gs & H & L & A & Fr & g & C & ->).
  assert (D : map (data m0) ns = map Some es).
  { pose proof (h_data _ _ _ H) as D. rewrite !map_app in D. apply app_inv_head with (l := map (data m0) ns').
    rewrite D. f_equal. assert (X : length (map Some gs) = length (map (data m0) ns')) by (rewrite !map_length; auto).
    clear - D X. revert D X. generalize (map (data m0) ns') (map (@Some E) gs). induction l as [|x l IH]; intros [|y l']; cbn; try discriminate; [reflexivity|].
    intros [= -> Eq] [= X]. f_equal. apply IH; assumption. }
  rewrite <- D. apply map_ext_in. intros n I. assert (B : n <> S (allocated m0)).
  { intros ->. assert (J : In (S (allocated m0)) (ns' ++ ns)) by (apply in_app_iff; right; exact I). apply (h_alloc _ _ _ H) in J. lia. }
  unfold in_call in C. destruct (caller s); destruct C as (e & Hm & _) || destruct C as (Hm & _); rewrite Hm || rewrite e; try reflexivity; cbn; apply set_other, B.
Qed.
(** the accesses *)
Definition event_ok (m : memory) (ns : list nat) (ev : event) : Prop :=
  match ev with
  | (Reader, Read, Prev n) => In n (tl ns ++ [0])
  | (Reader, Read, Data n) => In n ns
  | (Reader, _, _) => False
  | (Call, _, Prev n) => n = hd 0 ns \/ allocated m < n
  | (Call, _, Data n) => allocated m < n
  | (Call, _, _) => True
  end.
Lemma step_inv m ns es s tr s' : ns <> [] -> holds m ns es -> inv m ns es s -> step s tr s' -> inv m ns es s' /\ Forall (event_ok m ns) tr.
Proof.
  intros N H0 I Hs. pose proof I as (I1 & I2 & m0 & ns' & gs & H & L & A & Fr & g & C & ->).
  assert (Call0 : forall ks s1 tr1, inv m ns es s1 -> tr1 = ks -> Forall (event_ok m ns) tr1 -> inv m ns es s1 /\ Forall (event_ok m ns) ks) by (intros; subst; auto).
  assert (Pos : hd 0 (ns' ++ ns) = hd 0 ns \/ allocated m < hd 0 (ns' ++ ns)) by (destruct ns' as [|n ns']; [left; reflexivity|right; apply Fr; left; reflexivity]).
  assert (New : allocated m < S (allocated m0)) by lia.
  assert (Phase : forall s1, first s1 = first s -> rdr s1 = rdr s -> entries s1 = entries s -> in_call s1 m0 (ns' ++ ns) gs -> inv m ns es s1).
  { intros s1 E1 E2 E3 C1. split; [congruence|]. split; [unfold in_read in *; rewrite E2, E3; exact I2|]. exists m0, ns', gs. repeat (split; [assumption|]). exists gs. auto. }
  destruct Hs as [mm c it b es0 gs0 Nb|mm c it b es0 gs0 e De|mm c r b es0 gs0|mm r b es0 gs0|mm pos r b es0 gs0 e|mm pos new r b es0 gs0|mm pos new r b es0 gs0|mm pos new q r b es0 gs0|mm pos new q r b es0 gs0|mm pos new r b es0 gs0|mm new r b es0 gs0];
    unfold in_call in C; cbn [caller mem given first rdr entries] in *.
  - (* read_prev *)
    destruct I2 as (n1 & n2 & e1 & e2 & En & Ee & L1 & L2 & Hit & He). cbn in Hit, He. subst it.
    assert (Nn : n1 <> []) by (intros ->; cbn in En; congruence). destruct (exists_last Nn) as (n1' & a & ->).
    assert (F : follows (ns ++ [0]) a (hd 0 n2)).
    { rewrite En, <- !app_assoc. cbn. destruct n2 as [|y n2]; [exists n1', []; reflexivity|exists n1', (n2 ++ [0]); reflexivity]. }
    pose proof (mem_prev m ns es _ a (hd 0 n2) N H0 I F) as P. cbn in P. rewrite P.
    split.
    + split; [exact I1|]. split; [|exists m0, ns', gs; repeat (split; [assumption|]); exists gs; split; [exact C|reflexivity]].
      assert (Ne : e1 <> []) by (intros ->; rewrite app_length in L1; cbn in L1; lia). destruct (exists_last Ne) as (e1' & x & ->).
      exists n1', (a :: n2), e1', (x :: e2). rewrite !app_length in L1. cbn in L1 |- *. rewrite <- app_assoc in En, Ee. repeat split; [exact En|exact Ee|lia|lia|].
      exists n2, x, e2. repeat split. exact He.
    + constructor; [|constructor]. cbn. apply follows_in_tl in F. destruct ns; [congruence|]. exact F.
  - (* read_entry *)
    destruct I2 as (n1 & n2 & e1 & e2 & En & Ee & L1 & L2 & n2' & x & e2' & -> & -> & He). cbn in He.
    pose proof (mem_data m ns es _ I) as D. cbn in D.
    assert (e = x) as ->.
    { rewrite En, Ee, !map_app in D. cbn in D. assert (X : length (map (data mm) n1) = length (map Some e1)) by (rewrite !map_length; exact L1).
      assert (Y : data mm it :: map (data mm) n2' = Some x :: map Some e2').
      { clear - D X. revert D X. generalize (map (data mm) n1) (map (@Some E) e1). induction l as [|y l IH]; intros [|z l']; cbn; try discriminate; [tauto|].
        intros [= -> Eq] [= X]. apply (IH l'); assumption. }
      injection Y as Y _. congruence. }
    split.
    + split; [exact I1|]. split; [|exists m0, ns', gs; repeat (split; [assumption|]); exists gs; split; [exact C|reflexivity]].
      exists n1, (it :: n2'), e1, (x :: e2'). repeat split; try assumption. cbn. rewrite He. reflexivity.
    + constructor; [|constructor]. cbn. rewrite En. apply in_elt.
  - (* read_size *) split; [exact I|repeat constructor].
  - destruct C as (-> & ->). split; [apply Phase; try reflexivity|repeat constructor]. cbn. repeat split.
    apply (h_next _ _ _ H). destruct (ns' ++ ns) as [|y l]; [exists [], []; reflexivity|exists [], (l ++ [0]); reflexivity].
  - destruct C as (-> & -> & ->). split; [apply Phase; try reflexivity|constructor; [exact New|constructor]]. cbn. exists e. repeat split.
  - destruct C as (e & -> & -> & -> & ->). split; [apply Phase; try reflexivity|repeat constructor]. cbn. exists e. repeat split.
  - destruct C as (e & -> & -> & -> & ->). split; [apply Phase; try reflexivity|constructor; [exact Pos|constructor]]. cbn. exists e. repeat split.
    apply (h_prev _ _ _ H). destruct (ns' ++ ns) as [|y l]; [exists [], []; reflexivity|exists [], (l ++ [0]); reflexivity].
  - destruct C as (e & -> & -> & -> & -> & ->). split; [apply Phase; try reflexivity|constructor; [right; exact New|constructor]]. cbn. exists e. repeat split.
  - destruct C as (e & -> & -> & -> & -> & ->). split; [apply Phase; try reflexivity|repeat constructor]. cbn. exists e. repeat split.
  - destruct C as (e & -> & -> & -> & ->). split; [apply Phase; try reflexivity|constructor; [exact Pos|constructor]]. cbn. exists e. repeat split.
  - destruct C as (e & -> & -> & ->). split; [|repeat constructor]. split; [exact I1|]. split; [exact I2|].
    assert (Nn : ns' ++ ns <> []) by (intros X; apply app_eq_nil in X; tauto).
    pose proof (call_holds m0 _ _ e Nn H) as K. cbv zeta in K. eexists. exists (S (allocated m0) :: ns'), (e :: gs). split; [exact K|]. cbn. split; [lia|]. split; [lia|].
    split; [intros n [<-|J]; [lia|apply Fr, J]|]. exists (e :: gs). repeat split.
Qed.
Lemma exec_inv m ns es tr s : ns <> [] -> holds m ns es -> exec (unlocked m) tr s -> inv m ns es s /\ Forall (event_ok m ns) tr.
Proof.
  intros N H X. remember (unlocked m) as s0. induction X as [s|s1 tr1 s2 tr2 s3 X IH S]; subst.
  - split; [apply init_inv, H|constructor].
  - destruct (IH eq_refl) as [I F]. destruct (step_inv m ns es s2 tr2 s3 N H I S) as [I' F']. split; [exact I'|]. apply Forall_app. auto.
Qed.
Lemma ok_no_conflict m ns es x y : ns <> [] -> holds m ns es -> event_ok m ns x -> event_ok m ns y -> ~ conflict x y.
Proof.
  intros N H. pose proof (h_nodup _ _ _ H) as D. pose proof (h_alloc _ _ _ H) as Al. destruct ns as [|n ns]; [congruence|].
  inversion D as [|x0 y0 D0 D1]; subst. inversion D1 as [|x1 y1 D2 D3]; subst. cbn in Al.
  assert (Key : forall p, In p (ns ++ [0]) -> p <> n /\ p <= allocated m).
  { intros p I. apply in_app_iff in I. destruct I as [I|[<-|[]]].
    - split; [intros ->; contradiction|apply Al; right; exact I].
    - split; [intros <-; apply D0; left; reflexivity|lia]. }
  destruct x as [[[] k1] l1], y as [[[] k2] l2]; unfold conflict; intros O1 O2 (T & <- & K); try congruence.
  - destruct k1; [|destruct O1]. destruct k2; [destruct K; discriminate|]. cbn in O1, O2. destruct l1 as [p|p|p|]; try contradiction.
    + apply Key in O1. destruct O1 as [A B], O2 as [O2|O2]; [contradiction|lia].
    + specialize (Al p). cbn in O1. destruct O1 as [<-|O1]; [specialize (Al (or_introl eq_refl))|specialize (Al (or_intror O1))]; lia.
  - destruct k2; [|destruct O2]. destruct k1; [destruct K; discriminate|]. cbn in O1, O2. destruct l1 as [p|p|p|]; try contradiction.
    + apply Key in O2. destruct O2 as [A B], O1 as [O1|O1]; [contradiction|lia].
    + specialize (Al p). cbn in O2. destruct O2 as [<-|O2]; [specialize (Al (or_introl eq_refl))|specialize (Al (or_intror O2))]; lia.
Qed.
Lemma race_free m ns es tr s x y : ns <> [] -> holds m ns es -> exec (unlocked m) tr s -> In x tr -> In y tr -> ~ conflict x y.
Proof.
  intros N H X Ix Iy. destruct (exec_inv m ns es tr s N H X) as [_ F]. rewrite Forall_forall in F. eapply ok_no_conflict; eauto.
Qed.
Lemma reads_proof m ns es tr s : ns <> [] -> holds m ns es -> exec (unlocked m) tr s ->
  (exists rest, rev es = entries s ++ rest) /\ (rdr s = At (first s) -> entries s = rev es).
Proof.
  intros N H X. destruct (exec_inv m ns es tr s N H X) as [(I1 & (n1 & n2 & e1 & e2 & En & Ee & L1 & L2 & R) & _) _]. split.
  - subst es. destruct (rdr s).
    + destruct R as [_ ->]. exists (rev e1). apply rev_app_distr.
    + destruct R as (n2' & e & e2' & -> & -> & ->). exists ([e] ++ rev e1). rewrite rev_app_distr. cbn. rewrite <- app_assoc. reflexivity.
  - intros Eq. rewrite Eq, I1 in R. destruct R as [R1 R2]. rewrite R2. f_equal. subst ns es.
    pose proof (h_nodup _ _ _ H) as D. inversion D as [|x0 y0 D0 D1]; subst. destruct n1 as [|a n1].
    + destruct e1; [reflexivity|discriminate].
    + exfalso. cbn in R1. subst a. destruct n2 as [|b n2]; cbn in *; [apply D0; left; reflexivity|].
      inversion D1 as [|x1 y1 D2 D3]; subst. apply D2, in_elt.
Qed.
Lemma never_stuck m ns es tr s : ns <> [] -> holds m ns es -> exec (unlocked m) tr s -> rdr s <> At (first s) ->
  exists ev s', step s [(Reader, Read, ev)] s'.
Proof.
  intros N H X Nb. destruct (exec_inv m ns es tr s N H X) as [I _]. destruct s as [mm c r b es0 gs]. cbn in Nb. destruct r as [it|it].
  - eexists. eexists. apply read_prev. congruence.
  - pose proof (mem_data _ _ _ _ I) as D. destruct I as (_ & (n1 & n2 & e1 & e2 & En & Ee & L1 & L2 & n2' & e & e2' & -> & -> & _) & _). cbn in D.
    assert (X2 : exists e0, data mm it = Some e0).
    { assert (J : In (data mm it) (map (data mm) ns)) by (apply in_map; rewrite En; apply in_elt). rewrite D in J. apply in_map_iff in J. destruct J as (e0 & J & _). eauto. }
    destruct X2 as (e0 & X2). eexists. eexists. apply read_entry. exact X2.
Qed.

(** ** erase *)
Lemma unhook_holds m u n v eu e ev : holds m (u ++ n :: v) (eu ++ e :: ev) -> length u = length eu -> holds (unhook n m) (u ++ v) (eu ++ ev) /\ next m n = hd 0 v.
Proof.
  intros H L. set (a := last u 0). set (b := hd 0 v).
  assert (Fa : follows (0 :: (u ++ n :: v) ++ [0]) a n).
  { unfold a. destruct u as [|y u] using rev_ind; [exists [], (v ++ [0]); reflexivity|]. rewrite last_last. exists (0 :: u), (v ++ [0]). cbn. rewrite <- !app_assoc. reflexivity. }
  assert (Fb : follows (0 :: (u ++ n :: v) ++ [0]) n b).
  { unfold b. destruct v as [|y v]; [exists (0 :: u), []; cbn; rewrite <- app_assoc; reflexivity|]. exists (0 :: u), (v ++ [0]). cbn. rewrite <- app_assoc. reflexivity. }
  assert (Pn : prev m n = a) by (apply (h_prev _ _ _ H), Fa). assert (Nn : next m n = b) by (apply (h_next _ _ _ H), Fb).
  split; [|exact Nn].
  pose proof (h_nodup _ _ _ H) as D.
  assert (Da : a = 0 \/ In a u) by (unfold a; destruct u as [|y u] using rev_ind; [left; reflexivity|]; rewrite last_last; right; apply in_elt).
  assert (Db : b = 0 \/ In b v) by (unfold b; destruct v; [left; reflexivity|right; left; reflexivity]).
  assert (Du : ~ In n (0 :: u) /\ ~ In n v).
  { change (0 :: u ++ n :: v) with ((0 :: u) ++ n :: v) in D. apply NoDup_remove_2 in D. rewrite in_app_iff in D. tauto. }
  assert (N0 : n <> 0) by (intros ->; apply (proj1 Du); left; reflexivity).
  assert (D' : NoDup (0 :: u ++ v)) by (change (0 :: u ++ n :: v) with ((0 :: u) ++ n :: v) in D; apply NoDup_remove_1 in D; exact D).
  assert (Disj : forall p, In p (0 :: u) -> In p v -> False).
  { intros p I J. change (0 :: u ++ v) with ((0 :: u) ++ v) in D'. clear - D' I J. induction (0 :: u) as [|y l IH]; [destruct I|]. cbn in D'. inversion D' as [|x z D1 D2]; subst. destruct I as [->|I]; [apply D1, in_app_iff; right; exact J|apply IH; assumption]. }
  (* the pairs of the new list *)
  assert (Split : forall p q, follows (0 :: (u ++ v) ++ [0]) p q -> (p = a /\ q = b) \/ (p <> a /\ q <> b /\ follows (0 :: (u ++ n :: v) ++ [0]) p q)).
  { intros p q (x & y & Eq). replace (0 :: (u ++ v) ++ [0]) with ((0 :: u) ++ v ++ [0]) in Eq by (cbn; rewrite <- app_assoc; reflexivity).
    assert (Cut : (exists t, 0 :: u = x ++ p :: q :: t) \/ (0 :: u = x ++ [p] /\ v ++ [0] = q :: y) \/ (exists t, v ++ [0] = t ++ p :: q :: y)).
    { clear - Eq. revert x Eq. induction (0 :: u) as [|h l IH]; intros x Eq; cbn in Eq.
      - right. right. exists x. exact Eq.
      - destruct x as [|h' x]; cbn in Eq.
        + injection Eq as -> Eq. destruct l as [|q' l]; cbn in Eq; [right; left; rewrite Eq; split; reflexivity|]. injection Eq as -> Eq. left. exists l. reflexivity.
        + injection Eq as -> Eq. destruct (IH x Eq) as [(t & ->)|[(-> & R)|(t & R)]]; [left; exists t; reflexivity|right; left; split; [reflexivity|exact R]|right; right; exists t; exact R]. }
    destruct Cut as [(t & C)|[(C & R)|(t & R)]].
    - right. assert (Q : In q u) by (destruct x; cbn in C; injection C as ? ->; [left; reflexivity|apply in_app_iff; right; right; left; reflexivity]).
      repeat split.
      + intros ->. (* p = a is the last of 0 :: u, but q follows it *)
        assert (NDu : NoDup (0 :: u)) by (clear - D'; change (0 :: u ++ v) with ((0 :: u) ++ v) in D'; apply NoDup_l in D'; exact D').
        assert (La : a = last (0 :: u) 0) by (unfold a; destruct u; reflexivity). rewrite C in La, NDu. revert La. apply not_eq_sym, last_other, NDu.
      + intros ->. destruct Db as [B|B]; [|apply (Disj b); [right; exact Q|exact B]]. rewrite B in Q. inversion D' as [|x1 y1 D1 D2]; subst x1. apply D1, in_app_iff. left. exact Q.
      + exists x, (t ++ (n :: v) ++ [0]). cbn. rewrite <- app_assoc. change (0 :: u ++ (n :: v) ++ [0]) with ((0 :: u) ++ (n :: v) ++ [0]). rewrite C, <- app_assoc. reflexivity.
    - left. split; [|unfold b; destruct v; cbn in R |- *; congruence].
      unfold a. destruct u as [|h u] using rev_ind; [destruct x as [|h x]; [injection C; auto|destruct x; discriminate]|].
      rewrite last_last. change (0 :: u ++ [h]) with ((0 :: u) ++ [h]) in C. apply app_inj_tail in C. destruct C; congruence.
    - right. assert (Pv : In p v).
      { clear - R. destruct (list_eq_dec Nat.eq_dec y []) as [->|Ny].
        - change (t ++ [p; q]) with (t ++ [p] ++ [q]) in R. rewrite app_assoc in R. apply app_inj_tail in R. destruct R as [-> _]. apply in_elt.
        - destruct (exists_last Ny) as (y' & w & ->). replace (t ++ p :: q :: y' ++ [w]) with ((t ++ p :: q :: y') ++ [w]) in R by (rewrite <- app_assoc; reflexivity).
          apply app_inj_tail in R. destruct R as [-> _]. apply in_elt. }
      repeat split.
      + intros ->. apply (Disj a); [destruct Da as [Z|Z]; [rewrite Z; left; reflexivity|right; exact Z]|exact Pv].
      + unfold b. intros ->. destruct v as [|h v]; [destruct Pv|]. cbn in R.
        assert (ND : NoDup (h :: v ++ [0])).
        { clear - D'. inversion D' as [|x1 y1 D1 D2]; subst. apply NoDup_r in D2. rewrite in_app_iff in D1.
          change (h :: v ++ [0]) with ((h :: v) ++ [0]). apply NoDup_Add with (a := 0) (l := h :: v); [|split; [exact D2|tauto]].
          replace (h :: v) with ((h :: v) ++ []) at 1 by apply app_nil_r. apply Add_app. }
        cbn in R, ND. rewrite R in ND. destruct t as [|h' t]; cbn in R, ND; injection R as E1 E2; subst.
        * cbn in ND. inversion ND as [|x1 y1 D1 D2]; subst. apply D1. left. reflexivity.
        * cbn in ND. inversion ND as [|x1 y1 D1 D2]; subst. apply D1, in_app_iff. right. right. left. reflexivity.
      + exists (0 :: u ++ n :: t), y. cbn. rewrite <- !app_assoc. cbn. rewrite R. reflexivity. }
  assert (Nan : n <> a) by (intros ->; apply (proj1 Du); destruct Da as [Z|Z]; [left; auto|right; exact Z]).
  assert (Nbn : n <> b) by (destruct Db as [Z|Z]; [congruence|intros ->; apply (proj2 Du), Z]).
  unfold unhook. rewrite Pn, Nn. split; cbn.
  - intros p q F. apply Split in F. destruct F as [[-> ->]|(Np & Nq & F)]; [apply set_same|]. rewrite set_other by exact Np. apply (h_next _ _ _ H), F.
  - intros p q F. apply Split in F. destruct F as [[-> ->]|(Np & Nq & F)]; [apply set_same|]. rewrite set_other by exact Nq. apply (h_prev _ _ _ H), F.
  - pose proof (h_data _ _ _ H) as Dt. rewrite !map_app in Dt. cbn in Dt.
    assert (X : map (data m) u = map Some eu /\ map (data m) v = map Some ev).
    { assert (X : length (map (data m) u) = length (map Some eu)) by (rewrite !map_length; exact L). clear - Dt X. revert Dt X. generalize (map (data m) u) (map (@Some E) eu).
      induction l as [|y l IH]; intros [|z l']; cbn; try discriminate; [intros [= _ ->]; tauto|]. intros [= -> Eq] [= X]. destruct (IH l' Eq X) as [-> ->]. tauto. }
    destruct X as [X1 X2]. rewrite !map_app, <- X1, <- X2. f_equal; apply map_ext_in; intros p I; apply set_other; intros ->; [apply (proj1 Du); right; exact I|apply (proj2 Du), I].
  - exact D'.
  - intros p I. apply (h_alloc _ _ _ H). apply in_app_iff in I. apply in_app_iff. cbn. tauto.
  - rewrite (h_size _ _ _ H), !app_length. cbn. lia.
Qed.
Lemma erase_holds v : forall m u eu ev fuel, holds m (u ++ v) (eu ++ ev) -> length u = length eu -> length v <= fuel ->
  exists m', erase fuel (hd 0 v) m = Some m' /\ holds m' u eu.
Proof.
  induction v as [|n v IH]; intros m u eu ev fuel H L F.
  - exists m. split; [destruct fuel; reflexivity|]. pose proof (holds_length _ _ _ H) as X. rewrite !app_length in X. cbn in X. destruct ev; [|cbn in X; lia]. rewrite !app_nil_r in H. exact H.
  - pose proof (holds_length _ _ _ H) as X. rewrite !app_length in X. cbn in X. destruct ev as [|e ev]; [cbn in X; lia|].
    destruct (unhook_holds m u n v eu e ev H L) as [H' Nx]. destruct fuel as [|fuel]; [cbn in F; lia|]. cbn [hd erase].
    assert (N0 : n <> 0). { pose proof (h_nodup _ _ _ H) as D. inversion D as [|x y D0 D1]; subst. intros ->. apply D0, in_elt. }
    destruct (Nat.eqb_spec n 0); [contradiction|]. rewrite Nx. apply (IH (unhook n m) u eu ev fuel H' L). cbn in F. lia.
Qed.
Lemma erase_proof m ns es tr s it : ns <> [] -> holds m ns es -> exec (unlocked m) tr s -> caller s = Idle -> rdr s = At it ->
  exists ns' es1 es2 m', es = es1 ++ es2 /\ entries s = rev es2 /\ holds (mem s) (ns' ++ ns) (given s ++ es) /\
  erase (length ns) it (mem s) = Some m' /\ holds m' (ns' ++ firstn (length es1) ns) (given s ++ es1).
Proof.
  intros N H X C R. destruct (exec_inv m ns es tr s N H X) as [(I1 & (n1 & n2 & e1 & e2 & En & Ee & L1 & L2 & Rd) & m0 & ns' & gs & H' & L & A & Fr & g & Ca & ->) _].
  rewrite R in Rd. destruct Rd as [-> Rd]. unfold in_call in Ca. rewrite C in Ca. destruct Ca as [Em Eg]. rewrite Em, Eg.
  exists ns', e1, e2. rewrite En, <- L1, firstn_app, firstn_all, Nat.sub_diag, firstn_O, app_nil_r. rewrite En, Ee in H'.
  assert (H2 : holds m0 ((ns' ++ n1) ++ n2) ((gs ++ e1) ++ e2)) by (rewrite <- !app_assoc; exact H').
  destruct (erase_holds n2 m0 (ns' ++ n1) (gs ++ e1) e2 (length (n1 ++ n2)) H2) as (m' & E1 & E2).
  - rewrite !app_length. lia.
  - rewrite app_length. lia.
  - exists m'. subst es. repeat split; try assumption; apply H' || apply E2.
Qed.
End Proofs.
