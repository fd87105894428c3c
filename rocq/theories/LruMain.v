(** The property theorems of lru_cache, assembled from the refinement and history lemmas. *)
From Coq Require Import List Bool Arith Lia Permutation.
From Verif Require Import Base LruApi LruModel LruSpec LruProofs LruHistory LruFaults.
Import ListNotations.

Section Main.
Context {K V : Type}.
Variable ltb : K -> K -> bool.
Hypothesis swo : strict_weak_order ltb.
Local Notation eqk := (equivb ltb).
Local Notation op := (lru_op K V).
Local Notation call := (LruModel.call (K:=K) (V:=V) ltb no_fault).

(** Observations of a represented state. *)
Lemma obs n c (a : scache (K:=K) (V:=V)) : R ltb n c a ->
  call Size (mkSt n c) = Ret (mkSt n c, Val (RNat (length (s_items a)))) /\
  call Capacity (mkSt n c) = Ret (mkSt n c, Val (RNat (s_cap a))) /\
  call Empty (mkSt n c) = Ret (mkSt n c, Val (RBool (length (s_items a) =? 0))) /\
  (forall k, call (Contains k) (mkSt n c) =
     Ret (mkSt n c, Val (RBool (existsb (eqk k) (map fst (s_items a)))))).
Proof.
  intros H.
  assert (C : forall o, (o = Size \/ o = Capacity \/ o = Empty \/ exists k, o = Contains k) ->
     call o (mkSt n c) = Ret (mkSt n c, Val (snd (s_call ltb a o)))).
  { intros o Ho. destruct (call_refines ltb swo n c a o H) as (n1 & c1 & r & E & Er & _).
    rewrite E. subst r. do 2 f_equal.
    destruct Ho as [->|[->|[->|[k ->]]]]; unfold LruModel.call, size, capacity, empty, contains, bind, get_obj, ret in E;
      cbn [obj] in E; congruence. }
  rewrite !C by eauto. cbn [s_call snd]. repeat split.
  intros k. rewrite C by eauto. cbn [s_call snd]. do 4 f_equal.
  unfold s_find. induction (s_items a) as [|x l IH]; simpl; [reflexivity|].
  destruct (eqk k (fst x)); simpl; auto.
Qed.

Lemma apart_keys (l : list (K * V)) : s_apart ltb l ->
  ForallOrdPairs (fun x y => eqk x y = false) (map fst l).
Proof.
  unfold s_apart. induction 1; simpl; constructor; auto.
  rewrite Forall_forall in *. intros y Hy. apply in_map_iff in Hy as (z & <- & Hz). auto.
Qed.

Theorem size_within_capacity cap (ops : list op) :
  exists s rs n c keys, run_new ltb cap ops = Ret (s, rs) /\
    call Size s = Ret (s, Val (RNat n)) /\
    call Capacity s = Ret (s, Val (RNat c)) /\
    call Empty s = Ret (s, Val (RBool (n =? 0))) /\
    n <= c /\ length keys = n /\ ForallOrdPairs (fun x y => eqk x y = false) keys /\
    (forall k, call (Contains k) s = Ret (s, Val (RBool (existsb (eqk k) keys)))).
Proof.
  destruct (run_new_refines (V:=V) ltb swo cap ops) as (n & c & E & H).
  destruct (obs n c _ H) as (O1 & O2 & O3 & O4).
  destruct (R_inv ltb _ _ _ H) as [A B].
  eexists _, _, _, _, (map fst (s_items (fst (s_run ltb (mkS cap []) ops)))).
  split; [exact E|]. split; [exact O1|]. split; [exact O2|]. split; [exact O3|].
  split; [exact B|]. split; [apply map_length|]. split; [apply apart_keys; exact A|exact O4].
Qed.

Theorem refines_recency_list cap (ops : list op) :
  exists s, run_new ltb cap ops = Ret (s, snd (s_run ltb (mkS cap []) ops)).
Proof. destruct (run_new_refines (V:=V) ltb swo cap ops) as (n & c & E & _). eauto. Qed.

Theorem get_returns_latest cap ops k v0 s rs r :
  run_new ltb cap (ops ++ [Get k v0]) = Ret (s, rs ++ [r]) ->
  match r with
  | RGet true v =>
      exists pre (o : lru_op K V) r post, combine ops rs = pre ++ (o, r) :: post /\
        stores ltb k o r = Some v /\
        (forall o' r', In (o', r') post -> stores ltb k o' r' = None /\ discards ltb k o' = false)
  | RGet false v => v = v0
  | _ => False
  end.
Proof.
  destruct (run_new_refines (V:=V) ltb swo cap (ops ++ [Get k v0])) as (n & c & E & _).
  rewrite E. intros [= _ Es].
  assert (Es' := Es). rewrite s_run_app in Es'. cbn [snd] in Es'. simpl in Es'.
  destruct (s_find ltb k _) as [[k' v]|]; simpl in Es'; apply app_inj_tail in Es' as [_ <-].
  - apply (get_latest ltb swo cap ops k v0 v rs Es).
  - reflexivity.
Qed.

Lemma reach cap ops s (rs : list (lru_res V)) : run_new ltb cap ops = Ret (s, rs) ->
  exists a, R ltb (nxt s) (obj s) a /\ a = fst (s_run ltb (mkS cap []) ops).
Proof.
  destruct (run_new_refines (V:=V) ltb swo cap ops) as (n & c & E & H).
  rewrite E. intros [= <- <-]. eauto.
Qed.

Lemma st_eta (s : st (K:=K) (V:=V)) : mkSt (nxt s) (obj s) = s.
Proof. destruct s; reflexivity. Qed.

Theorem used_key_survives cap ops0 s0 rs0 c0 s0' o s1 r k D ops :
  run_new ltb cap ops0 = Ret (s0, rs0) ->
  call Capacity s0 = Ret (s0', Val (RNat c0)) -> length D < c0 ->
  call o s0 = Ret (s1, Val r) -> refreshes ltb k o r = true ->
  (forall o' : lru_op K V, In o' ops -> discards ltb k o' = false /\ resizes o' = false /\
     (forall j, used_key o' = Some j -> eqk k j = true \/ existsb (eqk j) D = true)) ->
  exists s2 rs, run_ops ltb s1 ops = Ret (s2, rs) /\
    call (Contains k) s2 = Ret (s2, Val (RBool true)).
Proof.
  intros E0 EC LD EO HR HO.
  destruct (reach _ _ _ _ E0) as (a & Ha & _).
  destruct (obs _ _ _ Ha) as (_ & O2 & _). rewrite st_eta, EC in O2. injection O2 as _ ->.
  destruct (call_refines ltb swo _ _ a o Ha) as (n1 & c1 & r1 & E1 & Er & H1 & _).
  rewrite st_eta, EO in E1. injection E1 as -> ->. subst r1.
  destruct (run_refines ltb swo ops _ _ _ H1) as (n2 & c2 & E2 & H2).
  exists (mkSt n2 c2). eexists. split; [exact E2|].
  destruct (obs _ _ _ H2) as (_ & _ & _ & O4). rewrite O4. do 3 f_equal.
  pose proof (survive ltb swo a o k D ops (R_inv ltb _ _ _ Ha) LD HR HO) as SV.
  destruct (call_refines ltb swo _ _ _ (Contains k) H2) as (n3 & c3 & r3 & E3 & Er3 & _).
  rewrite O4 in E3. injection E3 as _ _ E3. rewrite E3, Er3, SV. reflexivity.
Qed.

Theorem unused_key_is_evicted cap ops0 s0 rs0 c0 s0' k D ops :
  run_new ltb cap ops0 = Ret (s0, rs0) ->
  call Capacity s0 = Ret (s0', Val (RNat c0)) -> c0 <= length D ->
  ForallOrdPairs (fun x y => eqk x y = false) D ->
  (forall d, In d D -> exists d' v, In (InsertOrAssign d' v) ops /\ eqk d d' = true) ->
  (forall o : lru_op K V, In o ops -> removes o = false /\
     (forall j, used_key o = Some j -> eqk k j = false)) ->
  exists s1 rs, run_ops ltb s0 ops = Ret (s1, rs) /\
    call (Contains k) s1 = Ret (s1, Val (RBool false)).
Proof.
  intros E0 EC LD AD HD HO.
  destruct (reach _ _ _ _ E0) as (a & Ha & _).
  destruct (obs _ _ _ Ha) as (_ & O2 & _). rewrite st_eta, EC in O2. injection O2 as _ ->.
  destruct (run_refines ltb swo ops _ _ _ Ha) as (n2 & c2 & E2 & H2).
  rewrite st_eta in E2. exists (mkSt n2 c2). eexists. split; [exact E2|].
  destruct (obs _ _ _ H2) as (_ & _ & _ & O4). rewrite O4. do 3 f_equal.
  pose proof (evicted ltb swo a k D ops (R_inv ltb _ _ _ Ha) LD AD HD HO) as SV.
  destruct (call_refines ltb swo _ _ _ (Contains k) H2) as (n3 & c3 & r3 & E3 & Er3 & _).
  rewrite O4 in E3. injection E3 as _ _ E3. rewrite E3, Er3, SV. reflexivity.
Qed.

Theorem world_without_copies ops :
  (forall o : lru_wop K V, In o ops -> copies o = false) ->
  exists w, wrun ltb empty_world ops = Ret (w, snd (sw_run ltb [] ops)).
Proof.
  intros H. destruct (wrun_refines ltb swo ops empty_world []) as (w & E & _); eauto.
  constructor.
Qed.

Theorem copy_of_used_cache_is_undefined cap ops s rs k o n' :
  run_new ltb cap ops = Ret (s, rs) ->
  call (Contains k) s = Ret (s, Val (RBool true)) ->
  nxt s <= n' ->
  (o = Remove k \/ (exists v0 : V, o = Get k v0) \/ (exists v, o = InsertOrAssign k v)) ->
  call o (mkSt n' (copy_cache (nxt s) (obj s))) = Ub.
Proof.
  intros E HC Ln Ho. destruct (reach _ _ _ _ E) as (a & Ha & _).
  apply (copy_use_ub ltb swo _ _ a k); auto.
  destruct (call_refines ltb swo _ _ a (Contains k) Ha) as (n3 & c3 & r3 & E3 & Er3 & _).
  rewrite st_eta, HC in E3. injection E3 as _ E3. rewrite Er3 in E3. cbn [s_call snd] in E3.
  intros F. rewrite F in E3. discriminate.
Qed.

Theorem harmless_faults cap ops :
  (forall o f, In (o, f) ops -> harmless f) ->
  exists s rs a, run_faulty ltb (mkSt 0 (new_cache cap)) ops = Ret (s, rs) /\
    length (s_items a) <= s_cap a /\
    forall ops' : list (lru_op K V), exists s', run_ops ltb s ops' = Ret (s', snd (s_run ltb a ops')).
Proof.
  intros H. destruct (run_faulty_consistent ltb swo ops 0 (new_cache cap) (mkS cap []) (R_new ltb 0 cap) H)
    as (n & c & rs & a & E & HR).
  exists (mkSt n c), rs, a. split; [exact E|]. split; [apply (R_inv ltb _ _ _ HR)|].
  intros ops'. destruct (run_refines ltb swo ops' n c a HR) as (n2 & c2 & E2 & _). eauto.
Qed.

Theorem throwing_call cap ops s rs o f :
  run_new ltb cap ops = Ret (s, rs) -> harmless f ->
  let a := fst (s_run ltb (mkS cap []) ops) in
  exists s1, 
    match s_throw ltb (f PPushFront) (f PAssign) (f PGetAssign) a o with
    | Some a' => LruModel.call ltb f o s = Ret (s1, Thrown) /\
        forall ops' : list (lru_op K V), exists s', run_ops ltb s1 ops' = Ret (s', snd (s_run ltb a' ops'))
    | None => LruModel.call ltb f o s = Ret (s1, Val (snd (s_call ltb a o))) /\
        forall ops' : list (lru_op K V), exists s', run_ops ltb s1 ops' = Ret (s', snd (s_run ltb (fst (s_call ltb a o)) ops'))
    end.
Proof.
  intros E HF a. destruct (reach _ _ _ _ E) as (a0 & Ha & ->). fold a in Ha.
  destruct (call_faulty ltb swo _ _ a f o Ha HF) as (n1 & c1 & _ & H). rewrite st_eta in H.
  exists (mkSt n1 c1).
  destruct (s_throw ltb (f PPushFront) (f PAssign) (f PGetAssign) a o) as [a'|];
    destruct H as [E1 H1]; (split; [exact E1|]);
    intros ops'; destruct (run_refines ltb swo ops' _ _ _ H1) as (n2 & c2 & E2 & _); eauto.
Qed.

Theorem capacity_zero cap (ops0 ops : list op) :
  (forall o : lru_op K V, In o ops -> resizes o = false) ->
  (exists s, run_new ltb 0 ops = Ret (s, map zero_result ops)) /\
  (exists s rs0, length rs0 = length ops0 /\
     run_new ltb cap (ops0 ++ SetCapacity 0 :: ops) = Ret (s, rs0 ++ RUnit :: map zero_result ops)) /\
  (forall n ops', exists s rs0, length rs0 = length (ops0 ++ SetCapacity 0 :: ops) /\
     run_new ltb cap (ops0 ++ SetCapacity 0 :: ops ++ SetCapacity n :: ops') =
       Ret (s, rs0 ++ RUnit :: snd (s_run ltb (mkS n []) ops'))).
Proof.
  intros H. pose proof (zero_run ltb ops H) as Z. split; [|split].
  - destruct (run_new_refines (V:=V) ltb swo 0 ops) as (n & c & E & _). rewrite Z in E. eauto.
  - destruct (run_new_refines (V:=V) ltb swo cap (ops0 ++ SetCapacity 0 :: ops)) as (n & c & E & _).
    rewrite s_run_app in E. cbn [snd] in E.
    eexists _, _. split; [|rewrite E; f_equal; f_equal; f_equal; simpl; rewrite Z; reflexivity].
    apply s_run_length.
  - intros n ops'.
    destruct (run_new_refines (V:=V) ltb swo cap (ops0 ++ SetCapacity 0 :: ops ++ SetCapacity n :: ops')) as (n1 & c & E & _).
    assert (EQ : ops0 ++ SetCapacity 0 :: ops ++ SetCapacity n :: ops' =
                 (ops0 ++ SetCapacity 0 :: ops) ++ SetCapacity n :: ops') by now rewrite <- app_assoc.
    rewrite EQ in *. rewrite s_run_app in E. cbn [snd] in E.
    eexists _, (snd (s_run ltb (mkS cap []) (ops0 ++ SetCapacity 0 :: ops))). split; [apply s_run_length|].
    rewrite E. do 3 f_equal. rewrite s_run_app. cbn [fst]. simpl. rewrite Z. simpl. rewrite firstn_nil.
    destruct (s_run ltb (mkS n []) ops'); reflexivity.
Qed.

End Main.

(** A copy of a cache with one entry, then a lookup in the copy. *)
Lemma copy_refuted : exists ops : list (lru_wop nat nat),
  wrun Nat.ltb empty_world ops = Ub /\
  snd (sw_run Nat.ltb [] ops) = [None; Some (RBool true); None; Some (RGet true 10)].
Proof.
  exists [WNew 0 2; WCall 0 (Insert 1 10); WCopyCtor 1 0; WCall 1 (Get 1 0)].
  split; reflexivity.
Qed.

Definition fault_at (p : point) : faults := fun q =>
  match p, q with
  | PPushFront, PPushFront | PEmplace, PEmplace | PAssign, PAssign
  | PGetAssign, PGetAssign | PMovePush, PMovePush => true
  | _, _ => false
  end.

(** One failed emplace: afterwards the cache holds two entries at capacity 1. *)
Lemma emplace_throw_refuted : exists (ops : list (lru_op nat nat * faults)) s rs,
  run_faulty Nat.ltb (mkSt 0 (new_cache 1)) ops = Ret (s, rs) /\
  rs = [None; Some (RBool true); Some (RBool true); Some (RNat 2); Some (RNat 1)].
Proof.
  exists [(Insert 1 10, fault_at PEmplace); (Insert 2 20, no_fault); (Insert 3 30, no_fault);
          (Size, no_fault); (Capacity, no_fault)].
  do 2 eexists. split; reflexivity.
Qed.

(** One failed push_front in get: the next get of the same key uses a dangling iterator. *)
Lemma move_throw_refuted : exists ops : list (lru_op nat nat * faults),
  run_faulty Nat.ltb (mkSt 0 (new_cache 2)) ops = Ub /\
  (exists s, run_faulty Nat.ltb (mkSt 0 (new_cache 2)) (removelast ops) =
             Ret (s, [Some (RBool true); Some (RBool true); None])).
Proof.
  exists [(Insert 1 10, no_fault); (Insert 2 20, no_fault); (Get 1 0, fault_at PMovePush);
          (Get 1 0, no_fault)].
  split; [reflexivity|]. eexists. reflexivity.
Qed.
