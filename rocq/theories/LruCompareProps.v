(** C194: the cache when comparing keys throws. *)
From Coq Require Import List Bool Arith Lia.
From Verif Require Import Base LruApi LruModel LruSpec LruCompareModel LruCompareSpec LruCompareProofs.
Import ListNotations.

(** C194 refuted (1): a capacity(n) that throws leaves more pairs than the new capacity, and
    inserting does not bring the size down; setting the capacity again does. *)
Theorem lru_compare_capacity_refuted : exists s,
  run_c Nat.ltb (mkSt 0 (new_cache 3))
    [(Insert 1 10, no_cmp); (Insert 2 20, no_cmp); (Insert 3 30, no_cmp);
     (SetCapacity 1, mkCmp false (Some 1) false); (Size, no_cmp); (Capacity, no_cmp);
     (Insert 4 40, no_cmp); (Size, no_cmp); (SetCapacity 1, no_cmp); (Size, no_cmp)] =
  Ret (s, [Some (RBool true); Some (RBool true); Some (RBool true); None; Some (RNat 2); Some (RNat 1);
           Some (RBool true); Some (RNat 2); Some RUnit; Some (RNat 1)]).
Proof. exact cmp_capacity_witness. Qed.
Print Assumptions lru_compare_capacity_refuted.

(** C194 refuted (2): after a throw inside emplace the cache grows beyond its capacity. *)
Theorem lru_compare_emplace_refuted : exists s,
  run_c Nat.ltb (mkSt 0 (new_cache 2))
    [(Insert 1 10, no_cmp); (Insert 2 20, mkCmp false None true); (Insert 3 30, no_cmp);
     (Insert 4 40, no_cmp); (Insert 5 50, no_cmp); (Size, no_cmp); (Capacity, no_cmp)] =
  Ret (s, [Some (RBool true); None; Some (RBool true); Some (RBool true); Some (RBool true);
           Some (RNat 3); Some (RNat 2)]).
Proof. exact cmp_emplace_witness. Qed.
Print Assumptions lru_compare_emplace_refuted.

(** C194, true part: in every history in which looking up and evicting may throw (but not
    emplace), no call is undefined and every result is the one [LruCompareSpec] gives. *)
Theorem lru_compare_partial :
  forall (K V : Type) (ltb : K -> K -> bool), strict_weak_order ltb ->
  forall (cap : nat) (ops : list (lru_op K V * cmp_faults)),
  (forall o cf, In (o, cf) ops -> in_emplace cf = false) ->
  exists s, run_c ltb (mkSt 0 (new_cache cap)) ops =
    Ret (s, snd (cmp_run ltb (mkS cap []) (map (fun x => (fst x, (in_find (snd x), in_erase (snd x)))) ops))).
Proof. exact @cmp_history. Qed.
Print Assumptions lru_compare_partial.
Example lru_compare_partial_ex :
  snd (cmp_run Nat.ltb (mkS 2 []) [(Insert 1 10, (false, None)); (Insert 2 20, (false, None));
    (Get 1 0, (true, None)); (Insert 3 30, (false, Some 0)); (Insert 3 30, (false, Some 1)); (Contains 1, (false, None))]) =
  [Some (RBool true); Some (RBool true); None; None; Some (RBool true); Some (RBool false)].
Proof. reflexivity. Qed.

(** A call that throws changes nothing, except that capacity(n) has already taken the new
    capacity, has dropped some of the least recently used pairs, and keeps more than [n]. *)
Theorem lru_compare_throw_partial :
  forall (K V : Type) (ltb : K -> K -> bool) (lookup : bool) (drop : option nat)
    (a a' : scache (K:=K) (V:=V)) (o : lru_op K V),
  cmp_throw ltb lookup drop a o = Some a' ->
  match o with
  | SetCapacity n => s_cap a' = n /\ n < length (s_items a') /\ exists dropped, s_items a = s_items a' ++ dropped
  | _ => a' = a
  end.
Proof. exact @cmp_throw_keeps. Qed.
Print Assumptions lru_compare_throw_partial.
Example lru_compare_throw_partial_ex :
  cmp_throw Nat.ltb false (Some 1) (mkS 3 [(3, 30); (2, 20); (1, 10)]) (SetCapacity 1) = Some (mkS 1 [(3, 30); (2, 20)]) /\
  cmp_throw Nat.ltb false (Some 0) (mkS 2 [(2, 20); (1, 10)]) (Insert 3 30) = Some (mkS 2 [(2, 20); (1, 10)]).
Proof. split; reflexivity. Qed.

(** Once above its capacity the cache keeps its size, whatever is looked up, inserted or
    assigned: only remove, clear and capacity(n) bring it down. *)
Theorem lru_compare_stays_partial :
  forall (K V : Type) (ltb : K -> K -> bool), strict_weak_order ltb ->
  forall (cap : nat) (ops ops' : list (lru_op K V * (bool * option nat))),
  let a := fst (cmp_run ltb (mkS cap []) ops) in
  s_cap a < length (s_items a) -> (forall x, In x ops' -> shrinks (fst x) = false) ->
  let a' := fst (cmp_run ltb a ops') in
  length (s_items a') = length (s_items a) /\ s_cap a' = s_cap a.
Proof. exact @cmp_over_stays. Qed.
Print Assumptions lru_compare_stays_partial.
Example lru_compare_stays_partial_ex :
  let ops : list (lru_op nat nat * (bool * option nat)) :=
    [(Insert 1 10, (false, None)); (Insert 2 20, (false, None)); (SetCapacity 1, (false, Some 0))] in
  fst (cmp_run Nat.ltb (mkS 2 []) ops) = mkS 1 [(2, 20); (1, 10)] /\
  fst (cmp_run Nat.ltb (fst (cmp_run Nat.ltb (mkS 2 []) ops)) [(Insert 3 30, (false, None))]) = mkS 1 [(3, 30); (2, 20)].
Proof. split; reflexivity. Qed.

(** Within its capacity a cache behaves as in the specification without exceptions. *)
Theorem lru_compare_within_partial :
  forall (K V : Type) (ltb : K -> K -> bool) (a : scache (K:=K) (V:=V)) (o : lru_op K V),
  length (s_items a) <= s_cap a -> over_call ltb a o = s_call ltb a o.
Proof. exact @over_call_within. Qed.
Print Assumptions lru_compare_within_partial.
Example lru_compare_within_partial_ex :
  over_call Nat.ltb (mkS 2 [(2, 20); (1, 10)]) (Insert 3 30) = (mkS 2 [(3, 30); (2, 20)], RBool true) /\
  over_call Nat.ltb (mkS 1 [(2, 20); (1, 10)]) (Insert 3 30) = (mkS 1 [(3, 30); (2, 20)], RBool true).
Proof. split; reflexivity. Qed.

(** When no comparison throws, every call is the one modelled in [LruModel]. *)
Theorem lru_compare_model_partial :
  forall (K V : Type) (ltb : K -> K -> bool) (o : lru_op K V) (s : st),
  call_c ltb no_cmp o s = call ltb no_fault o s.
Proof. exact @call_c_no_cmp. Qed.
Print Assumptions lru_compare_model_partial.
Example lru_compare_model_partial_ex :
  call_c Nat.ltb no_cmp (Insert 1 10) (mkSt 0 (new_cache 1)) = Ret (mkSt 1 (mkCache 1 [(0, 1)] [(1, (10, 0))]), Val (RBool true)).
Proof. reflexivity. Qed.
