(** Property theorems C01-C08: lru_cache. *)
From Coq Require Import List Bool Arith.
From Verif Require Import Base LruApi LruModel LruSpec LruHistory LruCopy LruFaults LruMain.
Import ListNotations.

(** C01: after any sequence of calls size() <= capacity(), and size() is the number of
    pairwise different keys for which contains() is true. *)
Theorem lru_size_within_capacity :
  forall (K V : Type) (ltb : K -> K -> bool), strict_weak_order ltb ->
  forall (cap : nat) (ops : list (lru_op K V)),
  exists s rs n c keys, run_new ltb cap ops = Ret (s, rs) /\
    call ltb no_fault Size s = Ret (s, Val (RNat n)) /\
    call ltb no_fault Capacity s = Ret (s, Val (RNat c)) /\
    call ltb no_fault Empty s = Ret (s, Val (RBool (n =? 0))) /\
    n <= c /\ length keys = n /\ ForallOrdPairs (fun x y => equivb ltb x y = false) keys /\
    (forall k, call ltb no_fault (Contains k) s =
               Ret (s, Val (RBool (existsb (equivb ltb k) keys)))).
Proof. exact @size_within_capacity. Qed.
Print Assumptions lru_size_within_capacity.
Example lru_size_within_capacity_ex :
  strict_weak_order Nat.ltb /\
  exists s, run_new Nat.ltb 2 [Insert 1 10; Insert 2 20; Get 1 0; Insert 3 30; Size; Contains 2] =
  Ret (s, [RBool true; RBool true; RGet true 10; RBool true; RNat 2; RBool false]).
Proof. split; [apply nat_ltb_swo|]. eexists. vm_compute. reflexivity. Qed.

(** C02: every call returns what the textbook recency list returns. *)
Theorem lru_refines_recency_list :
  forall (K V : Type) (ltb : K -> K -> bool), strict_weak_order ltb ->
  forall (cap : nat) (ops : list (lru_op K V)),
  exists s, run_new ltb cap ops = Ret (s, snd (s_run ltb (mkS cap []) ops)).
Proof. exact @refines_recency_list. Qed.
Print Assumptions lru_refines_recency_list.
Example lru_refines_recency_list_ex :
  snd (s_run Nat.ltb (mkS 2 []) [Insert 1 10; InsertOrAssign 2 20; InsertOrAssign 1 11; Insert 3 30;
                                 Get 2 0; Get 1 0; SetCapacity 1; Get 3 0; Remove 1; Size]) =
  [RBool true; RBool true; RBool false; RBool true; RGet false 0; RGet true 11; RUnit;
   RGet false 0; RBool true; RNat 0].
Proof. reflexivity. Qed.

(** C03: get returns the value of the latest call that stored one, and nothing discarded the
    key since; a failed get leaves the output variable alone. *)
Theorem lru_get_returns_latest :
  forall (K V : Type) (ltb : K -> K -> bool), strict_weak_order ltb ->
  forall (cap : nat) (ops : list (lru_op K V)) (k : K) (v0 : V) s rs r,
  run_new ltb cap (ops ++ [Get k v0]) = Ret (s, rs ++ [r]) ->
  match r with
  | RGet true v =>
      exists pre (o : lru_op K V) r post, combine ops rs = pre ++ (o, r) :: post /\
        stores ltb k o r = Some v /\
        (forall o' r', In (o', r') post -> stores ltb k o' r' = None /\ discards ltb k o' = false)
  | RGet false v => v = v0
  | _ => False
  end.
Proof. exact @get_returns_latest. Qed.
Print Assumptions lru_get_returns_latest.
Example lru_get_returns_latest_ex :
  exists s, run_new Nat.ltb 2 ([Insert 1 10; InsertOrAssign 1 11; Insert 1 12; Insert 2 20] ++ [Get 1 0]) =
    Ret (s, [RBool true; RBool false; RBool false; RBool true] ++ [RGet true 11]).
Proof. eexists. vm_compute. reflexivity. Qed.

(** C04: a key just used survives while all other keys used come from fewer than capacity keys. *)
Theorem lru_used_key_survives :
  forall (K V : Type) (ltb : K -> K -> bool), strict_weak_order ltb ->
  forall (cap : nat) (ops0 : list (lru_op K V)) s0 rs0 c0 s0' o s1 r k D ops,
  run_new ltb cap ops0 = Ret (s0, rs0) ->
  call ltb no_fault Capacity s0 = Ret (s0', Val (RNat c0)) -> length D < c0 ->
  call ltb no_fault o s0 = Ret (s1, Val r) -> refreshes ltb k o r = true ->
  (forall o' : lru_op K V, In o' ops -> discards ltb k o' = false /\ resizes o' = false /\
     (forall j, used_key o' = Some j -> equivb ltb k j = true \/ existsb (equivb ltb j) D = true)) ->
  exists s2 rs, run_ops ltb s1 ops = Ret (s2, rs) /\
    call ltb no_fault (Contains k) s2 = Ret (s2, Val (RBool true)).
Proof. exact @used_key_survives. Qed.
Print Assumptions lru_used_key_survives.
(** capacity 3, key 1 just read, then only keys 5 and 6 are used (many times) *)
Example lru_used_key_survives_ex :
  exists s0 rs0 s1,
    run_new Nat.ltb 3 [Insert 1 10; Insert 2 20; Insert 3 30] = Ret (s0, rs0) /\
    call Nat.ltb no_fault Capacity s0 = Ret (s0, Val (RNat 3)) /\ length [5; 6] < 3 /\
    call Nat.ltb no_fault (Get 1 0) s0 = Ret (s1, Val (RGet true 10)) /\
    refreshes Nat.ltb 1 (Get 1 0) (RGet true 10) = true /\
    Forall (fun o' : lru_op nat nat => discards Nat.ltb 1 o' = false /\ resizes o' = false)
      [Insert 5 50; Insert 6 60; InsertOrAssign 5 51; Get 6 0; Remove 5; Insert 5 52].
Proof.
  do 3 eexists. split; [vm_compute; reflexivity|]. split; [vm_compute; reflexivity|]. split; [repeat constructor|].
  split; [vm_compute; reflexivity|]. split; [vm_compute; reflexivity|]. repeat constructor.
Qed.

(** C04, converse: after assigning capacity many different other keys it is gone. *)
Theorem lru_unused_key_is_evicted :
  forall (K V : Type) (ltb : K -> K -> bool), strict_weak_order ltb ->
  forall (cap : nat) (ops0 : list (lru_op K V)) s0 rs0 c0 s0' k D ops,
  run_new ltb cap ops0 = Ret (s0, rs0) ->
  call ltb no_fault Capacity s0 = Ret (s0', Val (RNat c0)) -> c0 <= length D ->
  ForallOrdPairs (fun x y => equivb ltb x y = false) D ->
  (forall d, In d D -> exists d' v, In (InsertOrAssign d' v) ops /\ equivb ltb d d' = true) ->
  (forall o : lru_op K V, In o ops -> removes o = false /\
     (forall j, used_key o = Some j -> equivb ltb k j = false)) ->
  exists s1 rs, run_ops ltb s0 ops = Ret (s1, rs) /\
    call ltb no_fault (Contains k) s1 = Ret (s1, Val (RBool false)).
Proof. exact @unused_key_is_evicted. Qed.
Print Assumptions lru_unused_key_is_evicted.
Example lru_unused_key_is_evicted_ex :
  exists s0 rs0, run_new Nat.ltb 2 [Insert 1 10] = Ret (s0, rs0) /\
    call Nat.ltb no_fault Capacity s0 = Ret (s0, Val (RNat 2)) /\
    ForallOrdPairs (fun x y => equivb Nat.ltb x y = false) [5; 6] /\
    Forall (fun o : lru_op nat nat => removes o = false)
      [InsertOrAssign 5 1; Get 7 0; InsertOrAssign 5 2; InsertOrAssign 6 1].
Proof. do 2 eexists. split; [vm_compute; reflexivity|]. split; [vm_compute; reflexivity|]. split; repeat constructor. Qed.

(** C05: programs using any number of caches with moves but without copies never run into
    undefined behaviour or an endless loop, and each cache is an independent recency list. *)
Theorem lru_no_undefined_behaviour :
  forall (K V : Type) (ltb : K -> K -> bool), strict_weak_order ltb ->
  forall ops, (forall o : lru_wop K V, In o ops -> copies o = false) ->
  exists w, wrun ltb empty_world ops = Ret (w, snd (sw_run ltb [] ops)).
Proof. exact @world_without_copies. Qed.
Print Assumptions lru_no_undefined_behaviour.
Example lru_no_undefined_behaviour_ex :
  let ops := [WNew 0 2; WCall 0 (Insert 1 10); WMoveCtor 1 0; WCall 1 (Get 1 0); WCall 0 (Insert 4 40);
              WMoveAssign 1 0; WCall 1 (Get 4 0); WCall 1 (Get 1 0); WDestroy 0; WCall 1 Size] in
  forallb (fun o => negb (copies o)) ops = true /\
  snd (sw_run Nat.ltb [] ops) =
    [None; Some (RBool true); None; Some (RGet true 10); Some (RBool true); None;
     Some (RGet true 40); Some (RGet false 0); None; Some (RNat 1)].
Proof. split; reflexivity. Qed.

(** C06: copying is broken: for every reachable cache and every key it contains, using that key
    through the copy (get, insert_or_assign, remove) is undefined behaviour. *)
Theorem lru_copy_use_undefined :
  forall (K V : Type) (ltb : K -> K -> bool), strict_weak_order ltb ->
  forall (cap : nat) (ops : list (lru_op K V)) s rs k o n',
  run_new ltb cap ops = Ret (s, rs) ->
  call ltb no_fault (Contains k) s = Ret (s, Val (RBool true)) ->
  nxt s <= n' ->
  (o = Remove k \/ (exists v0 : V, o = Get k v0) \/ (exists v, o = InsertOrAssign k v)) ->
  call ltb no_fault o (mkSt n' (copy_cache (nxt s) (obj s))) = Ub.
Proof. exact @copy_of_used_cache_is_undefined. Qed.
Print Assumptions lru_copy_use_undefined.
Example lru_copy_use_undefined_ex :
  exists s rs, run_new Nat.ltb 2 [Insert 1 10; Insert 2 20] = Ret (s, rs) /\
    call Nat.ltb no_fault (Contains 1) s = Ret (s, Val (RBool true)).
Proof. do 2 eexists. split; vm_compute; reflexivity. Qed.

(** C06 refuted: a program that should print [10] is undefined. *)
Theorem lru_copy_refuted : exists ops : list (lru_wop nat nat),
  wrun Nat.ltb empty_world ops = Ub /\
  snd (sw_run Nat.ltb [] ops) = [None; Some (RBool true); None; Some (RGet true 10)].
Proof. exact copy_refuted. Qed.
Print Assumptions lru_copy_refuted.
(** C06, what holds: a program using any number of caches with copies and moves does what it should, each
    cache a recency list of its own, unless it calls get, insert_or_assign or remove with a stale key: one
    that is in the cache since the cache was made by copying. *)
Theorem lru_copies_partial :
  forall (K V : Type) (ltb : K -> K -> bool), strict_weak_order ltb ->
  forall ops : list (lru_wop K V), misuses ltb [] (fun _ => []) ops = false ->
  exists w, wrun ltb empty_world ops = Ret (w, snd (sw_run ltb [] ops)).
Proof. exact (fun K V ltb swo ops => proj1 (world_with_copies ltb swo ops)). Qed.
Print Assumptions lru_copies_partial.
Example lru_copies_ex :
  let ops := [WNew 0 2; WCall 0 (Insert 1 10); WCall 0 (Insert 2 20); WCopyCtor 1 0;
              WCall 1 (Contains 1); WCall 1 (Insert 3 30); WCall 1 (Contains 1); WCall 1 (Get 3 0);
              WCall 0 (Get 1 0); WCall 1 (Insert 1 11); WCall 1 (Get 1 0); WCall 1 Size] in
  misuses Nat.ltb [] (fun _ => []) ops = false /\
  snd (sw_run Nat.ltb [] ops) =
    [None; Some (RBool true); Some (RBool true); None; Some (RBool true); Some (RBool true); Some (RBool false);
     Some (RGet true 30); Some (RGet true 10); Some (RBool true); Some (RGet true 11); Some (RNat 2)].
Proof. split; reflexivity. Qed.
(** and any program that makes such a call is undefined *)
Theorem lru_stale_use_undefined :
  forall (K V : Type) (ltb : K -> K -> bool), strict_weak_order ltb ->
  forall ops : list (lru_wop K V), misuses ltb [] (fun _ => []) ops = true -> wrun ltb empty_world ops = Ub.
Proof. exact (fun K V ltb swo ops => proj2 (world_with_copies ltb swo ops)). Qed.
Print Assumptions lru_stale_use_undefined.
Example lru_stale_use_undefined_ex :
  misuses Nat.ltb [] (fun _ => []) [WNew 0 3; WCall 0 (Insert 1 10); WCopyCtor 1 0; WCall 1 (Insert 2 20); WMoveCtor 2 1; WCall 2 (Remove 1)] = true.
Proof. reflexivity. Qed.

(** C07 refuted (1): after one failed emplace the cache exceeds its capacity. *)
Theorem lru_exception_capacity_refuted : exists (ops : list (lru_op nat nat * faults)) s rs,
  run_faulty Nat.ltb (mkSt 0 (new_cache 1)) ops = Ret (s, rs) /\
  rs = [None; Some (RBool true); Some (RBool true); Some (RNat 2); Some (RNat 1)].
Proof. exact emplace_throw_refuted. Qed.
Print Assumptions lru_exception_capacity_refuted.

(** C07 refuted (2): after one failed push_front in get, the next get is undefined. *)
Theorem lru_exception_safety_refuted : exists ops : list (lru_op nat nat * faults),
  run_faulty Nat.ltb (mkSt 0 (new_cache 2)) ops = Ub /\
  (exists s, run_faulty Nat.ltb (mkSt 0 (new_cache 2)) (removelast ops) =
             Ret (s, [Some (RBool true); Some (RBool true); None])).
Proof. exact move_throw_refuted. Qed.
Print Assumptions lru_exception_safety_refuted.

(** C07, true part: exceptions at all other points leave a consistent cache... *)
Theorem lru_exceptions_partial :
  forall (K V : Type) (ltb : K -> K -> bool), strict_weak_order ltb ->
  forall (cap : nat) (ops : list (lru_op K V * faults)),
  (forall o f, In (o, f) ops -> harmless f) ->
  exists s rs a, run_faulty ltb (mkSt 0 (new_cache cap)) ops = Ret (s, rs) /\
    length (s_items a) <= s_cap a /\
    forall ops' : list (lru_op K V), exists s', run_ops ltb s ops' = Ret (s', snd (s_run ltb a ops')).
Proof. exact @harmless_faults. Qed.
Print Assumptions lru_exceptions_partial.
Example lru_exceptions_partial_ex :
  harmless (fault_at PPushFront) /\ harmless (fault_at PAssign) /\ harmless (fault_at PGetAssign) /\
  exists s, run_faulty Nat.ltb (mkSt 0 (new_cache 1))
    [(Insert 1 10, no_fault); (Insert 2 20, fault_at PPushFront); (Size, no_fault)] =
    Ret (s, [Some (RBool true); None; Some (RNat 0)]).
Proof. repeat split. eexists. vm_compute. reflexivity. Qed.

(** ... and the contents are exactly the old ones, or the old ones without the least recently
    used pair (when the exception came after the eviction). *)
Theorem lru_throwing_call_partial :
  forall (K V : Type) (ltb : K -> K -> bool), strict_weak_order ltb ->
  forall (cap : nat) (ops : list (lru_op K V)) s rs o f,
  run_new ltb cap ops = Ret (s, rs) -> harmless f ->
  let a := fst (s_run ltb (mkS cap []) ops) in
  exists s1,
    match s_throw ltb (f PPushFront) (f PAssign) (f PGetAssign) a o with
    | Some a' => call ltb f o s = Ret (s1, Thrown) /\
        forall ops' : list (lru_op K V), exists s', run_ops ltb s1 ops' = Ret (s', snd (s_run ltb a' ops'))
    | None => call ltb f o s = Ret (s1, Val (snd (s_call ltb a o))) /\
        forall ops' : list (lru_op K V),
          exists s', run_ops ltb s1 ops' = Ret (s', snd (s_run ltb (fst (s_call ltb a o)) ops'))
    end.
Proof. exact @throwing_call. Qed.
Print Assumptions lru_throwing_call_partial.
Example lru_throwing_call_partial_ex :
  s_throw Nat.ltb true false false (mkS 2 [(1, 10); (2, 20)]) (Insert 3 30) = Some (mkS 2 [(1, 10)]).
Proof. reflexivity. Qed.

(** C08: with capacity 0 everything is accepted and nothing is stored. *)
Theorem lru_capacity_zero :
  forall (K V : Type) (ltb : K -> K -> bool), strict_weak_order ltb ->
  forall (cap : nat) (ops0 ops : list (lru_op K V)),
  (forall o : lru_op K V, In o ops -> resizes o = false) ->
  (exists s, run_new ltb 0 ops = Ret (s, map zero_result ops)) /\
  (exists s rs0, length rs0 = length ops0 /\
     run_new ltb cap (ops0 ++ SetCapacity 0 :: ops) = Ret (s, rs0 ++ RUnit :: map zero_result ops)) /\
  (forall n ops', exists s rs0, length rs0 = length (ops0 ++ SetCapacity 0 :: ops) /\
     run_new ltb cap (ops0 ++ SetCapacity 0 :: ops ++ SetCapacity n :: ops') =
       Ret (s, rs0 ++ RUnit :: snd (s_run ltb (mkS n []) ops'))).
Proof. exact @capacity_zero. Qed.
Print Assumptions lru_capacity_zero.
Example lru_capacity_zero_ex :
  Forall (fun o : lru_op nat nat => resizes o = false) [Insert 1 10; Get 1 7; InsertOrAssign 1 11; Size] /\
  map zero_result [Insert 1 10; Get 1 7; InsertOrAssign 1 11; Size] =
    [RBool true; RGet false 7; RBool true; RNat 0].
Proof. split; [repeat constructor|reflexivity]. Qed.
