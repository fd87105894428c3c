(** Vocabulary of the lru_cache interface: calls and results. *)
From Coq Require Import List.

(** The public calls of lru_cache (lru_cache.hpp:33-114).  [Get k v0] is
    [get(k, v)] where [v] holds [v0] before the call. *)
Inductive lru_op (K V : Type) : Type :=
| Size
| Capacity
| Empty
| Contains (k : K)
| Clear
| SetCapacity (n : nat)
| Insert (k : K) (v : V)
| InsertOrAssign (k : K) (v : V)
| Get (k : K) (v0 : V)
| Remove (k : K).
Arguments Size {K V}.
Arguments Capacity {K V}.
Arguments Empty {K V}.
Arguments Contains {K V} k.
Arguments Clear {K V}.
Arguments SetCapacity {K V} n.
Arguments Insert {K V} k v.
Arguments InsertOrAssign {K V} k v.
Arguments Get {K V} k v0.
Arguments Remove {K V} k.

(** Results; [RGet b v] is the returned bool and the final value of the output variable. *)
Inductive lru_res (V : Type) : Type :=
| RUnit
| RNat (n : nat)
| RBool (b : bool)
| RGet (b : bool) (v : V).
Arguments RUnit {V}.
Arguments RNat {V} n.
Arguments RBool {V} b.
Arguments RGet {V} b v.

(** Programs using several cache objects (named by numbers). *)
Inductive lru_wop (K V : Type) : Type :=
| WNew (h : nat) (cap : nat)          (* lru_cache h{cap} *)
| WCall (h : nat) (o : lru_op K V)    (* h.o(...) *)
| WMoveCtor (h src : nat)             (* lru_cache h{std::move(src)} *)
| WMoveAssign (h src : nat)           (* h = std::move(src), h and src different objects *)
| WCopyCtor (h src : nat)             (* lru_cache h{src} *)
| WCopyAssign (h src : nat)           (* h = src *)
| WDestroy (h : nat).                 (* end of h's lifetime *)
Arguments WNew {K V} h cap.
Arguments WCall {K V} h o.
Arguments WMoveCtor {K V} h src.
Arguments WMoveAssign {K V} h src.
Arguments WCopyCtor {K V} h src.
Arguments WCopyAssign {K V} h src.
Arguments WDestroy {K V} h.
