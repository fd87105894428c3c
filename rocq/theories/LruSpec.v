(** Specification of an LRU cache, independent of the model: a list of (key, value) pairs,
    most recently used first. *)
From Coq Require Import List Bool Arith.
From Verif Require Import Base LruApi.
Import ListNotations.

Section Spec.
Context {K V : Type}.
Variable ltb : K -> K -> bool.
Local Notation eqk := (equivb ltb).

(** The pair whose key is equivalent to [k], if any. *)
Definition s_find (k : K) (l : list (K * V)) : option (K * V) :=
  find (fun e => eqk k (fst e)) l.
(** The list without the pairs whose key is equivalent to [k]. *)
Definition s_without (k : K) (l : list (K * V)) : list (K * V) :=
  filter (fun e => negb (eqk k (fst e))) l.

Record scache : Type := mkS { s_cap : nat; s_items : list (K * V) }.

Definition s_call (c : scache) (o : lru_op K V) : scache * lru_res V :=
  let l := s_items c in
  match o with
  | Size => (c, RNat (length l))
  | Capacity => (c, RNat (s_cap c))
  | Empty => (c, RBool (length l =? 0))
  | Contains k => (c, RBool (if s_find k l then true else false))
  | Clear => (mkS (s_cap c) [], RUnit)
  | SetCapacity n => (mkS n (firstn n l), RUnit)
  | Insert k v =>
      match s_find k l with
      | Some _ => (c, RBool false)
      | None => (mkS (s_cap c) (firstn (s_cap c) ((k, v) :: l)), RBool true)
      end
  | InsertOrAssign k v =>
      match s_find k l with
      | Some (k', _) => (mkS (s_cap c) ((k', v) :: s_without k l), RBool false)
      | None => (mkS (s_cap c) (firstn (s_cap c) ((k, v) :: l)), RBool true)
      end
  | Get k v0 =>
      match s_find k l with
      | Some (k', v) => (mkS (s_cap c) ((k', v) :: s_without k l), RGet true v)
      | None => (c, RGet false v0)
      end
  | Remove k =>
      match s_find k l with
      | Some _ => (mkS (s_cap c) (s_without k l), RBool true)
      | None => (c, RBool false)
      end
  end.

Fixpoint s_run (c : scache) (ops : list (lru_op K V)) : scache * list (lru_res V) :=
  match ops with
  | [] => (c, [])
  | o :: ops' =>
      let (c', r) := s_call c o in
      let (c'', rs) := s_run c' ops' in (c'', r :: rs)
  end.

(** Several independent caches: what a program using moves and copies should observe.
    After a move the source is empty and keeps its capacity; a copy equals its source. *)
Definition sw_get (h : nat) (w : list (nat * scache)) : option scache :=
  match find (fun x => fst x =? h) w with Some x => Some (snd x) | None => None end.
Definition sw_set (h : nat) (c : scache) (w : list (nat * scache)) : list (nat * scache) :=
  (h, c) :: filter (fun x => negb (fst x =? h)) w.

Definition sw_step (w : list (nat * scache)) (o : lru_wop K V)
  : list (nat * scache) * option (lru_res V) :=
  match o with
  | WNew h cap =>
      match sw_get h w with Some _ => (w, None) | None => (sw_set h (mkS cap []) w, None) end
  | WCall h o =>
      match sw_get h w with
      | None => (w, None)
      | Some c => (sw_set h (fst (s_call c o)) w, Some (snd (s_call c o)))
      end
  | WMoveCtor h src =>
      match sw_get h w, sw_get src w with
      | None, Some c => (sw_set h c (sw_set src (mkS (s_cap c) []) w), None)
      | _, _ => (w, None)
      end
  | WMoveAssign h src =>
      match sw_get h w, sw_get src w with
      | Some _, Some c =>
          if h =? src then (w, None) else (sw_set h c (sw_set src (mkS (s_cap c) []) w), None)
      | _, _ => (w, None)
      end
  | WCopyCtor h src =>
      match sw_get h w, sw_get src w with
      | None, Some c => (sw_set h c w, None)
      | _, _ => (w, None)
      end
  | WCopyAssign h src =>
      match sw_get h w, sw_get src w with
      | Some _, Some c => if h =? src then (w, None) else (sw_set h c w, None)
      | _, _ => (w, None)
      end
  | WDestroy h => (filter (fun x => negb (fst x =? h)) w, None)
  end.

Fixpoint sw_run (w : list (nat * scache)) (ops : list (lru_wop K V))
  : list (nat * scache) * list (option (lru_res V)) :=
  match ops with
  | [] => (w, [])
  | o :: ops' =>
      let (w', r) := sw_step w o in
      let (w'', rs) := sw_run w' ops' in (w'', r :: rs)
  end.

(** The program copies a cache. *)
Definition copies (o : lru_wop K V) : bool :=
  match o with WCopyCtor _ _ | WCopyAssign _ _ => true | _ => false end.
End Spec.

(** History vocabulary: statements about a sequence of calls and their results only. *)
Section History.
Context {K V : Type}.
Variable ltb : K -> K -> bool.
Local Notation eqk := (equivb ltb).

(** The value that a call stores for key [k] ([r] is its result). *)
Definition stores (k : K) (o : lru_op K V) (r : lru_res V) : option V :=
  match o, r with
  | Insert k' v, RBool true => if eqk k k' then Some v else None
  | InsertOrAssign k' v, _ => if eqk k k' then Some v else None
  | _, _ => None
  end.

(** The call discards key [k]. *)
Definition discards (k : K) (o : lru_op K V) : bool :=
  match o with
  | Clear => true
  | SetCapacity n => n =? 0
  | Remove k' => eqk k k'
  | _ => false
  end.

(** The call makes [k] the most recently used key ([r] is its result). *)
Definition refreshes (k : K) (o : lru_op K V) (r : lru_res V) : bool :=
  match o, r with
  | Insert k' _, RBool true => eqk k k'
  | InsertOrAssign k' _, _ => eqk k k'
  | Get k' _, RGet true _ => eqk k k'
  | _, _ => false
  end.

(** The key that a call uses (reads, stores or assigns). *)
Definition used_key (o : lru_op K V) : option K :=
  match o with
  | Insert k _ | InsertOrAssign k _ | Get k _ => Some k
  | _ => None
  end.

(** What each call returns on a cache of capacity 0. *)
Definition zero_result (o : lru_op K V) : lru_res V :=
  match o with
  | Size | Capacity => RNat 0
  | Empty => RBool true
  | Contains _ | Remove _ => RBool false
  | Clear | SetCapacity _ => RUnit
  | Insert _ _ | InsertOrAssign _ _ => RBool true
  | Get _ v0 => RGet false v0
  end.

(** The call can only remove pairs. *)
Definition removes (o : lru_op K V) : bool :=
  match o with Remove _ | Clear | SetCapacity _ => true | _ => false end.

(** The call resizes the cache. *)
Definition resizes (o : lru_op K V) : bool :=
  match o with SetCapacity _ => true | _ => false end.
End History.

(** Exceptions: what a call leaves behind when copying a key/value or allocating a list node
    throws at one of the harmless points.  [push], [assign], [get_assign] say whether that
    point throws.  [None]: the call does not reach a throwing point. *)
Section Faults.
Context {K V : Type}.
Variable ltb : K -> K -> bool.
Definition s_throw (push assign get_assign : bool) (c : scache (K:=K) (V:=V)) (o : lru_op K V)
  : option (scache (K:=K) (V:=V)) :=
  let l := s_items c in
  let without_lru := mkS (s_cap c) (firstn (s_cap c - 1) l) in
  match o with
  | Insert k _ =>
      match s_find ltb k l with
      | None => if push && negb (s_cap c =? 0) then Some without_lru else None
      | Some _ => None
      end
  | InsertOrAssign k _ =>
      match s_find ltb k l with
      | None => if push && negb (s_cap c =? 0) then Some without_lru else None
      | Some _ => if assign then Some c else None
      end
  | Get k _ =>
      match s_find ltb k l with
      | None => None
      | Some _ => if get_assign then Some c else None
      end
  | _ => None
  end.
End Faults.

(** Copies: the implicitly generated copy keeps the list iterators of its source.  A key of a cache is stale
    if its iterator was taken over by copying; it stays so until it leaves the cache.  The calls that follow a
    key's iterator are insert_or_assign, get and remove. *)
Section Copies.
Context {K V : Type}.
Variable ltb : K -> K -> bool.

Definition follows (o : lru_op K V) : option K :=
  match o with InsertOrAssign k _ | Get k _ | Remove k => Some k | _ => None end.

(** the stale keys of each cache *)
Definition stales : Type := nat -> list K.
Definition st_upd (h : nat) (ks : list K) (t : stales) : stales := fun x => if x =? h then ks else t x.
Definition st_step (w : list (nat * scache (K:=K) (V:=V))) (t : stales) (o : lru_wop K V) : stales :=
  match o with
  | WNew h cap => match sw_get h w with Some _ => t | None => st_upd h [] t end
  | WCall h o =>
      match sw_get h w with
      | None => t
      | Some c => st_upd h (filter (fun k => if s_find ltb k (s_items (fst (s_call ltb c o))) then true else false) (t h)) t
      end
  | WMoveCtor h src =>
      match sw_get h w, sw_get src w with None, Some _ => st_upd h (t src) (st_upd src [] t) | _, _ => t end
  | WMoveAssign h src =>
      match sw_get h w, sw_get src w with
      | Some _, Some _ => if h =? src then t else st_upd h (t src) (st_upd src [] t)
      | _, _ => t
      end
  | WCopyCtor h src =>
      match sw_get h w, sw_get src w with None, Some c => st_upd h (map fst (s_items c)) t | _, _ => t end
  | WCopyAssign h src =>
      match sw_get h w, sw_get src w with
      | Some _, Some c => if h =? src then t else st_upd h (map fst (s_items c)) t
      | _, _ => t
      end
  | WDestroy h => t
  end.

(** the step follows the iterator of a stale key *)
Definition misuse (w : list (nat * scache (K:=K) (V:=V))) (t : stales) (o : lru_wop K V) : bool :=
  match o with
  | WCall h o =>
      match sw_get h w, follows o with
      | Some _, Some k => existsb (equivb ltb k) (t h)
      | _, _ => false
      end
  | _ => false
  end.
Fixpoint misuses (w : list (nat * scache (K:=K) (V:=V))) (t : stales) (ops : list (lru_wop K V)) : bool :=
  match ops with
  | [] => false
  | o :: ops' => misuse w t o || misuses (fst (sw_step ltb w o)) (st_step w t o) ops'
  end.
End Copies.
