(** Model of /repo/include/pluto/lru_cache.hpp.

    std::list elements are heap nodes with an identity (a number); a list iterator is the
    identity of the node it points to.  Every use of an iterator checks that the node really
    is an element of the list it is used with; if not the outcome is [Ub].  std::map is an
    association list (iteration order is never observed by the class); lookup uses equivalence
    under the key's strict weak order.  std::size_t is [nat] (sizes cannot reach 2^64). *)
From Coq Require Import List Bool Arith.
From Verif Require Import Base LruApi.
Import ListNotations.

Section Lru.
Context {K V : Type}.
Variable ltb : K -> K -> bool.   (* operator< of the key type *)

Local Notation eqk := (equivb ltb).

(** lru_cache.hpp:27-30: m_capacity, m_list (front = most recently used, nodes with
    identities), m_map (key -> value and list iterator). *)
Record cache : Type := mkCache {
  m_capacity : nat;
  m_list : list (nat * K);
  m_map : list (K * (V * nat))
}.

(** State seen by one call: the supply of fresh node identities and the object. *)
Record st : Type := mkSt { nxt : nat; obj : cache }.

(** A call either yields a value or exits by exception; the state is kept in both cases. *)
Inductive exn (A : Type) : Type := Val (a : A) | Thrown.
Arguments Val {A} a.
Arguments Thrown {A}.

Definition M (A : Type) : Type := st -> outcome (st * exn A).

Definition ret {A} (a : A) : M A := fun s => Ret (s, Val a).
Definition ub {A} : M A := fun _ => Ub.
Definition bind {A B} (m : M A) (f : A -> M B) : M B := fun s =>
  match m s with
  | Ret (s', Val a) => f a s'
  | Ret (s', Thrown) => Ret (s', Thrown)
  | Ub => Ub
  | Throw => Throw
  | OutOfFuel => OutOfFuel
  end.
Local Notation "x <- m ;; k" := (bind m (fun x => k)) (at level 61, m at next level, right associativity).
Local Notation "m ;; k" := (bind m (fun _ => k)) (at level 61, right associativity).
Definition get_obj : M cache := fun s => Ret (s, Val (obj s)).
Definition put_list (l : list (nat * K)) : M unit := fun s =>
  Ret (mkSt (nxt s) (mkCache (m_capacity (obj s)) l (m_map (obj s))), Val tt).
Definition put_map (m : list (K * (V * nat))) : M unit := fun s =>
  Ret (mkSt (nxt s) (mkCache (m_capacity (obj s)) (m_list (obj s)) m), Val tt).
Definition put_capacity (n : nat) : M unit := fun s =>
  Ret (mkSt (nxt s) (mkCache n (m_list (obj s)) (m_map (obj s))), Val tt).

(** Program points at which an allocation or a copy of a key/value can throw:
    - [PPushFront]: lru_cache.hpp:131, node allocation / key copy of push_front in insert;
    - [PEmplace]: lru_cache.hpp:132, node allocation / key and value copies of emplace;
    - [PAssign]: lru_cache.hpp:140, value assignment in insert_or_assign;
    - [PGetAssign]: lru_cache.hpp:98, value assignment to the output variable;
    - [PMovePush]: lru_cache.hpp:154, push_front in move_to_front. *)
Inductive point : Type := PPushFront | PEmplace | PAssign | PGetAssign | PMovePush.

(** Which points throw in this call. *)
Definition faults : Type := point -> bool.
Definition no_fault : faults := fun _ => false.

Definition may_throw (f : faults) (p : point) : M unit := fun s =>
  if f p then Ret (s, Thrown) else Ret (s, Val tt).

(** std::list::erase(iterator): undefined unless the node belongs to this list. *)
Definition list_erase (n : nat) : M unit :=
  c <- get_obj ;;
  if existsb (fun x => fst x =? n) (m_list c)
  then put_list (filter (fun x => negb (fst x =? n)) (m_list c))
  else ub.

(** std::list::push_front(key): a fresh node at the front. *)
Definition list_push_front (k : K) : M unit := fun s =>
  Ret (mkSt (S (nxt s))
            (mkCache (m_capacity (obj s)) ((nxt s, k) :: m_list (obj s)) (m_map (obj s))),
       Val tt).

(** std::list::begin(): the first node, or the end position ([None]). *)
Definition list_begin (l : list (nat * K)) : option nat :=
  match l with [] => None | x :: _ => Some (fst x) end.

(** --m_list.end(): the last node; undefined on an empty list. *)
Definition list_last (l : list (nat * K)) : option (nat * K) :=
  match l with [] => None | x :: l' => Some (last l' x) end.

(** std::map::find(key). *)
Definition map_find (k : K) (m : list (K * (V * nat))) : option (K * (V * nat)) :=
  find (fun e => eqk k (fst e)) m.

(** std::map::erase(key), and erase(iterator) given the key stored at the iterator. *)
Definition map_erase (k : K) (m : list (K * (V * nat))) : list (K * (V * nat)) :=
  filter (fun e => negb (eqk k (fst e))) m.

(** Assignment through an iterator: itMap->second = x, the entry identified by its key. *)
Definition map_set (k : K) (x : V * nat) (m : list (K * (V * nat))) : list (K * (V * nat)) :=
  map (fun e => if eqk k (fst e) then (fst e, x) else e) m.

(** std::map::emplace(key, x): no effect if an equivalent key is present. *)
Definition map_emplace (k : K) (x : V * nat) (m : list (K * (V * nat))) : list (K * (V * nat)) :=
  match map_find k m with
  | Some _ => m
  | None => (k, x) :: m
  end.

(** lru_cache.hpp:36-39 size() *)
Definition size : M nat := c <- get_obj ;; ret (length (m_map c)).
(** lru_cache.hpp:41-44 capacity() *)
Definition capacity : M nat := c <- get_obj ;; ret (m_capacity c).
(** lru_cache.hpp:46-49 empty() *)
Definition empty : M bool := c <- get_obj ;;
  ret (match m_map c with [] => true | _ => false end).
(** lru_cache.hpp:51-54 contains(key) *)
Definition contains (k : K) : M bool := c <- get_obj ;;
  ret (match map_find k (m_map c) with Some _ => true | None => false end).
(** lru_cache.hpp:56-60 clear() *)
Definition clear : M unit := put_map [] ;; put_list [].

(** lru_cache.hpp:160-166 evict_lru() *)
Definition evict_lru : M unit :=
  c <- get_obj ;;
  match list_last (m_list c) with
  | None => ub
  | Some (n, k) =>
      put_map (map_erase k (m_map c)) ;;
      list_erase n
  end.

(** lru_cache.hpp:72-76 the while loop of capacity(newCapacity).  [fuel] bounds the number of
    iterations; running out is [OutOfFuel] (divergence), not a result. *)
Fixpoint evict_while (fuel : nat) : M unit :=
  c <- get_obj ;;
  if m_capacity c <? length (m_map c) then
    match fuel with
    | 0 => fun _ => OutOfFuel
    | S fuel' => evict_lru ;; evict_while fuel'
    end
  else ret tt.

(** lru_cache.hpp:62-78 capacity(newCapacity).  The fuel is the number of list nodes: each
    iteration erases a list node and is undefined once there is none left. *)
Definition set_capacity (n : nat) : M unit :=
  put_capacity n ;;
  c <- get_obj ;;
  if m_capacity c =? 0 then clear
  else evict_while (S (length (m_list c))).

(** lru_cache.hpp:147-158 move_to_front(itMap); [e] is the map entry at itMap. *)
Definition move_to_front (f : faults) (e : K * (V * nat)) : M unit :=
  c <- get_obj ;;
  let itList := snd (snd e) in
  if match list_begin (m_list c) with Some b => b =? itList | None => false end
  then ret tt
  else
    list_erase itList ;;
    may_throw f PMovePush ;;
    list_push_front (fst e) ;;
    c <- get_obj ;;
    match list_begin (m_list c) with
    | Some b => put_map (map_set (fst e) (fst (snd e), b) (m_map c))
    | None => ub
    end.

(** lru_cache.hpp:116-145 insert(key, value, orAssign) *)
Definition insert_impl (f : faults) (k : K) (v : V) (orAssign : bool) : M bool :=
  c <- get_obj ;;
  match map_find k (m_map c) with
  | None =>
      if negb (m_capacity c =? 0) then
        (if m_capacity c <=? length (m_map c) then evict_lru else ret tt) ;;
        may_throw f PPushFront ;;
        list_push_front k ;;
        may_throw f PEmplace ;;
        c <- get_obj ;;
        match list_begin (m_list c) with
        | Some b => put_map (map_emplace k (v, b) (m_map c)) ;; ret true
        | None => ub
        end
      else ret true
  | Some e =>
      if orAssign then
        may_throw f PAssign ;;
        put_map (map_set (fst e) (v, snd (snd e)) (m_map c)) ;;
        move_to_front f (fst e, (v, snd (snd e))) ;;
        ret false
      else ret false
  end.

(** lru_cache.hpp:80-83 insert(key, value) *)
Definition insert (f : faults) (k : K) (v : V) : M bool := insert_impl f k v false.
(** lru_cache.hpp:85-88 insert_or_assign(key, value) *)
Definition insert_or_assign (f : faults) (k : K) (v : V) : M bool := insert_impl f k v true.

(** lru_cache.hpp:90-101 get(key, value); [v0] is the value of the output variable before. *)
Definition get (f : faults) (k : K) (v0 : V) : M (bool * V) :=
  c <- get_obj ;;
  match map_find k (m_map c) with
  | None => ret (false, v0)
  | Some e =>
      may_throw f PGetAssign ;;
      move_to_front f e ;;
      ret (true, fst (snd e))
  end.

(** lru_cache.hpp:103-114 remove(key) *)
Definition remove (k : K) : M bool :=
  c <- get_obj ;;
  match map_find k (m_map c) with
  | None => ret false
  | Some e =>
      list_erase (snd (snd e)) ;;
      put_map (map_erase (fst e) (m_map c)) ;;
      ret true
  end.

(** One public call. *)
Definition call (f : faults) (o : lru_op K V) : M (lru_res V) :=
  match o with
  | Size => n <- size ;; ret (RNat n)
  | Capacity => n <- capacity ;; ret (RNat n)
  | Empty => b <- empty ;; ret (RBool b)
  | Contains k => b <- contains k ;; ret (RBool b)
  | Clear => clear ;; ret RUnit
  | SetCapacity n => set_capacity n ;; ret RUnit
  | Insert k v => b <- insert f k v ;; ret (RBool b)
  | InsertOrAssign k v => b <- insert_or_assign f k v ;; ret (RBool b)
  | Get k v0 => r <- get f k v0 ;; ret (RGet (fst r) (snd r))
  | Remove k => b <- remove k ;; ret (RBool b)
  end.

(** lru_cache.hpp:33-34 the constructor. *)
Definition new_cache (n : nat) : cache := mkCache n [] [].

(** A sequence of calls without exceptions on one object; the results in order. *)
Fixpoint run_ops (s : st) (ops : list (lru_op K V)) : outcome (st * list (lru_res V)) :=
  match ops with
  | [] => Ret (s, [])
  | o :: ops' =>
      match call no_fault o s with
      | Ret (s', Val r) =>
          match run_ops s' ops' with
          | Ret (s'', rs) => Ret (s'', r :: rs)
          | x => x
          end
      | Ret (_, Thrown) => Throw
      | Ub => Ub
      | Throw => Throw
      | OutOfFuel => OutOfFuel
      end
  end.

(** The same for a freshly constructed cache. *)
Definition run_new (cap : nat) (ops : list (lru_op K V)) : outcome (st * list (lru_res V)) :=
  run_ops (mkSt 0 (new_cache cap)) ops.

(** A sequence of calls in which allocations/copies may throw; the client catches each
    exception and carries on.  [None] is the result of a call that threw. *)
Fixpoint run_faulty (s : st) (ops : list (lru_op K V * faults))
  : outcome (st * list (option (lru_res V))) :=
  match ops with
  | [] => Ret (s, [])
  | (o, f) :: ops' =>
      match call f o s with
      | Ret (s', r) =>
          match run_faulty s' ops' with
          | Ret (s'', rs) =>
              Ret (s'', (match r with Val a => Some a | Thrown => None end) :: rs)
          | x => x
          end
      | Ub => Ub
      | Throw => Throw
      | OutOfFuel => OutOfFuel
      end
  end.

(** Several cache objects sharing one heap of list nodes. *)
Record world : Type := mkWorld { w_nxt : nat; w_objs : list (nat * cache) }.

Definition w_get (h : nat) (w : world) : option cache :=
  match find (fun x => fst x =? h) (w_objs w) with Some x => Some (snd x) | None => None end.
Definition w_del (h : nat) (l : list (nat * cache)) : list (nat * cache) :=
  filter (fun x => negb (fst x =? h)) l.
Definition w_set (h : nat) (c : cache) (w : world) : world :=
  mkWorld (w_nxt w) ((h, c) :: w_del h (w_objs w)).

(** Implicitly generated move (no user-declared special members in lru_cache.hpp:19-167):
    std::list and std::map hand over their nodes, so iterators stay valid; the source's
    containers are left empty (what all implementations do; the standard only says
    "unspecified"). *)
Definition moved_from (c : cache) : cache := mkCache (m_capacity c) [] [].

(** Implicitly generated copy: the list elements are copied into fresh nodes, the map entries
    are copied member-wise, so that the copied iterators are those of the source. *)
Fixpoint fresh_nodes (n : nat) (l : list (nat * K)) : list (nat * K) :=
  match l with [] => [] | x :: l' => (n, snd x) :: fresh_nodes (S n) l' end.
Definition copy_cache (n : nat) (c : cache) : cache :=
  mkCache (m_capacity c) (fresh_nodes n (m_list c)) (m_map c).

(** One step of a program using several caches; [None] results are not produced for [WNew]
    etc.  Using an object that does not exist (or constructing over an existing one) is not a
    program: the step is ignored and yields no result. *)
Definition wstep (w : world) (o : lru_wop K V) : outcome (world * option (lru_res V)) :=
  match o with
  | WNew h cap =>
      match w_get h w with
      | Some _ => Ret (w, None)
      | None => Ret (w_set h (new_cache cap) w, None)
      end
  | WCall h o =>
      match w_get h w with
      | None => Ret (w, None)
      | Some c =>
          match call no_fault o (mkSt (w_nxt w) c) with
          | Ret (s', Val r) => Ret (mkWorld (nxt s') (w_objs (w_set h (obj s') w)), Some r)
          | Ret (_, Thrown) => Throw
          | Ub => Ub
          | Throw => Throw
          | OutOfFuel => OutOfFuel
          end
      end
  | WMoveCtor h src =>
      match w_get h w, w_get src w with
      | None, Some c => Ret (w_set h c (w_set src (moved_from c) w), None)
      | _, _ => Ret (w, None)
      end
  | WMoveAssign h src =>
      match w_get h w, w_get src w with
      | Some _, Some c =>
          if h =? src then Ret (w, None)
          else Ret (w_set h c (w_set src (moved_from c) w), None)
      | _, _ => Ret (w, None)
      end
  | WCopyCtor h src =>
      match w_get h w, w_get src w with
      | None, Some c =>
          let w' := w_set h (copy_cache (w_nxt w) c) w in
          Ret (mkWorld (w_nxt w + length (m_list c)) (w_objs w'), None)
      | _, _ => Ret (w, None)
      end
  | WCopyAssign h src =>
      match w_get h w, w_get src w with
      | Some _, Some c =>
          if h =? src then Ret (w, None)
          else
            let w' := w_set h (copy_cache (w_nxt w) c) w in
            Ret (mkWorld (w_nxt w + length (m_list c)) (w_objs w'), None)
      | _, _ => Ret (w, None)
      end
  | WDestroy h => Ret (mkWorld (w_nxt w) (w_del h (w_objs w)), None)
  end.

Fixpoint wrun (w : world) (ops : list (lru_wop K V)) : outcome (world * list (option (lru_res V))) :=
  match ops with
  | [] => Ret (w, [])
  | o :: ops' =>
      match wstep w o with
      | Ret (w', r) =>
          match wrun w' ops' with
          | Ret (w'', rs) => Ret (w'', r :: rs)
          | x => x
          end
      | Ub => Ub
      | Throw => Throw
      | OutOfFuel => OutOfFuel
      end
  end.

Definition empty_world : world := mkWorld 0 [].

End Lru.

Arguments Val {A} a.
Arguments Thrown {A}.
