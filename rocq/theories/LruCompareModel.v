(** Model of /repo/include/pluto/lru_cache.hpp for a key type whose operator< may throw.

    The state, the monad and the container operations are those of [LruModel].  Comparisons of
    keys happen in m_map.find(key), m_map.erase(key) and m_map.emplace(key, ...); a comparison
    that throws leaves the map as it was (the standard gives these the strong guarantee for one
    element).  Erasing by iterator and clear() compare nothing.  Allocations and copies do not
    throw here (that is [LruModel]). *)
From Coq Require Import List Bool Arith.
From Verif Require Import Base LruApi LruModel.
Import ListNotations.

(** Which comparisons throw in one call.
    - [in_find]: m_map.find(key) (lru_cache.hpp:53, 92, 105, 119);
    - [in_erase]: m_map.erase( *itList) in evict_lru (line 164); [Some i] means that [i] of these
      calls succeed and the next one throws;
    - [in_emplace]: m_map.emplace(key, ...) (line 132). *)
Record cmp_faults : Type := mkCmp { in_find : bool; in_erase : option nat; in_emplace : bool }.
Definition no_cmp : cmp_faults := mkCmp false None false.

Definition throws_now (e : option nat) : bool := match e with Some 0 => true | _ => false end.
Definition one_less (e : option nat) : option nat := match e with Some (S i) => Some i | x => x end.

Section LruCompare.
Context {K V : Type}.
Variable ltb : K -> K -> bool.

Local Notation M := (@M K V).
Local Notation "x <- m ;; k" := (bind m (fun x => k)) (at level 61, m at next level, right associativity).
Local Notation "m ;; k" := (bind m (fun _ => k)) (at level 61, right associativity).

Definition throw_if (b : bool) : M unit := fun s => if b then Ret (s, Thrown) else Ret (s, Val tt).

(** m_map.find(key) *)
Definition find_c (cf : cmp_faults) (k : K) : M (option (K * (V * nat))) :=
  throw_if (in_find cf) ;;
  c <- get_obj ;; ret (map_find ltb k (m_map c)).

(** lru_cache.hpp:51-54 contains(key) *)
Definition contains_c (cf : cmp_faults) (k : K) : M bool :=
  it <- find_c cf k ;;
  ret (match it with Some _ => true | None => false end).

(** lru_cache.hpp:160-166 evict_lru(); [b]: the comparisons of m_map.erase( *itList) throw. *)
Definition evict_lru_c (b : bool) : M unit :=
  c <- get_obj ;;
  match list_last (m_list c) with
  | None => ub
  | Some (n, k) =>
      throw_if b ;;
      put_map (map_erase ltb k (m_map c)) ;;
      list_erase n
  end.

(** lru_cache.hpp:72-76 the loop of capacity(newCapacity), with fuel as in [LruModel]. *)
Fixpoint evict_while_c (e : option nat) (fuel : nat) : M unit :=
  c <- get_obj ;;
  if m_capacity c <? length (m_map c) then
    match fuel with
    | 0 => fun _ => OutOfFuel
    | S fuel' => evict_lru_c (throws_now e) ;; evict_while_c (one_less e) fuel'
    end
  else ret tt.

(** lru_cache.hpp:62-78 capacity(newCapacity) *)
Definition set_capacity_c (cf : cmp_faults) (n : nat) : M unit :=
  put_capacity n ;;
  c <- get_obj ;;
  if m_capacity c =? 0 then clear
  else evict_while_c (in_erase cf) (S (length (m_list c))).

(** lru_cache.hpp:116-145 insert(key, value, orAssign) *)
Definition insert_c (cf : cmp_faults) (k : K) (v : V) (orAssign : bool) : M bool :=
  it <- find_c cf k ;;
  match it with
  | None =>
      c <- get_obj ;;
      if negb (m_capacity c =? 0) then
        (if m_capacity c <=? length (m_map c) then evict_lru_c (throws_now (in_erase cf)) else ret tt) ;;
        list_push_front k ;;
        throw_if (in_emplace cf) ;;
        c <- get_obj ;;
        match list_begin (m_list c) with
        | Some b => put_map (map_emplace ltb k (v, b) (m_map c)) ;; ret true
        | None => ub
        end
      else ret true
  | Some e =>
      if orAssign then
        c <- get_obj ;;
        put_map (map_set ltb (fst e) (v, snd (snd e)) (m_map c)) ;;
        move_to_front ltb no_fault (fst e, (v, snd (snd e))) ;;
        ret false
      else ret false
  end.

(** lru_cache.hpp:90-101 get(key, value) *)
Definition get_c (cf : cmp_faults) (k : K) (v0 : V) : M (bool * V) :=
  it <- find_c cf k ;;
  match it with
  | None => ret (false, v0)
  | Some e =>
      move_to_front ltb no_fault e ;;
      ret (true, fst (snd e))
  end.

(** lru_cache.hpp:103-114 remove(key); m_map.erase(itMap) takes an iterator. *)
Definition remove_c (cf : cmp_faults) (k : K) : M bool :=
  it <- find_c cf k ;;
  match it with
  | None => ret false
  | Some e =>
      list_erase (snd (snd e)) ;;
      c <- get_obj ;;
      put_map (map_erase ltb (fst e) (m_map c)) ;;
      ret true
  end.

(** One public call (lru_cache.hpp:36-114). *)
Definition call_c (cf : cmp_faults) (o : lru_op K V) : M (lru_res V) :=
  match o with
  | Size => n <- size ;; ret (RNat n)
  | Capacity => n <- capacity ;; ret (RNat n)
  | Empty => b <- empty ;; ret (RBool b)
  | Contains k => b <- contains_c cf k ;; ret (RBool b)
  | Clear => clear ;; ret RUnit
  | SetCapacity n => set_capacity_c cf n ;; ret RUnit
  | Insert k v => b <- insert_c cf k v false ;; ret (RBool b)
  | InsertOrAssign k v => b <- insert_c cf k v true ;; ret (RBool b)
  | Get k v0 => r <- get_c cf k v0 ;; ret (RGet (fst r) (snd r))
  | Remove k => b <- remove_c cf k ;; ret (RBool b)
  end.

(** Calls on one object; the client catches each exception and carries on.  [None] is the
    result of a call that threw. *)
Fixpoint run_c (s : st) (ops : list (lru_op K V * cmp_faults))
  : outcome (st * list (option (lru_res V))) :=
  match ops with
  | [] => Ret (s, [])
  | (o, cf) :: ops' =>
      match call_c cf o s with
      | Ret (s', r) =>
          match run_c s' ops' with
          | Ret (s'', rs) =>
              Ret (s'', (match r with Val a => Some a | Thrown => None end) :: rs)
          | x => x
          end
      | Ub => Ub
      | Throw => Throw
      | OutOfFuel => OutOfFuel
      end
  end.
End LruCompare.
