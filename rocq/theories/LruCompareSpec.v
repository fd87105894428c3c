(** What a cache does when comparing keys throws, in terms of its pairs, most recently used
    first.  Independent of the model. *)
From Coq Require Import List Bool Arith.
From Verif Require Import Base LruApi LruSpec.
Import ListNotations.

Section Spec.
Context {K V : Type}.
Variable ltb : K -> K -> bool.
Notation sc := (scache (K:=K) (V:=V)).

(** A call on a cache that may hold more pairs than its capacity.  While it does, a new key
    takes the place of the least recently used pair, so the size neither grows nor shrinks. *)
Definition over_call (a : sc) (o : lru_op K V) : sc * lru_res V :=
  let room := max (s_cap a) (length (s_items a)) in
  match o with
  | Capacity => (a, RNat (s_cap a))
  | SetCapacity n => (mkS n (firstn n (s_items a)), RUnit)
  | _ => let (a', r) := s_call ltb (mkS room (s_items a)) o in (mkS (s_cap a) (s_items a'), r)
  end.

(** The call looks a key up. *)
Definition looks_up (o : lru_op K V) : bool :=
  match o with Contains _ | Insert _ _ | InsertOrAssign _ _ | Get _ _ | Remove _ => true | _ => false end.

(** The call must make room for a new key. *)
Definition makes_room (a : sc) (o : lru_op K V) : bool :=
  match o with
  | Insert k _ | InsertOrAssign k _ =>
      match s_find ltb k (s_items a) with
      | Some _ => false
      | None => negb (s_cap a =? 0) && (s_cap a <=? length (s_items a))
      end
  | _ => false
  end.

(** What a call that throws leaves behind; [None]: the call does not throw.  [lookup]: looking a
    key up throws; [drop = Some i]: [i] pairs can be dropped, dropping the next one throws. *)
Definition cmp_throw (lookup : bool) (drop : option nat) (a : sc) (o : lru_op K V) : option sc :=
  if looks_up o && lookup then Some a
  else if makes_room a o then match drop with Some 0 => Some a | _ => None end
  else match o, drop with
       | SetCapacity n, Some i =>
           if negb (n =? 0) && (i + n <? length (s_items a))
           then Some (mkS n (firstn (length (s_items a) - i) (s_items a)))
           else None
       | _, _ => None
       end.

(** One call, whether or not it throws; [None] is the result of one that does. *)
Definition cmp_step (a : sc) (x : lru_op K V * (bool * option nat)) : sc * option (lru_res V) :=
  match cmp_throw (fst (snd x)) (snd (snd x)) a (fst x) with
  | Some a' => (a', None)
  | None => (fst (over_call a (fst x)), Some (snd (over_call a (fst x))))
  end.

Fixpoint cmp_run (a : sc) (ops : list (lru_op K V * (bool * option nat))) : sc * list (option (lru_res V)) :=
  match ops with
  | [] => (a, [])
  | x :: ops' =>
      let (a', r) := cmp_step a x in
      let (a'', rs) := cmp_run a' ops' in (a'', r :: rs)
  end.

(** The call can make the cache smaller. *)
Definition shrinks (o : lru_op K V) : bool :=
  match o with Remove _ | Clear | SetCapacity _ => true | _ => false end.
End Spec.

(** What get returns: a history lists the calls with their results, [None] for a call that
    threw. *)
Section Latest.
Context {K V : Type}.
Variable ltb : K -> K -> bool.

(** The value that the latest call which stored [k] (and did not throw) stored. *)
Definition latest_stored (k : K) (h : list (lru_op K V * option (lru_res V))) : option V :=
  fold_left (fun acc x =>
    match snd x with
    | Some r => match stores ltb k (fst x) r with Some v => Some v | None => acc end
    | None => acc
    end) h None.

(** After the history [past], every get of [h] that finds its key returns the latest value. *)
Fixpoint reads_latest (past h : list (lru_op K V * option (lru_res V))) : Prop :=
  match h with
  | [] => True
  | x :: h' =>
      (forall k v0 v, fst x = Get k v0 -> snd x = Some (RGet true v) -> latest_stored k past = Some v) /\
      reads_latest (past ++ [x]) h'
  end.
End Latest.

(** In how many calls emplace threw: each call with whether emplace would throw and its result. *)
Definition emplace_throws {V : Type} (h : list (bool * option (lru_res V))) : nat :=
  length (filter (fun x => fst x && match snd x with None => true | Some _ => false end) h).
