(** The highest capacity a cache has had: the one it was constructed with or one given to capacity(n). *)
From Coq Require Import List Arith.
From Verif Require Import LruApi.
Import ListNotations.

Definition raise {K V : Type} (h : nat) (o : lru_op K V) : nat :=
  match o with SetCapacity n => Nat.max h n | _ => h end.
Definition highest_capacity {K V : Type} (cap : nat) (ops : list (lru_op K V)) : nat := fold_left raise ops cap.
