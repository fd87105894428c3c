(** The calls made in a history of a safe_lru_cache in which emplace throws (if it is reached). *)
From Coq Require Import List Bool Arith.
From Verif Require Import LruApi LruModel SafeLruThrowModel.
Import ListNotations.

Definition emplace_calls {K V : Type} (h : list (event (K:=K) (V:=V))) : nat :=
  length (filter (fun e => match e with Inv _ o => snd o PEmplace | Res _ _ => false end) h).
