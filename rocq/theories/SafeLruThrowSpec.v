(** Linearizability of histories of calls that may throw: as SafeLruSpec.v, with the effect of a call that throws as
    given by [s_throw] (LruSpec.v): none, or the eviction that came before. *)
From Coq Require Import List Bool Arith.
From Verif Require Import Base LruApi LruModel LruSpec LruFaults ListUpdate SafeLruModel SafeLruThrowModel.
Import ListNotations.

Section Spec.
Context {K V : Type} (ltb : K -> K -> bool).
Notation op := (lru_op K V * faults)%type.
Notation res := (option (lru_res V)).

(** one call, and a sequence of calls, on the contents *)
Definition f_call (a : scache (K:=K) (V:=V)) (x : op) : scache (K:=K) (V:=V) * res :=
  match s_throw ltb (snd x PPushFront) (snd x PAssign) (snd x PGetAssign) a (fst x) with
  | Some a' => (a', None)
  | None => let (a', r) := s_call ltb a (fst x) in (a', Some r)
  end.
Fixpoint f_run (a : scache (K:=K) (V:=V)) (l : list op) : scache (K:=K) (V:=V) * list res :=
  match l with [] => (a, []) | x :: l => let (a, r) := f_call a x in let (a', rs) := f_run a l in (a', r :: rs) end.
(** no call made so far throws where the cache would be left inconsistent *)
Definition harmless_calls (h : list (event (K:=K) (V:=V))) : Prop := forall c o f, In (Inv c (o, f)) h -> harmless f.

(** The history [h] has a linearization [lin]: calls of [h], each at most once, among them all that have
    returned, with their results; run one at a time on a cache of capacity [cap] the calls give these
    results; and calls that returned before others were made come first. *)
Record linearization (cap : nat) (h : list (event (K:=K) (V:=V))) (lin : list (call_id * op * res)) : Prop := {
  lin_once : NoDup (map (fun x => fst (fst x)) lin);
  lin_called : forall c o r, In (c, o, r) lin -> In (Inv c o) h;
  lin_returned : forall c r, In (Res c r) h -> exists o, In (c, o, r) lin;
  lin_legal : snd (f_run (mkS cap []) (map (fun x => snd (fst x)) lin)) = map snd lin;
  lin_real_time : forall a ra b ob, before h (Res a ra) (Inv b ob) ->
    forall xa xb, In xa lin -> In xb lin -> fst (fst xa) = a -> fst (fst xb) = b -> before lin xa xb
}.
Definition linearizable (cap : nat) (h : list (event (K:=K) (V:=V))) : Prop := exists lin, linearization cap h lin.

(** the calls of a history follow the programs: thread t makes its k-th call after its (k-1)-th returned *)
Definition follows (programs : list (list op)) (h : list (event (K:=K) (V:=V))) : Prop :=
  (forall t k o, In (Inv (t, k) o) h -> exists p, nth_error programs t = Some p /\ nth_error p k = Some o) /\
  (forall h1 t k o h2, h = h1 ++ Inv (t, S k) o :: h2 -> exists r, In (Res (t, k) r) h1) /\
  (forall h1 c r h2, h = h1 ++ Res c r :: h2 -> exists o, In (Inv c o) h1).

(** all threads have made all their calls and returned *)
Definition completed (programs : list (list op)) (s : sys (K:=K) (V:=V)) : Prop :=
  forall t p, nth_error programs t = Some p -> nth_error (threads s) t = Some (Th (length p) Idle).

(** two threads use the cache at the same time and at least one of them may write it *)
Definition data_race (s : sys (K:=K) (V:=V)) : Prop :=
  exists t t' k k' o o' x x', t <> t' /\
    nth_error (threads s) t = Some (Th k (Body o x)) /\ nth_error (threads s) t' = Some (Th k' (Body o' x')) /\
    (is_const o && is_const o') = false.
End Spec.
