(** Model of on_scope_exit (/repo/include/pluto/scope.hpp) when adding a task fails: copying the std::function or allocating
    its place in the std::stack throws, and the stack stays as it was (std::deque::push_back).
    The task number [r] releases resource [r] if it is held.  What tasks do otherwise is in ScopeModel.v. *)
From Coq Require Import List Bool Arith.
Import ListNotations.

Inductive op :=
| Work                       (* anything else that may throw *)
| Acquire (r : nat)          (* acquires the resource, or throws *)
| Add (r : nat).             (* add() of the innermost guard, 56-59 *)
Inductive prog :=
| Done
| Step (o : op) (p : prog)
| Block (init : option nat) (body p : prog).   (* { on_scope_exit guard{ init }; body } p *)

Inductive event := Acquired (r : nat) | Added (r : nat) | Ran (r : nat).

(** [ok c o] says whether operation number [c], which is [o], succeeds, [k] is m_tasks of the innermost guard (21), the top first.  The
    result: what happened, the stack, the number of operations so far, whether an exception leaves the program. *)
Fixpoint exec (ok : nat -> op -> bool) (c : nat) (k : list nat) (p : prog) : list event * list nat * nat * bool :=
  match p with
  | Done => ([], k, c, false)
  | Step o p =>
      if ok c o then
        match exec ok (S c) (match o with Add r => r :: k | _ => k end) p with
        | (e, k, c, threw) => ((match o with Work => [] | Acquire r => [Acquired r] | Add r => [Added r] end) ++ e, k, c, threw)
        end
      else ([], k, S c, true)
  | Block init body p =>
      let run (c : nat) (e0 : list event) (k0 : list nat) :=
        match exec ok c k0 body with
        | (e, k', c, threw) =>
            let e := e0 ++ e ++ map Ran k' in   (* the destructor, 31-46 *)
            if threw : bool then (e, k, c, true)
            else match exec ok c k p with (e', k, c, threw) => (e ++ e', k, c, threw) end
        end in
      match init with
      | None => run c [] []                     (* 24 *)
      | Some r =>                               (* 26-29; if add throws there is no guard *)
          if ok c (Add r) then run (S c) [Added r] [r] else ([], k, S c, true)
      end
  end.
Definition run_program (ok : nat -> op -> bool) (init : option nat) (body : prog) : list event * bool :=
  match exec ok 0 [] (Block init body Done) with (e, _, _, threw) => (e, threw) end.
