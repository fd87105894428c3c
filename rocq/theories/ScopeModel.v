(** Model of the scope guards (/repo/include/pluto/scope.hpp). *)
From Coq Require Import List Bool Arith.
From Verif Require Import Base.
Import ListNotations.

(** * The task stack and the loop of the three destructors, 33-45, 81-94, 131-144.
    Tasks are identified by numbers; [beh t st] says what calling the std::function number [t] in program
    state [st] does: [None] if it is empty, otherwise the new state, the tasks it adds to this guard (in
    order) and whether it throws. *)
Section Tasks.
Context {S : Type} (beh : nat -> S -> option (S * list nat * bool)).

(** m_tasks, 21: a std::stack, the top first *)
Definition stack := list nat.
Definition add (t : nat) (k : stack) : stack := t :: k. (* 56-59, 106-109, 156-159 *)
Definition default_constructed : stack := []. (* 24, 67, 117 *)
Definition constructed (t : nat) : stack := add t default_constructed. (* 26-29, 69-72, 119-122 *)

(** one iteration: top(), the call inside try / catch (...), pop(); pop() of an empty stack would be undefined *)
Definition run_top (k : stack) (st : S) : outcome (stack * S * list nat) :=
  match k with
  | [] => Ub
  | t :: _ =>
      let '(k, st, called) :=
        match beh t st with
        | None => (k, st, [])
        | Some (st, added, _throws) => (fold_left (fun k t => add t k) added k, st, [t])
        end in
      match k with [] => Ub | _ :: k => Ret (k, st, called) end
  end.

(** the loop; the result is the final state and the tasks called, in order *)
Fixpoint run_tasks (fuel : nat) (k : stack) (st : S) : outcome (S * list nat) :=
  match k with
  | [] => Ret (st, [])
  | _ =>
      match fuel with
      | O => OutOfFuel
      | Datatypes.S fuel =>
          match run_top k st with
          | Ret (k, st, called) =>
              match run_tasks fuel k st with
              | Ret (st, called') => Ret (st, called ++ called')
              | o => o
              end
          | Ub => Ub
          | Throw => Throw
          | OutOfFuel => OutOfFuel
          end
      end
  end.
End Tasks.

(** * When the tasks run.  A little language of blocks, exceptions and destructors, run with the value of
    std::uncaught_exceptions() (or uncaught_exception() being its being non-zero before C++17). *)
Inductive kind := OnExit | OnSuccess | OnFail.
Inductive stmt :=
| Skip
| Emit (n : nat)                                      (* something observable *)
| Raise                                               (* throw *)
| Seq (a b : stmt)
| Try (body handler : stmt)                           (* try { body } catch (...) { handler } *)
| Local (dtor body : stmt)                            (* { object with destructor dtor; body } *)
| Guard (g : kind) (ts : tasks) (body : stmt)         (* { guard g with tasks ts; body } *)
with tasks := NoTask | Task (s : stmt) (rest : tasks). (* the stack of tasks, the top first *)

Inductive result := Normal | Exc | Terminated.

(** the destructors' test, 77-80 and 127-130 *)
Definition guard_runs (g : kind) (uncaught : nat) : bool :=
  match g with OnExit => true | OnSuccess => uncaught =? 0 | OnFail => negb (uncaught =? 0) end.

(** [uncaught] when the destructors of a block's variables run *)
Definition at_exit (uncaught : nat) (r : result) : nat := match r with Exc => S uncaught | _ => uncaught end.

Fixpoint exec (uncaught : nat) (s : stmt) : list nat * result :=
  match s with
  | Skip => ([], Normal)
  | Emit n => ([n], Normal)
  | Raise => ([], Exc)
  | Seq a b =>
      let (e, r) := exec uncaught a in
      match r with Normal => let (e', r) := exec uncaught b in (e ++ e', r) | _ => (e, r) end
  | Try body handler =>
      let (e, r) := exec uncaught body in
      match r with Exc => let (e', r) := exec uncaught handler in (e ++ e', r) | _ => (e, r) end
  | Local dtor body =>
      let (e, r) := exec uncaught body in
      match r with
      | Terminated => (e, r)
      | _ =>
          let (e', r') := exec (at_exit uncaught r) dtor in
          (e ++ e', match r' with Normal => r | _ => Terminated end)  (* destructors are noexcept *)
      end
  | Guard g ts body =>
      let (e, r) := exec uncaught body in
      match r with
      | Terminated => (e, r)
      | _ =>
          if guard_runs g (at_exit uncaught r)
          then let (e', r') := exec_tasks (at_exit uncaught r) ts in
               (e ++ e', match r' with Terminated => Terminated | _ => r end)
          else (e, r)
      end
  end
with exec_tasks (uncaught : nat) (ts : tasks) : list nat * result :=
  match ts with
  | NoTask => ([], Normal)
  | Task s rest =>
      let (e, r) := exec uncaught s in
      match r with
      | Terminated => (e, r)
      | _ => let (e', r) := exec_tasks uncaught rest in (e ++ e', r)    (* catch (...) {} *)
      end
  end.
