(** Specification of the scope guards. *)
From Coq Require Import List Bool Arith.
From Verif Require Import ScopeModel.
Import ListNotations.

(** calling the non-empty ones of [ts] once each, in order: the final state and the tasks called *)
Section Calls.
Context {S : Type} (beh : nat -> S -> option (S * list nat * bool)).
Inductive calls : list nat -> S -> S -> list nat -> Prop :=
| calls_nil st : calls [] st st []
| calls_empty t ts st st' c : beh t st = None -> calls ts st st' c -> calls (t :: ts) st st' c
| calls_task t ts st st1 added throws st' c :
    beh t st = Some (st1, added, throws) -> calls ts st1 st' c -> calls (t :: ts) st st' (t :: c).

Definition never_adds : Prop := forall t st st' added throws, beh t st = Some (st', added, throws) -> added = [].
End Calls.

(** What the documentation says: a guard's tasks run according to how its own block is left.  No count of
    exceptions in flight. *)
Definition should_run (g : kind) (r : result) : bool :=
  match g, r with OnExit, _ => true | OnSuccess, Normal => true | OnFail, Exc => true | _, _ => false end.

Fixpoint ideal (s : stmt) : list nat * result :=
  match s with
  | Skip => ([], Normal)
  | Emit n => ([n], Normal)
  | Raise => ([], Exc)
  | Seq a b =>
      let (e, r) := ideal a in
      match r with Normal => let (e', r) := ideal b in (e ++ e', r) | _ => (e, r) end
  | Try body handler =>
      let (e, r) := ideal body in
      match r with Exc => let (e', r) := ideal handler in (e ++ e', r) | _ => (e, r) end
  | Local dtor body =>
      let (e, r) := ideal body in
      match r with
      | Terminated => (e, r)
      | _ => let (e', r') := ideal dtor in (e ++ e', match r' with Normal => r | _ => Terminated end)
      end
  | Guard g ts body =>
      let (e, r) := ideal body in
      match r with
      | Terminated => (e, r)
      | _ =>
          if should_run g r
          then let (e', r') := ideal_tasks ts in (e ++ e', match r' with Terminated => Terminated | _ => r end)
          else (e, r)
      end
  end
with ideal_tasks (ts : tasks) : list nat * result :=
  match ts with
  | NoTask => ([], Normal)
  | Task s rest =>
      let (e, r) := ideal s in
      match r with Terminated => (e, r) | _ => let (e', r) := ideal_tasks rest in (e ++ e', r) end
  end.

(** in the ideal run, an on_scope_success or on_scope_fail is only ever constructed while no exception is
    in flight; [flying] says whether one is at the start *)
Fixpoint calm (flying : bool) (s : stmt) : bool :=
  match s with
  | Skip | Emit _ | Raise => true
  | Seq a b => calm flying a && match snd (ideal a) with Normal => calm flying b | _ => true end
  | Try body handler => calm flying body && match snd (ideal body) with Exc => calm flying handler | _ => true end
  | Local dtor body =>
      calm flying body &&
      match snd (ideal body) with Terminated => true | Exc => calm true dtor | Normal => calm flying dtor end
  | Guard g ts body =>
      (match g with OnExit => true | _ => negb flying end) && calm flying body &&
      match snd (ideal body) with
      | Terminated => true
      | r => if should_run g r then calm_tasks (match r with Exc => true | _ => flying end) ts else true
      end
  end
with calm_tasks (flying : bool) (ts : tasks) : bool :=
  match ts with
  | NoTask => true
  | Task s rest => calm flying s && match snd (ideal s) with Terminated => true | _ => calm_tasks flying rest end
  end.
