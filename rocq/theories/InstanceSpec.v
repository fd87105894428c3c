(** Which static objects the code of a program can use, and what it means that they are built in a suitable order. *)
From Coq Require Import List.
From Verif Require Import InstanceModel.
Import ListNotations.

(** the code itself calls a member function of [q] *)
Fixpoint uses (c : code) (q : object) : Prop :=
  match c with Skip => False | Use o k | Submit o _ k => o = q \/ uses k q end.
(** the code, or work that it gives away, gives [j] to [o] *)
Fixpoint hands (c : code) (o : object) (j : code) : Prop :=
  match c with
  | Skip => False
  | Use _ k => hands k o j
  | Submit o' j' k => (o' = o /\ j' = j) \/ hands j' o j \/ hands k o j
  end.
(** somewhere in the program, [j] is given to [o] *)
Definition given (P : program) (o : object) (j : code) : Prop :=
  exists c, (c = start P \/ exists x, c = ctor P x \/ c = dtor P x) /\ hands c o j.
(** the code uses [q], or an object whose constructor does, and so on *)
Inductive touches (P : program) : code -> object -> Prop :=
| touch_use c q : uses c q -> touches P c q
| touch_ctor c o q : uses c o -> touches P (ctor P o) q -> touches P c q.
(** code of [o]: its destructor and the work that is given to it *)
Definition acts (P : program) (o : object) (c : code) : Prop := c = dtor P o \/ given P o c.
(** code of [o], or of an object that code of [o] can build, and so on, can use [q] *)
Inductive depends (P : program) : object -> object -> Prop :=
| dep_one o c q : acts P o c -> touches P c q -> depends P o q
| dep_more o c m q : acts P o c -> touches P c m -> depends P m q -> depends P o q.

(** calls of member functions of these objects, one after the other *)
Fixpoint use_all (l : list object) (k : code) : code := match l with [] => k | o :: l => Use o (use_all l k) end.

(** [p] is built before [o]: the constructor of [o] uses it, or the program begins by using objects with constructors
    that use nothing (as those of the pool and of the logger), among them [p] and not [o] *)
Definition built_first (P : program) (p o : object) : Prop :=
  uses (ctor P o) p \/
  exists l k, start P = use_all l k /\ In p l /\ ~ In o l /\ forall x, In x l -> ctor P x = Skip.

(** every use of [p] in the execution finds it built and not destroyed; while it is being destroyed, only its own
    destructor, its own threads and the work that was given to it use it *)
Definition used_alive (p : object) (s : state) : Prop :=
  forall b l, In (used b p l) (events (world_of s)) -> l = Alive \/ l = Dying /\ b = Some p.

(** the program has ended: main has returned, no thread of the pool or of the logger is left, and every static object
    that was built has been destroyed *)
Definition finished (s : state) : Prop :=
  leaving s = true /\ main s = [] /\ workers s = [] /\
  forall o, status (world_of s) o = Absent \/ status (world_of s) o = Dead.

(** executions of [n] steps *)
Inductive steps (P : program) : nat -> state -> Prop :=
| steps_0 : steps P 0 (initial P)
| steps_S n s t : steps P n s -> step P s t -> steps P (S n) t.

(** the code, and the work it gives away, uses only objects of [l] *)
Fixpoint within (l : list object) (c : code) : Prop :=
  match c with Skip => True | Use o k => In o l /\ within l k | Submit o j k => In o l /\ within l j /\ within l k end.
(** the program uses only objects of [l] *)
Definition finite_program (P : program) (l : list object) : Prop :=
  within l (start P) /\ forall o, In o l -> within l (ctor P o) /\ within l (dtor P o).
