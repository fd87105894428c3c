(** Specification vocabulary for the logger: statements about the events of an execution. *)
From Coq Require Import List Bool Arith ZArith.
From Verif Require Import Base LoggerModel.
Import ListNotations.

(** File names are totally ordered. *)
Record strict_total_order {A : Type} (ltb : A -> A -> bool) : Prop := {
  sto_irrefl : forall x, ltb x x = false;
  sto_trans : forall x y z, ltb x y = true -> ltb y z = true -> ltb x z = true;
  sto_total : forall x y, ltb x y = false -> ltb y x = false -> x = y
}.

Section Spec.
Context {K M : Type} (ltb : K -> K -> bool).
Notation entry := (entry K M).
Notation event := (@event K M).
Notation logger := (@logger K M).

(** [l] is the beginning of [l'] *)
Definition prefix {A : Type} (l l' : list A) : Prop := exists r, l' = l ++ r.

Definition same_file (k : K) (e : entry) : bool := equivb ltb k (e_file e).
(** the entries accepted for file [k] / written to file [k], in order *)
Definition accepted_in (k : K) (ev : event) : list entry :=
  match ev with EAccept e => if same_file k e then [e] else [] | _ => [] end.
Definition written_in (k : K) (ev : event) : list entry :=
  match ev with EWrite k' e => if equivb ltb k k' then [e] else [] | _ => [] end.
Definition accepted_for (k : K) (tr : list event) : list entry := flat_map (accepted_in k) tr.
Definition written_to (k : K) (tr : list event) : list entry := flat_map (written_in k) tr.
(** the calls that passed the level check, whose entries were accepted, that were discarded *)
Definition passed (ev : event) : list nat := match ev with EPass e => [e_id e] | _ => [] end.
Definition accepted (ev : event) : list nat := match ev with EAccept e => [e_id e] | _ => [] end.
Definition discard (ev : event) : list nat := match ev with EDiscard e => [e_id e] | _ => [] end.
Definition passes (tr : list event) : list nat := flat_map passed tr.
Definition acceptances (tr : list event) : list nat := flat_map accepted tr.
Definition discards (tr : list event) : list nat := flat_map discard tr.
(** calls that passed the level check and have not reached the buffer *)
Definition undecided (c : @call K M) : list nat := match c with CPassed e | CTimed e => [e_id e] | _ => [] end.
(** entries discarded since the last reset *)
Definition count_discard (n : nat) (ev : event) : nat :=
  match ev with EDiscard _ => S n | EReset => 0 | _ => n end.
Definition discarded_since_reset (tr : list event) : nat := fold_left count_discard tr 0.
(** the level after these events *)
Definition change_level (z : Z) (ev : event) : Z := match ev with ELevel z' => z' | _ => z end.
Definition level_after (lvl : Z) (tr : list event) : Z := fold_left change_level tr lvl.
(** the settings after these events *)
Definition max_after (n : nat) (tr : list event) : nat := fold_left (fun n ev => match ev with EMax m => m | _ => n end) tr n.
Definition flush_after (n : nat) (tr : list event) : nat := fold_left (fun n ev => match ev with EFlush m => m | _ => n end) tr n.
(** the clock after these events *)
Definition clock_after (clock : Z) (tr : list event) : Z :=
  fold_left (fun z ev => match ev with ETick z' => z' | _ => z end) tr clock.

(** the calls that did not pass, and those that have not come to the level check *)
Definition rejected (ev : event) : list nat := match ev with EReject e => [e_id e] | _ => [] end.
Definition rejects (tr : list event) : list nat := flat_map rejected tr.
Definition entering (c : @call K M) : list nat := match c with CEnter e => [e_id e] | _ => [] end.
(** all accepted entries, in order *)
Definition accepts_one (ev : event) : list entry := match ev with EAccept e => [e] | _ => [] end.
Definition accepted_entries (tr : list event) : list entry := flat_map accepts_one tr.
(** the clock never goes back *)
Fixpoint forward (clock : Z) (tr : list event) : Prop :=
  match tr with [] => True | ETick z :: tr => (clock <= z)%Z /\ forward z tr | _ :: tr => forward clock tr end.

(** no step is possible without a caller, a failure of the file system, a spurious wakeup or the clock *)
Definition quiescent (s : logger) : Prop := forall e s', ~ internal ltb s e s'.

(** the logging thread has something to do for this buffer *)
Definition due (f : nat) (b : list entry) : Prop := b <> [] /\ f <= length b.

(** executions in which the flush size is lowered only when the logging thread does not hold the mutex *)
Definition calm_flush (s : logger) (ev : event) : Prop :=
  match ev with EFlush n => flush_size s <= n \/ holds (pc s) = false | _ => True end.
Inductive exec_calm (s0 : logger) : list event -> logger -> Prop :=
| calm_nil : exec_calm s0 [] s0
| calm_snoc tr s e s' : exec_calm s0 tr s -> step ltb s e s' -> calm_flush s e -> exec_calm s0 (tr ++ [e]) s'.
End Spec.
