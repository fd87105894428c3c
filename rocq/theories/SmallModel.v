(** Model of value.hpp abs (17-21), range.hpp and platform.hpp file_name (24-36)
    (/repo/include/pluto). *)
From Coq Require Import List Bool Arith ZArith.
From Verif Require Import Base SeqModel.
Import ListNotations.
Open Scope outcome_scope.

(** * abs, value.hpp 17-21: [-value] is computed in int for narrower types and converted back;
    for signed types of at least 32 bits it is undefined when it does not fit *)
Definition negate (bits : Z) (sgn : bool) (v : Z) : outcome Z :=
  if (bits <? 32)%Z then Ret (wrap_to bits sgn (- v))
  else if sgn then if fits bits true (- v) then Ret (- v)%Z else Ub
  else Ret (wrap_to bits false (- v)).
Definition abs (bits : Z) (sgn : bool) (v : Z) : outcome Z :=
  if (v <? 0)%Z then negate bits sgn v else Ret v.

(** * range.hpp *)
Section Range.
Context {T : Type} (ltb leb eqb : T -> T -> bool).

(** 15-23 *)
Record range := Range { rbegin : T; rend : T }.

Definition is_equal (a b : range) : bool := eqb (rbegin a) (rbegin b) && eqb (rend a) (rend b). (* 30-33 *)
Definition is_overlapping (a b : range) : bool := (* 35-38 *)
  eqb (rbegin a) (rbegin b) || (ltb (rbegin a) (rend b) && ltb (rbegin b) (rend a)).
Definition is_less (a b : range) : bool := (* 40-43 *)
  if eqb (rbegin a) (rbegin b) then ltb (rend a) (rend b) else ltb (rbegin a) (rbegin b).
Definition is_less_no_overlap (a b : range) : bool := (* 45-48 *)
  negb (eqb (rbegin a) (rbegin b)) && leb (rend a) (rbegin b).

(** operators 50-78 *)
Definition op_eq (a b : range) := is_equal a b.
Definition op_ne (a b : range) := negb (is_equal a b).
Definition op_lt (a b : range) := is_less a b.
Definition op_gt (a b : range) := is_less b a.
Definition op_le (a b : range) := negb (is_less b a).
Definition op_ge (a b : range) := negb (is_less a b).
End Range.
Arguments range T : clear implicits.
Arguments Range {T}.

(** size 25-28 for an integer type of at least 32 bits: [end - begin] in that type *)
Definition range_size (bits : Z) (sgn : bool) (a : range Z) : outcome Z :=
  let d := (rend a - rbegin a)%Z in
  if sgn then if fits bits true d then Ret d else Ub else Ret (wrap_to bits false d).

(** * file_name, platform.hpp 24-36.  [mem] is the memory from filePath on, reading past it is
    undefined; the result is the distance of the returned pointer from filePath. *)
Definition slash : Z := 47.
Definition backslash : Z := 92.
Fixpoint file_name_loop (mem : list Z) (pChar fileName : nat) : outcome nat :=
  match mem with
  | [] => Ub
  | c :: rest =>
      if (c =? 0)%Z then Ret fileName
      else file_name_loop rest (S pChar) (if ((c =? backslash) || (c =? slash))%Z then pChar + 1 else fileName)
  end.
Definition file_name (mem : list Z) : outcome nat := file_name_loop mem 0 0.
