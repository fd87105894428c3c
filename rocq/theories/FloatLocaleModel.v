(** Model of str and str_to (/repo/include/pluto/string.hpp 237-243, 295-301) for floating-point types when the global
    locale has another decimal point or groups digits: std::num_put::_M_insert_float and std::num_get::_M_extract_float
    of libstdc++, with the text of printf and the reading of strtod from FloatTextModel.v.  The characters of digits,
    signs and "e" and what is white space are the same in all locales. *)
From Coq Require Import Ascii String List Bool Arith ZArith Floats.SpecFloat.
From Verif Require Import Base LogTextModel ConvModel GroupModel FloatTextModel.
Import ListNotations.
Open Scope list_scope.

(** std::numpunct with decimal_point() *)
Record floatpunct := Floatpunct { punct :> numpunct; point : ascii }.
(** __numpunct_cache::_M_use_grouping *)
Definition use_grouping (p : floatpunct) : bool := match grouping p with n :: _ => limits n | [] => false end.
Definition is_sep (p : floatpunct) (c : ascii) : bool := use_grouping p && Ascii.eqb c (sep p).
Definition is_digit (c : ascii) : bool := match digit_val c with Some _ => true | None => false end.

(** * Writing *)
(** the text of printf up to its point, and from there *)
Fixpoint split_point (t : text) : text * text :=
  match t with
  | c :: t' => if Ascii.eqb c "." then ([], t) else let (i, r) := split_point t' in (c :: i, r)
  | [] => ([], [])
  end.
Definition has_digit (t : text) (n : nat) : bool := match nth_error t n with Some c => is_digit c | None => false end.
(** _M_insert_float: the point is replaced; what is before it is grouped, after a sign.  Without a point that is the
    whole text, unless it is something like 2e20 or inf, which the second and third character tell. *)
Definition insert_float (p : floatpunct) (t : text) : text :=
  let (i, r) := split_point t in
  let r' := match r with _ :: f => point p :: f | [] => [] end in
  if negb (length r =? 0) || (length t <? 3) || (has_digit t 1 && has_digit t 2) then
    match i with
    | "-"%char :: ds => "-"%char :: put_digits p ds ++ r'
    | ds => put_digits p ds ++ r'
    end
  else i ++ r'.

(** * Reading *)
(** _M_extract_float, the loop: the characters for strtod.  [pos]: there are digits since the last separator, [dec], [sci]:
    a point, an exponent was found, [man]: a digit was found.  A separator that no digit is in front of clears what
    was collected.  The first zeros of a number, of which libstdc++ collects one, are all collected here.  That the groups
    do not have their sizes sets failbit, which str_to does not look at. *)
Definition add (c : ascii) (t : option text) : option text := match t with Some t => Some (c :: t) | None => None end.
Fixpoint collect (p : floatpunct) (t : text) (pos dec sci man : bool) : option text :=
  match t with
  | [] => Some []
  | c :: t' =>
      if is_sep p c then
        if dec || sci then Some [] else if pos then collect p t' false dec sci man else None
      else if Ascii.eqb c (point p) then
        if dec || sci then Some [] else add "." (collect p t' pos true sci man)
      else if is_digit c then add c (collect p t' true dec sci true)
      else if is_e c && negb sci && man then
        add "e" (match t' with
                 | s :: t'' => if Ascii.eqb s "+" || Ascii.eqb s "-" then add s (collect p t'' pos dec true man)
                               else collect p t' pos dec true man
                 | [] => Some []
                 end)
      else Some []
  end.
(** a sign that is neither the separator nor the point is collected first *)
Definition is_sign (p : floatpunct) (c : ascii) : bool :=
  (Ascii.eqb c "+" || Ascii.eqb c "-") && negb (is_sep p c) && negb (Ascii.eqb c (point p)).
Definition extract (p : floatpunct) (t : text) : option text :=
  match t with
  | c :: t' => if is_sign p c then add c (collect p t' false false false false) else collect p t false false false false
  | [] => Some []
  end.

Section Format.
Variables prec emax : Z.
(** str, 237-243 *)
Definition str_float (p : floatpunct) (x : spec_float) : text := insert_float p (FloatTextModel.str_float prec emax x).
(** str_to, 295-301: strtod of no characters fails, and the value is 0 *)
Definition str_to_float (p : floatpunct) (s : text) : outcome spec_float :=
  match skip_ws s with
  | [] => Ub
  | t => Ret (match extract p t with Some t => get_float prec emax t | None => S754_zero false end)
  end.
End Format.
