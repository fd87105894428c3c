(** What the numbers and operations of FloatModel.v mean, stated with integers only. *)
From Coq Require Import List Bool ZArith Floats.SpecFloat.
From Verif Require Import Base.
Import ListNotations.
Local Open Scope Z_scope.

Definition is_nan (x : spec_float) : bool := match x with S754_nan => true | _ => false end.
Definition is_finite (x : spec_float) : bool := match x with S754_zero _ | S754_finite _ _ _ => true | _ => false end.
(** the sign bit *)
Definition sign (x : spec_float) : bool := match x with S754_zero s | S754_infinity s | S754_finite s _ _ => s | S754_nan => false end.

Section Format.
Variables prec emax : Z.
Notation emin := (emin prec emax).
Definition a_format : Prop := 1 < prec /\ prec < emax.
Definition number (x : spec_float) : Prop := valid_binary prec emax x = true.
(** the value of a finite number, in units of the least positive number 2^emin *)
Definition units (x : spec_float) : Z :=
  match x with S754_finite s m e => (if s then -1 else 1) * (Zpos m * 2 ^ (e - emin)) | _ => 0 end.
(** the number 1 in these units *)
Definition one : Z := 2 ^ (- emin).
(** the order of the numbers that are not NaN *)
Definition below (x y : spec_float) : Prop :=
  match x, y with
  | S754_nan, _ | _, S754_nan => False
  | S754_infinity true, S754_infinity true => False
  | S754_infinity true, _ => True
  | S754_infinity false, _ => False
  | _, S754_infinity s => s = false
  | _, _ => units x < units y
  end.
(** equality of the numbers that are not NaN *)
Definition same (x y : spec_float) : Prop :=
  match x, y with
  | S754_nan, _ | _, S754_nan => False
  | S754_infinity s, S754_infinity s' => s = s'
  | S754_infinity _, _ | _, S754_infinity _ => False
  | _, _ => units x = units y
  end.
(** [x] at position [i] is the first least (greatest) element of [l] that is not NaN *)
Definition first_least (l : list spec_float) (i : nat) (x : spec_float) : Prop :=
  nth_error l i = Some x /\ is_nan x = false /\ (forall y, In y l -> ~ below y x) /\
  (forall j y, (j < i)%nat -> nth_error l j = Some y -> is_nan y = false -> below x y).
Definition first_greatest (l : list spec_float) (i : nat) (x : spec_float) : Prop :=
  nth_error l i = Some x /\ is_nan x = false /\ (forall y, In y l -> ~ below x y) /\
  (forall j y, (j < i)%nat -> nth_error l j = Some y -> is_nan y = false -> below y x).
(** the integers (of units) that are numbers: at most [prec] binary digits followed by zeros, and not too large *)
Definition representable (z : Z) : Prop := (exists m k, z = m * 2 ^ k /\ 0 <= k /\ Z.abs m < 2 ^ prec) /\ Z.abs z < 2 ^ (emax - emin).
(** [r] is a representable number nearest to [z]; of two nearest ones it is the one whose last digit is even *)
Definition nearest (z r : Z) : Prop :=
  representable r /\ (forall r', representable r' -> Z.abs (r - z) <= Z.abs (r' - z)) /\
  (forall r', representable r' -> r' <> r -> Z.abs (r - z) = Z.abs (r' - z) ->
    exists m k, r = 2 * m * 2 ^ k /\ 0 <= k /\ 2 * Z.abs m <= 2 ^ prec /\ Z.abs (r' - r) = 2 ^ k).
(** beyond half the spacing above the largest number a result becomes infinite *)
Definition too_large (z : Z) : Prop := 2 ^ (emax - emin) - 2 ^ (emax - emin - prec - 1) <= Z.abs z.
(** sums of finite numbers into an integer [v] of [bits] bits.  Each addition converts [v] to the nearest number [a], adds an
    element, rounds to the nearest number [r] and drops the fraction.  [None]: the behaviour is undefined as a result has
    no integer of the type. *)
Definition in_type (bits : Z) (sgn : bool) (z : Z) : Prop := if sgn then - 2 ^ (bits - 1) <= z < 2 ^ (bits - 1) else 0 <= z < 2 ^ bits.
Inductive int_sum (bits : Z) (sgn : bool) : list spec_float -> Z -> option Z -> Prop :=
| int_sum_nil v : int_sum bits sgn [] v (Some v)
| int_sum_next x c v a r o : is_finite x = true -> nearest (v * one) a -> ~ too_large (a + units x) -> nearest (a + units x) r -> in_type bits sgn (Z.quot r one) ->
    int_sum bits sgn c (Z.quot r one) o -> int_sum bits sgn (x :: c) v o
| int_sum_out x c v a r : is_finite x = true -> nearest (v * one) a -> ~ too_large (a + units x) -> nearest (a + units x) r -> ~ in_type bits sgn (Z.quot r one) ->
    int_sum bits sgn (x :: c) v None
| int_sum_overflow x c v a : is_finite x = true -> nearest (v * one) a -> too_large (a + units x) ->
    int_sum bits sgn (x :: c) v None
| int_sum_not_finite x c v : is_finite x = false -> int_sum bits sgn (x :: c) v None.
End Format.
(** the value of a call that returns *)
Definition defined {A : Type} (o : outcome A) : option A := match o with Ret a => Some a | _ => None end.
(** the sum of integers *)
Definition total (l : list Z) : Z := fold_right Z.add 0 l.
