(** Model of the same functions as ConvModel.v and LogTextModel.v when the streams' locale groups digits:
    /repo/include/pluto/string.hpp str (237-243) and str_to (295-301), whose string streams take the global locale,
    and logger.hpp default_log_writer (421-443) on a stream with any way of writing integers (the locale's, or
    the base and showpos left on the stream by a custom writer).  std::num_put and std::num_get as the standard defines them. *)
From Coq Require Import Ascii String List Bool Arith ZArith.
From Verif Require Import Base LogTextModel ConvModel.
Import ListNotations.
Open Scope list_scope.

(** std::numpunct: grouping() as numbers, thousands_sep() *)
Record numpunct := Numpunct { grouping : list Z; sep : ascii }.

(** std::num_put, stage 2: separators are put into the digits [ds] from the right.  The last size is repeated; a
    size that is not positive or is CHAR_MAX (127) ends the grouping. *)
Definition limits (n : Z) : bool := ((0 <? n) && (n <? 127))%Z.
Fixpoint put_groups (fuel : nat) (sep : ascii) (g : list Z) (ds : text) : text :=
  match fuel, g with
  | S fuel, n :: g' =>
      if limits n && (Z.to_nat n <? length ds) then
        let k := length ds - Z.to_nat n in
        put_groups fuel sep (match g' with [] => g | _ => g' end) (firstn k ds) ++ sep :: skipn k ds
      else ds
  | _, _ => ds
  end.
Definition put_digits (p : numpunct) (ds : text) : text := put_groups (length ds) (sep p) (grouping p) ds.
(** an integer, base 10, no showpos *)
Definition put_int (p : numpunct) (v : Z) : text :=
  match dec v with
  | "-"%char :: ds => "-"%char :: put_digits p ds
  | ds => put_digits p ds
  end.

(** std::num_get, stage 2: separators are left out if the locale groups digits.  That they are not where
    [grouping] has them sets failbit, which str_to does not look at.  (libstdc++ gives 0 if two separators follow
    each other or one is first, and can give 0 for numbers that are too large.) *)
Definition discards (p : numpunct) (c : ascii) : bool :=
  match grouping p with [] => false | _ => Ascii.eqb c (sep p) end.
Fixpoint drop_seps (p : numpunct) (s : text) : text :=
  match s with
  | c :: s' => if discards p c then drop_seps p s' else s
  | [] => []
  end.
Fixpoint get_digits (p : numpunct) (s : text) (n : Z) : Z :=
  match s with
  | c :: s' =>
      if discards p c then get_digits p s' n
      else match digit_val c with Some d => get_digits p s' (10 * n + d)%Z | None => n end
  | [] => n
  end.

(** str, 237-243 *)
Definition str_int (p : numpunct) (v : Z) : text := put_int p v.
(** str_to, 295-301 *)
Definition str_to_int (p : numpunct) (signed : bool) (w : Z) (s : text) : outcome Z :=
  match skip_ws s with
  | [] => Ub
  | t => let (neg, t) := get_sign (drop_seps p t) in Ret (convert signed w neg (get_digits p t 0))
  end.

(** default_log_writer, 421-443: [num] is how the stream writes integers *)
Definition apply_num (num : Z -> text) (s : stream) (o : op) : stream :=
  match o with Num z => put (num z) s | _ => apply s o end.
Definition log_writer (num : Z -> text) (hide : bool) (e : log_line) (s : stream) : stream :=
  fold_left (apply_num num) (log_ops hide e) s.
