(** Specification of numbers with digits in groups. *)
From Coq Require Import Ascii String List Bool Arith ZArith.
From Verif Require Import Base LogTextModel LogTextSpec ConvSpec.
Import ListNotations.
Open Scope list_scope.

(** the size of the [k]-th group from the right, [None] if it has no limit: the sizes are listed in [g], the last
    one goes on; 0, a negative number and CHAR_MAX stand for no limit *)
Definition size (g : list Z) (k : nat) : option nat :=
  let n := nth k g (last g 0%Z) in if ((n <=? 0) || (127 <=? n))%Z then None else Some (Z.to_nat n).
(** texts with [sep] between them *)
Fixpoint separated (sep : ascii) (l : list text) : text :=
  match l with
  | [] => []
  | [t] => t
  | t :: l => t ++ sep :: separated sep l
  end.
(** [groups], from the right: all but the last are full and the last is not longer than allowed *)
Fixpoint full (g : list Z) (k : nat) (groups : list text) : Prop :=
  match groups with
  | [] => True
  | [t] => forall n, size g k = Some n -> length t <= n
  | t :: groups => size g k = Some (length t) /\ full g (S k) groups
  end.
(** no group is empty, unless there are no digits at all *)
Definition grouped (g : list Z) (sep : ascii) (ds t : text) : Prop :=
  exists groups, concat groups = ds /\ full g 0 (rev groups) /\ t = separated sep groups /\
  (ds <> [] -> Forall (fun x => x <> []) groups).
(** [t] is [v] with a minus sign if it is negative and grouped digits *)
Definition grouped_decimal (g : list Z) (sep : ascii) (v : Z) (t : text) : Prop :=
  exists s sign ds ds', decimal v s /\ s = sign ++ ds /\ (sign = [] \/ sign = ["-"%char]) /\ Forall decimal_digit ds /\
  t = sign ++ ds' /\ grouped g sep ds ds'.

(** a line, with [num] as the way numbers are written *)
Definition log_row_num (num : Z -> text) (hide : bool) (e : log_line) : text :=
  put_time (t_local e) ++ pad_left "0" 6 (num (Z.rem (t_micros e) 1000000)) ++ chars "|" ++
  pad_left " " 7 (num (l_thread e)) ++ chars "|" ++
  pad_right 8 (chars (log_level_to_title (l_level e))) ++ chars "|" ++
  (if hide then [] else
   pad_right 20 (firstn 20 (file_name (l_file e))) ++ chars "|" ++
   pad_left " " 5 (num (l_line e)) ++ chars "|" ++
   pad_right 20 (firstn 20 (l_function e)) ++ chars "|") ++
  l_message e.
