(** Encoded text and its code points: what it means for functions that see only the units of a string to treat it as text,
    and the orders of strings. *)
From Coq Require Import ZArith List Bool.
From Verif Require Import Base UnicodeModel UnicodeSpec UnicodeTextSpec.
Import ListNotations.
Open Scope Z_scope.

(** the string [a] of type [s] is the text with the code points [cs] *)
Definition means (p : platform) (s : str_type) (a cs : list Z) : Prop :=
  Forall (holds (et_bits (et_of p s)) (et_signed (et_of p s))) a /\
  encodes (seq_of p s) cs (map (pattern (et_bits (et_of p s))) a).

(** the position [i] of the string [a] is the position [j] of its code points [cs] *)
Definition same_place (p : platform) (s : str_type) (a cs : list Z) (i j : nat) : Prop :=
  exists x y c1 c2, a = x ++ y /\ cs = c1 ++ c2 /\ means p s x c1 /\ means p s y c2 /\ length x = i /\ length c1 = j.

(** the text [a] converts to [m] *)
Definition converted (p : platform) (src dst : str_type) (a m : list Z) : Prop := text p src a /\ to_type p dst src a = Ret m.
(** the unit [v] alone is the character [v] *)
Definition whole (p : platform) (s : str_type) (v : Z) : Prop := means p s [v] [v].
(** the characters of ASCII *)
Definition ascii (c : Z) : Prop := 0 <= c < 0x80.

(** lexicographic order *)
Inductive lex (lt : Z -> Z -> Prop) : list Z -> list Z -> Prop :=
| lex_end y m : lex lt [] (y :: m)
| lex_here x y l m : lt x y -> lex lt (x :: l) (y :: m)
| lex_next x l m : lex lt l m -> lex lt (x :: l) (x :: m).

(** how std::char_traits compares the units of a string: as unsigned char for char, by their values for the other types *)
Definition compared (s : str_type) (a : list Z) : list Z :=
  match s with SChar => map (pattern 8) a | _ => a end.
(** operator< of std::basic_string *)
Definition string_less (s : str_type) (a b : list Z) : Prop := lex Z.lt (compared s a) (compared s b).

(** the order of UTF-16 on code points: those beyond U+FFFF come before U+E000 *)
Definition less16 (c d : Z) : Prop :=
  if 0x10000 <=? c then if 0x10000 <=? d then c < d else 0xE000 <= d
  else if 0x10000 <=? d then c < 0xE000 else c < d.

(** the strings of UTF-16 *)
Definition is_utf16 (p : platform) (s : str_type) : bool :=
  match s with SChar16 => true | SWide => negb (wchar_32 p) | _ => false end.

(** how many units a conversion makes at most of one unit, from units of [b] bits to units of [b'] bits *)
Definition most (b b' : Z) : Z :=
  if b =? 8 then 1
  else if b =? 16 then (if b' =? 8 then 3 else 1)
  else if b' =? 8 then 4 else if b' =? 16 then 2 else 1.
(** of how many units it makes one at most *)
Definition least (b b' : Z) : Z :=
  if b =? 8 then (if b' =? 8 then 1 else if b' =? 16 then 3 else 4)
  else if b =? 16 then (if b' =? 32 then 2 else 1)
  else 1.

(** a change of case that a locale makes to single units: it changes only characters of one unit, into characters of one unit *)
Definition case_map (p : platform) (s : str_type) (f : Z -> Z) : Prop := forall v, f v <> v -> whole p s v /\ whole p s (f v).
(** those of the classic locale *)
Definition classic_upper (v : Z) : Z := if (97 <=? v) && (v <=? 122) then v - 32 else v.
Definition classic_lower (v : Z) : Z := if (65 <=? v) && (v <=? 90) then v + 32 else v.
(** those of a locale with ISO 8859-1, on signed chars *)
Definition latin1_upper (v : Z) : Z := if (-32 <=? v) && (v <=? -2) && negb (v =? -9) then v - 32 else classic_upper v.
Definition latin1_lower (v : Z) : Z := if (-64 <=? v) && (v <=? -34) && negb (v =? -41) then v + 32 else classic_lower v.
