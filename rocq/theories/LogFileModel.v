(** Model of how pluto::logger writes and rotates its files (/repo/include/pluto/logger.hpp, 758-869).

    A disk maps paths to contents.  A content is a list of chunks, so that the lines of different entries can be
    told apart; the file's bytes are their texts, each header and each line followed by a newline.  What the
    writers of lines and headers produce is arbitrary.
    Every operation on the file system may throw: [ok c] says whether operation number [c] succeeds.
    An open stream's position (tellp) is the size of its file, because files are opened with ate and app (760).
    Writes to an open stream succeed, except in [write_batch_io] (C92).
    Not modelled: buffering in streams (see CrashModel.v and C147), other programs changing the files, several paths of one file (see C180), overflow of
    size_t, writers of lines and headers that throw. *)
From Coq Require Import List Bool Arith Ascii String ZArith.
From Coq Require Decimal DecimalNat.
From Verif Require Import Base LoggerModel.
Import ListNotations.

Inductive chunk {E : Type} := Old (t : string) | Head (t : string) | Line (e : E) (t : string).
Arguments chunk : clear implicits.
Definition chunk_size {E} (c : chunk E) : nat :=
  match c with Old t => String.length t | Head t => S (String.length t) | Line _ t => S (String.length t) end.
Definition size {E} (c : list (chunk E)) : nat := fold_right (fun x n => chunk_size x + n) 0 c.

Inductive outcome := Done | Threw | NoFuel.

Section Disk.
Context {P E : Type} (peqb : P -> P -> bool).
Notation content := (list (chunk E)).
Definition disk : Type := P -> option content.
Definition set_file (p : P) (c : option content) (d : disk) : disk := fun q => if peqb q p then c else d q.
Definition remove_file (p : P) (d : disk) : disk := set_file p None d.
(** rename replaces the file [q] if it exists *)
Definition rename_file (p q : P) (d : disk) : disk := set_file q (d p) (remove_file p d).
Definition append (p : P) (c : content) (d : disk) : disk :=
  set_file p (match d p with Some c0 => Some (c0 ++ c) | None => None end) d.
Definition open_file (p : P) (d : disk) : disk :=          (* open_file_stream, 758-767 *)
  match d p with Some _ => d | None => set_file p (Some []) d end.
Definition size_at (p : P) (d : disk) : nat := match d p with Some c => size c | None => 0 end.

(** rotate_file, 769-808; [path i] is the path of the i-th file, the current one is [path 0] *)
Section Rotate.
Variable (path : nat -> P) (ok : nat -> bool) (limit : nat).
(** the first loop (777-794), from [i] on, with numFiles = [num] *)
Fixpoint scan (fuel i num c : nat) (d : disk) : outcome * nat * nat * disk :=
  match fuel with
  | 0 => (NoFuel, num, c, d)
  | S fuel =>
      if ok c then
        match d (path i) with
        | None => (Done, num, S c, d)
        | Some _ =>
            if i <? limit then scan fuel (S i) (S num) (S c) d
            else if ok (S c) then scan fuel (S i) num (S (S c)) (remove_file (path i) d)
            else (Threw, num, S c, d)
        end
      else (Threw, num, c, d)
  end.
(** the second loop (796-807) *)
Fixpoint shift (i c : nat) (d : disk) : outcome * nat * disk :=
  match i with
  | 0 => (Done, c, d)
  | S i =>
      match d (path i) with
      | Some _ => if ok c then shift i (S c) (rename_file (path i) (path (S i)) d) else (Threw, c, d)
      | None => (Threw, c, d)
      end
  end.
Definition rotate (fuel c : nat) (d : disk) : outcome * nat * disk :=
  match scan fuel 0 0 c d with
  | (Done, num, c, d) => shift num c d
  | (o, _, c, d) => (o, c, d)
  end.
End Rotate.

(** one round of the loop of write_buffer_to_file, 841-863; [header], [rsize] are writeHeader and
    fileRotationSize, [ht] and [lt] what the header writer and the log writer produce *)
Definition emit (path : nat -> P) (header : bool) (ht lt : string) (e : E) (d : disk) : disk :=
  append (path 0) [Line e lt] (if header && (size_at (path 0) d =? 0) then append (path 0) [Head ht] d else d).
Definition write_entry (path : nat -> P) (ok : nat -> bool) (fuel limit rsize : nat) (header : bool) (ht lt : string) (e : E)
    (d : disk) : outcome * disk :=
  if negb (rsize =? 0) && (rsize <=? size_at (path 0) d) then
    match rotate path ok limit fuel 0 d with
    | (Done, c, d) => if ok c then (Done, emit path header ht lt e (open_file (path 0) d)) else (Threw, d)
    | (o, _, d) => (o, d)
    end
  else (Done, emit path header ht lt e d).
End Disk.

(** write_buffer_to_file (810-869) once the file is open: the entries (with their texts and the rotation limit
    at their time), oldest first; the number of entries written *)
Record item {E : Type} := Item { i_entry : E; i_head : string; i_line : string; i_limit : nat; i_ok : nat -> bool }.
Arguments item : clear implicits.
Fixpoint write_all {P E} (peqb : P -> P -> bool) (path : nat -> P) (fuel rsize : nat) (header : bool) (l : list (item E))
    (d : @disk P E) : outcome * nat * @disk P E :=
  match l with
  | [] => (Done, 0, d)
  | i :: l =>
      match write_entry peqb path (i_ok i) fuel (i_limit i) rsize header (i_head i) (i_line i) (i_entry i) d with
      | (Done, d) => match write_all peqb path fuel rsize header l d with (o, n, d) => (o, S n, d) end
      | (o, d) => (o, 0, d)
      end
  end.
Definition write_batch {P E} (peqb : P -> P -> bool) (path : nat -> P) (fuel rsize : nat) (header : bool) (l : list (item E))
    (d : @disk P E) : outcome * nat * @disk P E :=
  write_all peqb path fuel rsize header l (open_file peqb (path 0) d).

(** The same with writes to the stream that may fail (a full disk): [w i] says whether write number [i] for this
    entry succeeds.  A failed write leaves nothing in the file and sets the stream's badbit ([good] = false), so
    that later writes do nothing and tellp is -1 (843), a huge size_t.  Opening the stream clears it (760).
    No exception is thrown. *)
Definition emit_io {P E} (peqb : P -> P -> bool) (path : nat -> P) (w : nat -> bool) (header good : bool) (ht lt : string) (e : E)
    (d : @disk P E) : bool * @disk P E :=
  let head := header && good && (size_at (path 0) d =? 0) in
  let good1 := if head then w 0 else good in
  let d := if head && good1 then append peqb (path 0) [Head ht] d else d in
  let good2 := good1 && w 1 in
  (good2, if good2 then append peqb (path 0) [Line e lt] d else d).
Definition write_entry_io {P E} (peqb : P -> P -> bool) (path : nat -> P) (ok w : nat -> bool) (fuel limit rsize : nat)
    (header good : bool) (ht lt : string) (e : E) (d : @disk P E) : outcome * bool * @disk P E :=
  if negb (rsize =? 0) && (negb good || (rsize <=? size_at (path 0) d)) then
    match rotate peqb path ok limit fuel 0 d with
    | (Done, c, d) =>
        if ok c then match emit_io peqb path w header true ht lt e (open_file peqb (path 0) d) with (g, d) => (Done, g, d) end
        else (Threw, good, d)
    | (o, _, d) => (o, good, d)
    end
  else match emit_io peqb path w header good ht lt e d with (g, d) => (Done, g, d) end.
Fixpoint write_all_io {P E} (peqb : P -> P -> bool) (path : nat -> P) (fuel rsize : nat) (header good : bool)
    (l : list (item E * (nat -> bool))) (d : @disk P E) : outcome * nat * @disk P E :=
  match l with
  | [] => (Done, 0, d)
  | (i, w) :: l =>
      match write_entry_io peqb path (i_ok i) w fuel (i_limit i) rsize header good (i_head i) (i_line i) (i_entry i) d with
      | (Done, good, d) => match write_all_io peqb path fuel rsize header good l d with (o, n, d) => (o, S n, d) end
      | (o, _, d) => (o, 0, d)
      end
  end.
Definition write_batch_io {P E} (peqb : P -> P -> bool) (path : nat -> P) (fuel rsize : nat) (header : bool)
    (l : list (item E * (nat -> bool))) (d : @disk P E) : outcome * nat * @disk P E :=
  write_all_io peqb path fuel rsize header true l (open_file peqb (path 0) d).

(** What the writing events of the logger (LoggerModel.v) do to the disk.  The settings may change at any time:
    the rotation limit is one of [L], the rotation size one of [R], whether to write a header one of [H]. *)
Section Trace.
Context {P K M : Type} (peqb : P -> P -> bool) (path : K -> nat -> P).
Notation entry := (entry K M).
Notation disk := (@disk P entry).
Variables (L R : nat -> Prop) (H : bool -> Prop).
Inductive disk_step (d : disk) : @event K M -> disk -> Prop :=
| k_open k : disk_step d (EOpen k) (open_file peqb (path k 0) d)                                      (* 839 *)
| k_write k e ok fuel limit rsize header ht lt d' : L limit -> R rsize -> H header ->
    write_entry peqb (path k) ok fuel limit rsize header ht lt e d = (Done, d') -> disk_step d (EWrite k e) d'
| k_fail k (created : bool) : disk_step d (EFail k) (if created then open_file peqb (path k 0) d else d)   (* 819-839 *)
| k_fail_rotate k e ok fuel limit rsize header ht lt d' (created : bool) : L limit -> R rsize -> H header ->
    write_entry peqb (path k) ok fuel limit rsize header ht lt e d = (Threw, d') ->
    disk_step d (EFail k) (if created then open_file peqb (path k 0) d' else d')
| k_other ev : match ev with EOpen _ | EWrite _ _ | EFail _ => False | _ => True end -> disk_step d ev d.
(** the logger together with its disk *)
Inductive system (ltb : K -> K -> bool) (s0 : @logger K M) (d0 : disk) : list (@event K M) -> @logger K M -> disk -> Prop :=
| sys_nil : system ltb s0 d0 [] s0 d0
| sys_snoc tr s d e s' d' : system ltb s0 d0 tr s d -> step ltb s e s' -> disk_step d e d' -> system ltb s0 d0 (tr ++ [e]) s' d'.
End Trace.

(** The paths: a directory ending in '/', a file name without '/' split into stem and extension
    (filesystem::path::stem, extension), and a number in between (779-780).  std::to_string writes decimal digits
    without leading zeros. *)
Fixpoint digits (u : Decimal.uint) : list ascii :=
  match u with
  | Decimal.Nil => []
  | Decimal.D0 u => "0"%char :: digits u | Decimal.D1 u => "1"%char :: digits u | Decimal.D2 u => "2"%char :: digits u
  | Decimal.D3 u => "3"%char :: digits u | Decimal.D4 u => "4"%char :: digits u | Decimal.D5 u => "5"%char :: digits u
  | Decimal.D6 u => "6"%char :: digits u | Decimal.D7 u => "7"%char :: digits u | Decimal.D8 u => "8"%char :: digits u
  | Decimal.D9 u => "9"%char :: digits u
  end.
Definition to_string (n : nat) : list ascii := digits (Nat.to_uint n).
Definition suffix (i : nat) : list ascii := match i with 0 => [] | _ => "_"%char :: to_string i end.
(** the part of [l] after the last [c], and the part up to and including it *)
Fixpoint after_last (c : ascii) (l : list ascii) : list ascii :=
  match l with
  | [] => []
  | x :: l' => if existsb (Ascii.eqb c) l' then after_last c l' else if Ascii.eqb c x then l' else l
  end.
Definition upto_last (c : ascii) (l : list ascii) : list ascii := firstn (List.length l - List.length (after_last c l)) l.
Definition directory (p : list ascii) : list ascii := upto_last "/"%char p.
Definition filename (p : list ascii) : list ascii := after_last "/"%char p.
Definition dot : ascii := "."%char.
(** extension(): from the last dot on; empty if there is no dot, or only as first character, or for ".." *)
Definition extension (f : list ascii) : list ascii :=
  match f with
  | [] => []
  | x :: f' =>
      if existsb (Ascii.eqb dot) f' then
        if Ascii.eqb x dot && (List.length f' =? 1) then [] else dot :: after_last dot f'
      else []
  end.
Definition stem (f : list ascii) : list ascii := firstn (List.length f - List.length (extension f)) f.
Definition file_path (p : list ascii) (i : nat) : list ascii :=
  directory p ++ stem (filename p) ++ suffix i ++ extension (filename p).
Definition path_eqb (p q : list ascii) : bool := if list_eq_dec ascii_dec p q then true else false.
