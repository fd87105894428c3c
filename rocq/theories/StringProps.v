(** Property theorems C20-C28, C70: string.hpp.  The element type and Traits::eq (which decides
    equality) are arbitrary. *)
From Coq Require Import Ascii String List Bool Arith ZArith.
From Verif Require Import Base StringModel StringSpec StringProofs DigitsModel DigitsSpec DigitsProofs.
Import ListNotations.
Open Scope nat_scope.
Open Scope list_scope.

Definition decides {A : Type} (eqb : A -> A -> bool) : Prop := forall x y, eqb x y = true <-> x = y.

(** C20 *)
Theorem join_inverts_split : forall (A : Type) (eqb : A -> A -> bool), decides eqb ->
  forall s sep, exists ps, split eqb s sep = Ret ps /\ join ps sep = s.
Proof. exact @join_undoes_split. Qed.
Print Assumptions join_inverts_split.
Example join_inverts_split_ex :
  decides Nat.eqb /\ split Nat.eqb [1;0;0;0;2] [0;0] = Ret [[1];[0;2]] /\
  split Nat.eqb [] [0;0] = Ret [[]] /\ split Nat.eqb [] [] = Ret [].
Proof. split; [exact Nat.eqb_eq|repeat split]. Qed.

(** C21 *)
Theorem split_cuts_leftmost : forall (A : Type) (eqb : A -> A -> bool), decides eqb ->
  forall s sep, sep <> [] ->
  exists ps, split eqb s sep = Ret ps /\ pieces sep s ps /\ (forall ps', pieces sep s ps' -> ps' = ps) /\
    Forall (fun x => ~ occurs sep x) ps.
Proof. exact @split_all. Qed.
Print Assumptions split_cuts_leftmost.
Theorem split_with_empty_separator : forall (A : Type) (eqb : A -> A -> bool) (s : list A),
  split eqb s [] = Ret (map (fun c => [c]) s).
Proof. exact @split_empty_sep. Qed.
Print Assumptions split_with_empty_separator.
Theorem split_inverts_join : forall (A : Type) (eqb : A -> A -> bool), decides eqb ->
  forall sep ps x, sep <> [] ->
  (forall u, In u ps -> forall a b, u ++ sep = a ++ sep ++ b -> b = []) -> ~ occurs sep x ->
  split eqb (join (ps ++ [x]) sep) sep = Ret (ps ++ [x]).
Proof. exact @split_undoes_join. Qed.
Print Assumptions split_inverts_join.
Example split_ex :
  decides Nat.eqb /\ split Nat.eqb [0;0;0;1;0;0] [0;0] = Ret [[];[0;1];[]] /\
  split Nat.eqb [3;4] [] = Ret [[3];[4]].
Proof. split; [exact Nat.eqb_eq|repeat split]. Qed.
Example split_inverts_join_ex :
  (forall u, In u [[1];[];[2]] -> forall a b, u ++ [0] = a ++ [0] ++ b -> b = []) /\ ~ occurs [0] [3;4].
Proof.
  split.
  - intros u [<-|[<-|[<-|[]]]] a b E.
    + destruct a as [|x [|y [|z a]]]; simpl in E; try discriminate; congruence.
    + destruct a as [|x [|y a]]; simpl in E; try discriminate; congruence.
    + destruct a as [|x [|y [|z a]]]; simpl in E; try discriminate; congruence.
  - intros (u & v & E). destruct u as [|x [|y [|z u]]]; discriminate.
Qed.

(** C22 *)
Theorem split_on_spaces : forall (A : Type) (space : A -> bool) s,
  exists ws, split_space space s = Ret ws /\ words space s ws /\ (forall ws', words space s ws' -> ws' = ws) /\
    Forall (fun w => w <> [] /\ Forall (fun c => space c = false) w) ws /\
    concat ws = filter (fun c => negb (space c)) s.
Proof. exact @split_space_all. Qed.
Print Assumptions split_on_spaces.
Example split_on_spaces_ex : split_space (Nat.eqb 0) [0;1;2;0;0;3;0] = Ret [[1;2];[3]].
Proof. reflexivity. Qed.

(** C23: [sepc] is any decision of membership in the set *)
Theorem split_any_of_runs : forall (A : Type) (eqb : A -> A -> bool), decides eqb ->
  forall s set sepc, (forall x, sepc x = true <-> In x set) ->
  exists ws, split_any_of eqb s set = Ret ws /\ words sepc s ws.
Proof. exact @split_any_of_all. Qed.
Print Assumptions split_any_of_runs.
Theorem runs_are_unique : forall (A : Type) (sepc : A -> bool) s ws ws',
  words sepc s ws -> words sepc s ws' -> ws = ws'.
Proof. exact @words_unique. Qed.
Print Assumptions runs_are_unique.
Example split_any_of_runs_ex :
  (forall x, (x <=? 1) = true <-> In x [0;1]) /\ split_any_of Nat.eqb [0;5;1;0;6;7] [0;1] = Ret [[5];[6;7]] /\
  words (fun x => x <=? 1) [0;5;1;0;6;7] [[5];[6;7]].
Proof.
  split; [|split; [reflexivity|]].
  - intros [|[|x]]; simpl; split; intros H; auto; [discriminate|]. destruct H as [H|[H|[]]]; discriminate.
  - apply words_sep; [reflexivity|]. apply (words_word _ [5] [1;0;6;7]); [discriminate|repeat constructor|reflexivity|].
    apply words_sep; [reflexivity|]. apply words_sep; [reflexivity|].
    apply (words_word _ [6;7] []); [discriminate|repeat constructor|exact I|constructor].
Qed.

(** C24 *)
Theorem replace_substitutes_leftmost : forall (A : Type) (eqb : A -> A -> bool), decides eqb ->
  forall s f r, f <> [] -> exists ps, replace eqb s f r = Ret (interleaved r ps) /\ pieces f s ps.
Proof. exact @replace_spec. Qed.
Print Assumptions replace_substitutes_leftmost.
Theorem replace_empty_inserts_everywhere : forall (A : Type) (eqb : A -> A -> bool) (s r : list A),
  replace eqb s [] r = Ret (r ++ flat_map (fun c => c :: r) s).
Proof. exact @replace_empty. Qed.
Print Assumptions replace_empty_inserts_everywhere.
(** the replacement contains the searched text *)
Example replace_ex :
  decides Nat.eqb /\ replace Nat.eqb [1;1;1;2;1] [1] [1;1] = Ret [1;1;1;1;1;1;2;1;1] /\
  replace Nat.eqb [1;1;1] [1;1] [3] = Ret [3;1] /\ replace Nat.eqb [1;2] [] [9] = Ret [9;1;9;2;9].
Proof. split; [exact Nat.eqb_eq|repeat split]. Qed.

(** C25 *)
Theorem replace_any_of_substitutes_once : forall (A : Type) (eqb : A -> A -> bool), decides eqb ->
  forall s set r sepc, (forall x, sepc x = true <-> In x set) ->
  replace_any_of eqb s set r = Ret (flat_map (fun c => if sepc c then r else [c]) s).
Proof. exact @replace_any_of_all. Qed.
Print Assumptions replace_any_of_substitutes_once.
Example replace_any_of_ex : replace_any_of Nat.eqb [1;2;3;1] [1;3] [1;3] = Ret [1;3;2;1;3;1;3].
Proof. reflexivity. Qed.

(** C26 *)
Theorem lstrip_removes_leading_spaces : forall (A : Type) (space : A -> bool) s,
  exists r, lstrip space s = Ret r /\ lstripped space s r /\ (forall r', lstripped space s r' -> r' = r).
Proof. exact @lstrip_facts. Qed.
Print Assumptions lstrip_removes_leading_spaces.
Theorem rstrip_removes_trailing_spaces : forall (A : Type) (space : A -> bool) s,
  exists r, rstrip space s = Ret r /\ rstripped space s r /\ (forall r', rstripped space s r' -> r' = r).
Proof. exact @rstrip_facts. Qed.
Print Assumptions rstrip_removes_trailing_spaces.
Theorem strip_removes_surrounding_spaces : forall (A : Type) (space : A -> bool) s,
  exists r, strip space s = Ret r /\ stripped space s r /\ (forall r', stripped space s r' -> r' = r) /\
    strip space r = Ret r /\
    (exists m, lstrip space s = Ret m /\ rstrip space m = Ret r) /\
    (exists m, rstrip space s = Ret m /\ lstrip space m = Ret r).
Proof. exact @strip_all. Qed.
Print Assumptions strip_removes_surrounding_spaces.
Example strip_ex :
  strip (Nat.eqb 0) [0;0;1;0;2;0] = Ret [1;0;2] /\ strip (Nat.eqb 0) [0;0] = Ret [] /\
  lstrip (Nat.eqb 0) [0;0;1;0] = Ret [1;0] /\ rstrip (Nat.eqb 0) [0;1;0;0] = Ret [0;1].
Proof. repeat split. Qed.

(** C27 *)
Theorem bin_oct_hex_print_the_value : forall (n : nat) (v : Z), 0 < n ->
  (exists ds, bin n v = Ret (list_ascii_of_string "0b" ++ ds) /\ numeral 2 (v mod 2 ^ (Z.of_nat n * 8))%Z ds) /\
  (exists ds, oct n v = Ret (list_ascii_of_string "0o" ++ ds) /\ numeral 8 (v mod 2 ^ (Z.of_nat n * 8))%Z ds) /\
  (exists ds, hex n v = Ret (list_ascii_of_string "0x" ++ ds) /\ numeral 16 (v mod 2 ^ (Z.of_nat n * 8))%Z ds).
Proof. exact (fun n v H => conj (bin_ok n v) (conj (oct_ok n v H) (hex_ok n v))). Qed.
Print Assumptions bin_oct_hex_print_the_value.
(** the numeral is determined by the value *)
Theorem numerals_are_unique : forall base, (1 < base)%Z -> forall ds v ds',
  numeral base v ds -> numeral base v ds' -> ds = ds'.
Proof. exact numeral_unique. Qed.
Print Assumptions numerals_are_unique.
Example bin_oct_hex_ex :
  bin 1 (-2) = Ret (list_ascii_of_string "0b11111110") /\
  oct 2 (-1) = Ret (list_ascii_of_string "0o177777") /\
  oct 1 (-1) = Ret (list_ascii_of_string "0o377") /\
  hex 4 (-559038737) = Ret (list_ascii_of_string "0xdeadbeef") /\ hex 8 0 = Ret (list_ascii_of_string "0x0").
Proof. repeat split. Qed.

(** C28 *)
Theorem join_interleaves : forall (A : Type) (parts : list (list A)) sep,
  join parts sep = interleaved sep parts.
Proof. exact @join_spec. Qed.
Print Assumptions join_interleaves.
(** the function may have side effects: [st] is the state it reads and changes *)
Theorem map_join_calls_in_order : forall (A B S : Type) (parts : list B) (sep : list A)
    (f : S -> B -> S * list A) st,
  map_join parts sep f st = (fst (in_order f st parts), interleaved sep (snd (in_order f st parts))).
Proof. exact @map_join_spec. Qed.
Print Assumptions map_join_calls_in_order.
Example join_ex :
  join [[1];[];[2;3]] [0] = [1;0;0;2;3] /\
  map_join [5;6] [0] (fun st x => (st + 1, [st; x])) 7 = (9, [7;5;0;8;6]).
Proof. split; reflexivity. Qed.

(** C70: what happens when the replacement is the string itself *)
Theorem replace_by_itself_replaces_once_partial : forall (A : Type) (eqb : A -> A -> bool), decides eqb ->
  forall s f, f <> [] ->
  (~ occurs f s /\ replace_self eqb s f = Ret s) \/
  (exists u v, first_cut f s u v /\ replace_self eqb s f = Ret (u ++ s ++ v)).
Proof. exact @replace_self_spec. Qed.
Print Assumptions replace_by_itself_replaces_once_partial.
Theorem replace_by_itself_refuted : exists s f : list nat,
  replace_self Nat.eqb s f <> replace Nat.eqb s f s.
Proof. exact replace_self_differs. Qed.
Print Assumptions replace_by_itself_refuted.
Example replace_by_itself_ex :
  replace_self Nat.eqb [1;2;1] [1] = Ret [1;2;1;2;1] /\ replace Nat.eqb [1;2;1] [1] [1;2;1] = Ret [1;2;1;2;1;2;1].
Proof. split; reflexivity. Qed.
