(** Concrete texts for EncodedProps. *)
From Coq Require Import ZArith List Bool Lia.
From Verif Require Import Base UnicodeModel UnicodeSpec UnicodeTextSpec UnicodeMain EncodedSpec StringModel SeqModel EncodedProofs EncodedOrder EncodedUse.
Import ListNotations.
Open Scope Z_scope.

Definition linux : platform := Plat true true true true.
Definition windows : platform := Plat true false false false.
Ltac a_scalar := unfold scalar; lia.
Ltac spelled_out :=
  repeat match goal with
  | |- means ?p ?s ?a [] => exact (M_nil p s)
  | |- means ?p ?s ?a (?c :: ?cs) =>
      let x := eval vm_compute in (spelled p s c) in
      let n := eval vm_compute in (length x) in
      change a with (x ++ skipn n a); apply (M_app p s x _ [c] cs); [exact (spelled_means p s c ltac:(a_scalar))|simpl skipn]
  end.

(** é–ü: two characters of two bytes with a dash of three between them *)
Lemma words_mean : means linux SChar [-61; -87; -30; -128; -109; -61; -68] [0xE9; 0x2013; 0xFC] /\ means linux SChar [-30; -128; -109] [0x2013].
Proof. split; spelled_out. Qed.
Lemma split_example : split Z.eqb [-61; -87; -30; -128; -109; -61; -68] [-30; -128; -109] = Ret [[-61; -87]; [-61; -68]] /\
  split Z.eqb [0xE9; 0x2013; 0xFC] [0x2013] = Ret [[0xE9]; [0xFC]].
Proof. split; reflexivity. Qed.
Lemma find_example : find_sequence Z.eqb [-61; -87; -30; -128; -109; -61; -68] [-30; -128; -109] = 2%nat /\ find_sequence Z.eqb [0xE9; 0x2013; 0xFC] [0x2013] = 1%nat.
Proof. split; reflexivity. Qed.
Lemma converted_example : converted linux SChar SChar16 [-61; -87; -30; -128; -109; -61; -68] [0xE9; 0x2013; 0xFC] /\ converted linux SChar SChar16 [-30; -128; -109] [0x2013].
Proof.
  split; (split; [split; [apply words_mean|]|vm_compute; reflexivity]); eexists; apply words_mean.
Qed.
Lemma strip_example : means linux SChar [32; -61; -87; 32] [32; 0xE9; 32] /\ (forall c, (c =? 32) = true -> whole linux SChar c) /\
  strip (fun c => c =? 32) [32; -61; -87; 32] = Ret [-61; -87] /\ strip (fun c => c =? 32) [32; 0xE9; 32] = Ret [0xE9].
Proof.
  split; [spelled_out|]. split; [|split; reflexivity]. intros c H. apply Z.eqb_eq in H. subst c. apply ascii_whole. unfold ascii. lia.
Qed.

Lemma not_text p s d a m b : s <> d -> to_type p d s a = Ret m -> to_type p s d m = Ret b -> b <> a -> ~ text p s a.
Proof. intros N E E' D T. destruct (string_functions p s d a N T) as (m' & Em & _ & _ & Eb). congruence. Qed.

(** an empty separator cuts é into two strings that are no texts *)
Lemma empty_cuts : means linux SChar [-61; -87] [0xE9] /\ split Z.eqb [-61; -87] [] = Ret [[-61]; [-87]] /\ ~ text linux SChar [-61] /\
  split Z.eqb [0xE9] [] = Ret [[0xE9]] /\ exists b, replace Z.eqb [-61; -87] [] [33] = Ret b /\ ~ text linux SChar b.
Proof.
  split; [spelled_out|]. split; [reflexivity|]. split; [apply (not_text _ SChar SChar32 _ [0xFFFD] [-17; -65; -67]); (reflexivity || discriminate)|]. split; [reflexivity|].
  exists [33; -61; 33; -87; 33]. split; [reflexivity|].
  apply (not_text _ SChar SChar32 _ [33; 0xFFFD; 33; 0xFFFD; 33] [33; -17; -65; -67; 33; -17; -65; -67; 33]); (reflexivity || discriminate).
Qed.
(** a set with à takes the first byte of é for a separator, and so does a replacement *)
Lemma set_cuts : means linux SChar [-61; -87] [0xE9] /\ means linux SChar [-61; -96] [0xE0] /\
  split_any_of Z.eqb [-61; -87] [-61; -96] = Ret [[-87]] /\ split_any_of Z.eqb [0xE9] [0xE0] = Ret [[0xE9]] /\
  replace_any_of Z.eqb [-61; -87] [-61; -96] [] = Ret [-87] /\ replace_any_of Z.eqb [0xE9] [0xE0] [] = Ret [0xE9] /\ ~ text linux SChar [-87].
Proof.
  split; [spelled_out|]. split; [spelled_out|]. repeat (split; [reflexivity|]).
  apply (not_text _ SChar SChar32 _ [0xFFFD] [-17; -65; -67]); (reflexivity || discriminate).
Qed.

(** U+FF61 comes before U+10000, but after it in UTF-16 *)
Lemma order_example : means linux SChar [-17; -67; -95] [0xFF61] /\ means linux SChar [-16; -112; -128; -128] [0x10000] /\
  string_less SChar [-17; -67; -95] [-16; -112; -128; -128] /\ lex Z.lt [0xFF61] [0x10000].
Proof. split; [spelled_out|]. split; [spelled_out|]. split; [|apply lex_here; lia]. unfold string_less. simpl. apply lex_here. vm_compute. reflexivity. Qed.
Lemma order16_example : means windows SWide [0xFF61] [0xFF61] /\ means windows SWide [0xD800; 0xDC00] [0x10000] /\
  string_less SWide [0xD800; 0xDC00] [0xFF61] /\ lex Z.lt [0xFF61] [0x10000] /\ ~ string_less SWide [0xFF61] [0xD800; 0xDC00].
Proof.
  split; [spelled_out|]. split; [spelled_out|]. split; [apply lex_here; lia|]. split; [apply lex_here; lia|].
  intros H. apply (order_of_utf16 windows SWide _ _ [0xFF61] [0x10000] eq_refl eq_refl) in H; [|spelled_out|spelled_out].
  inversion H as [|? ? ? ? L|? ? ? L]; subst. vm_compute in L. discriminate L.
Qed.
Lemma conversion_order_example : converted windows SChar SWide [-17; -67; -95] [0xFF61] /\ converted windows SChar SWide [-16; -112; -128; -128] [0xD800; 0xDC00] /\
  string_less SChar [-17; -67; -95] [-16; -112; -128; -128] /\ ~ string_less SWide [0xFF61] [0xD800; 0xDC00].
Proof.
  split; [apply (means_converted windows SChar SWide _ _ [0xFF61]); spelled_out|].
  split; [apply (means_converted windows SChar SWide _ _ [0x10000]); spelled_out|].
  split; [exact (proj1 (proj2 (proj2 order_example)))|exact (proj2 (proj2 (proj2 (proj2 order16_example))))].
Qed.
(** one wrong byte becomes one unit of UTF-16 but three bytes when it comes back *)
Lemma size_example : to_type linux SChar16 SChar [-1; 65] = Ret [0xFFFD; 65] /\ to_type linux SChar SChar16 [0xFFFD; 65] = Ret [-17; -65; -67; 65].
Proof. split; reflexivity. Qed.
Lemma empty_cuts_somewhere : exists p a cs, means p SChar a cs /\
  (exists ps, split Z.eqb a [] = Ret ps /\ Exists (fun x => ~ text p SChar x) ps) /\ (exists b, replace Z.eqb a [] [33] = Ret b /\ ~ text p SChar b).
Proof. destruct empty_cuts as (M & E & N & _ & R). exists linux, [-61; -87], [0xE9]. split; [exact M|]. split; [|exact R]. eexists. split; [exact E|]. left. exact N. Qed.
Lemma set_cuts_somewhere : exists p a cs set ds, means p SChar a cs /\ means p SChar set ds /\
  (exists ps, split_any_of Z.eqb a set = Ret ps /\ Exists (fun x => ~ text p SChar x) ps) /\ (exists b, replace_any_of Z.eqb a set [] = Ret b /\ ~ text p SChar b).
Proof.
  destruct set_cuts as (M & M' & E & _ & R & _ & N). exists linux, [-61; -87], [0xE9], [-61; -96], [0xE0]. split; [exact M|]. split; [exact M'|]. split; eexists; (split; [eassumption|]); [left|]; exact N.
Qed.
