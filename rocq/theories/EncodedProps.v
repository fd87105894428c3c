(** Properties C191 (order and size of converted strings) and C192 (string functions on encoded text). *)
From Coq Require Import ZArith List Bool.
From Verif Require Import Base UnicodeModel UnicodeSpec UnicodeTextSpec EncodedSpec StringModel SeqModel EncodedProofs EncodedOrder EncodedUse EncodedExamples.
Import ListNotations.
Open Scope Z_scope.

(** * C191 *)
Theorem conversions_keep_the_code_points : forall p src dst a cs, means p src a cs -> exists m, to_type p dst src a = Ret m /\ means p dst m cs.
Proof. exact convert_means. Qed.
Print Assumptions conversions_keep_the_code_points.
Theorem string_order_is_code_point_order : forall p s a b cs ds, is_utf16 p s = false -> means p s a cs -> means p s b ds ->
  (string_less s a b <-> lex Z.lt cs ds).
Proof. exact order_of_text. Qed.
Print Assumptions string_order_is_code_point_order.
Theorem utf16_string_order : forall p s a b cs ds, is_utf16 p s = true -> et_signed (et_of p s) = false -> means p s a cs -> means p s b ds ->
  (string_less s a b <-> lex less16 cs ds).
Proof. exact order_of_utf16. Qed.
Print Assumptions utf16_string_order.
Theorem conversions_keep_the_order : forall p src dst a b m n, is_utf16 p src = false -> is_utf16 p dst = false -> text p src a -> text p src b ->
  to_type p dst src a = Ret m -> to_type p dst src b = Ret n -> (string_less dst m n <-> string_less src a b).
Proof. exact conversions_keep_order. Qed.
Print Assumptions conversions_keep_the_order.
Example string_order_ex : means linux SChar [-17; -67; -95] [0xFF61] /\ means linux SChar [-16; -112; -128; -128] [0x10000] /\
  string_less SChar [-17; -67; -95] [-16; -112; -128; -128] /\ lex Z.lt [0xFF61] [0x10000].
Proof. exact order_example. Qed.
Theorem utf16_conversion_order_refuted : exists p a b m n, converted p SChar SWide a m /\ converted p SChar SWide b n /\ string_less SChar a b /\ ~ string_less SWide m n.
Proof. exact (ex_intro _ windows (ex_intro _ _ (ex_intro _ _ (ex_intro _ _ (ex_intro _ _ conversion_order_example))))). Qed.
Print Assumptions utf16_conversion_order_refuted.

Theorem conversion_sizes_bounded : forall p src dst a m, Forall (holds (et_bits (et_of p src)) (et_signed (et_of p src))) a -> to_type p dst src a = Ret m ->
  Z.of_nat (length a) <= least (et_bits (et_of p src)) (et_bits (et_of p dst)) * Z.of_nat (length m) /\
  Z.of_nat (length m) <= most (et_bits (et_of p src)) (et_bits (et_of p dst)) * Z.of_nat (length a).
Proof. exact conversion_sizes. Qed.
Print Assumptions conversion_sizes_bounded.
Theorem conversion_size_bounds_reached : forall p src dst n,
  (exists a m, text p src a /\ to_type p dst src a = Ret m /\ Z.of_nat (length a) = Z.of_nat n /\
     Z.of_nat (length m) = most (et_bits (et_of p src)) (et_bits (et_of p dst)) * Z.of_nat n) /\
  (et_bits (et_of p src) < et_bits (et_of p dst) -> exists a m, text p src a /\ to_type p dst src a = Ret m /\ Z.of_nat (length m) = Z.of_nat n /\
     Z.of_nat (length a) = least (et_bits (et_of p src)) (et_bits (et_of p dst)) * Z.of_nat n).
Proof. exact conversion_sizes_reached. Qed.
Print Assumptions conversion_size_bounds_reached.
Example conversion_sizes_ex : to_type linux SChar16 SChar [-1; 65] = Ret [0xFFFD; 65] /\ to_type linux SChar SChar16 [0xFFFD; 65] = Ret [-17; -65; -67; 65].
Proof. exact size_example. Qed.

(** * C192 *)
Theorem split_of_text : forall p s a cs f ds, means p s a cs -> means p s f ds -> ds <> [] ->
  exists ps qs, split Z.eqb a f = Ret ps /\ split Z.eqb cs ds = Ret qs /\ Forall2 (means p s) ps qs.
Proof. exact split_text. Qed.
Print Assumptions split_of_text.
Theorem replace_of_text : forall p s a cs f ds r es, means p s a cs -> means p s f ds -> means p s r es -> ds <> [] ->
  exists b bs, replace Z.eqb a f r = Ret b /\ replace Z.eqb cs ds es = Ret bs /\ means p s b bs.
Proof. exact replace_text. Qed.
Print Assumptions replace_of_text.
Theorem join_of_texts : forall p s ps qs sep ds, Forall2 (means p s) ps qs -> means p s sep ds -> means p s (join ps sep) (join qs ds).
Proof. exact join_text. Qed.
Print Assumptions join_of_texts.
Example split_of_text_ex : (means linux SChar [-61; -87; -30; -128; -109; -61; -68] [0xE9; 0x2013; 0xFC] /\ means linux SChar [-30; -128; -109] [0x2013]) /\
  split Z.eqb [-61; -87; -30; -128; -109; -61; -68] [-30; -128; -109] = Ret [[-61; -87]; [-61; -68]] /\
  split Z.eqb [0xE9; 0x2013; 0xFC] [0x2013] = Ret [[0xE9]; [0xFC]].
Proof. exact (conj words_mean split_example). Qed.
Theorem empty_separator_cuts_characters_refuted : exists p a cs, means p SChar a cs /\
  (exists ps, split Z.eqb a [] = Ret ps /\ Exists (fun x => ~ text p SChar x) ps) /\ (exists b, replace Z.eqb a [] [33] = Ret b /\ ~ text p SChar b).
Proof. exact empty_cuts_somewhere. Qed.
Print Assumptions empty_separator_cuts_characters_refuted.

Theorem find_in_text : forall p s a cs f ds, means p s a cs -> means p s f ds -> ds <> [] ->
  same_place p s a cs (find_sequence Z.eqb a f) (find_sequence Z.eqb cs ds) /\
  same_place p s a cs (rfind_sequence Z.eqb a f) (rfind_sequence Z.eqb cs ds).
Proof. exact (fun p s a cs f ds A F N => conj (find_text p s a cs f ds A F N) (rfind_text p s a cs f ds A F N)). Qed.
Print Assumptions find_in_text.
Theorem contains_in_text : forall p s a cs f ds, means p s a cs -> means p s f ds ->
  contains_sequence Z.eqb a f = contains_sequence Z.eqb cs ds /\
  starts_with_generic Z.eqb a f = starts_with_generic Z.eqb cs ds /\
  ends_with_generic Z.eqb a f = ends_with_generic Z.eqb cs ds.
Proof. exact (fun p s a cs f ds A F => conj (contains_text p s a cs f ds A F) (conj (starts_with_text p s a cs f ds A F) (ends_with_text p s a cs f ds A F))). Qed.
Print Assumptions contains_in_text.
Example find_in_text_ex : find_sequence Z.eqb [-61; -87; -30; -128; -109; -61; -68] [-30; -128; -109] = 2%nat /\ find_sequence Z.eqb [0xE9; 0x2013; 0xFC] [0x2013] = 1%nat.
Proof. exact find_example. Qed.

Theorem split_any_of_text_by_characters : forall p s set, Forall (whole p s) set -> forall a cs, means p s a cs ->
  exists ps qs, split_any_of Z.eqb a set = Ret ps /\ split_any_of Z.eqb cs set = Ret qs /\ Forall2 (means p s) ps qs.
Proof. exact split_any_of_text. Qed.
Print Assumptions split_any_of_text_by_characters.
Theorem replace_any_of_text_by_characters : forall p s set, Forall (whole p s) set -> forall a cs r es, means p s a cs -> means p s r es ->
  exists b bs, replace_any_of Z.eqb a set r = Ret b /\ replace_any_of Z.eqb cs set es = Ret bs /\ means p s b bs.
Proof. exact replace_any_of_text. Qed.
Print Assumptions replace_any_of_text_by_characters.
Theorem split_space_of_text : forall p s space, (forall c, space c = true -> whole p s c) -> forall a cs, means p s a cs ->
  exists ps qs, split_space space a = Ret ps /\ split_space space cs = Ret qs /\ Forall2 (means p s) ps qs.
Proof. exact split_space_text. Qed.
Print Assumptions split_space_of_text.
Theorem strip_of_text : forall p s space, (forall c, space c = true -> whole p s c) -> forall a cs, means p s a cs ->
  (exists r q, strip space a = Ret r /\ strip space cs = Ret q /\ means p s r q) /\
  (exists r q, lstrip space a = Ret r /\ lstrip space cs = Ret q /\ means p s r q) /\
  (exists r q, rstrip space a = Ret r /\ rstrip space cs = Ret q /\ means p s r q).
Proof. exact (fun p s space W a cs A => conj (strip_text p s space W a cs A) (conj (lstrip_text p s space W a cs A) (rstrip_text p s space W a cs A))). Qed.
Print Assumptions strip_of_text.
Theorem ascii_characters_are_whole : forall p s c, ascii c -> whole p s c.
Proof. exact ascii_whole. Qed.
Print Assumptions ascii_characters_are_whole.
Example strip_of_text_ex : means linux SChar [32; -61; -87; 32] [32; 0xE9; 32] /\ (forall c, (c =? 32) = true -> whole linux SChar c) /\
  strip (fun c => c =? 32) [32; -61; -87; 32] = Ret [-61; -87] /\ strip (fun c => c =? 32) [32; 0xE9; 32] = Ret [0xE9].
Proof. exact strip_example. Qed.
Theorem sets_of_longer_characters_refuted : exists p a cs set ds, means p SChar a cs /\ means p SChar set ds /\
  (exists ps, split_any_of Z.eqb a set = Ret ps /\ Exists (fun x => ~ text p SChar x) ps) /\ (exists b, replace_any_of Z.eqb a set [] = Ret b /\ ~ text p SChar b).
Proof. exact set_cuts_somewhere. Qed.
Print Assumptions sets_of_longer_characters_refuted.

Theorem split_and_conversion_commute : forall p src dst a m f g, converted p src dst a m -> converted p src dst f g -> f <> [] ->
  exists ps ms, split Z.eqb a f = Ret ps /\ split Z.eqb m g = Ret ms /\ Forall2 (converted p src dst) ps ms.
Proof. exact split_converted. Qed.
Print Assumptions split_and_conversion_commute.
Theorem replace_and_conversion_commute : forall p src dst a m f g r t, converted p src dst a m -> converted p src dst f g -> converted p src dst r t -> f <> [] ->
  exists b n, replace Z.eqb a f r = Ret b /\ replace Z.eqb m g t = Ret n /\ converted p src dst b n.
Proof. exact replace_converted. Qed.
Print Assumptions replace_and_conversion_commute.
Theorem join_and_conversion_commute : forall p src dst ps ms f g, Forall2 (converted p src dst) ps ms -> converted p src dst f g ->
  converted p src dst (join ps f) (join ms g).
Proof. exact join_converted. Qed.
Print Assumptions join_and_conversion_commute.
Example conversion_commutes_ex : converted linux SChar SChar16 [-61; -87; -30; -128; -109; -61; -68] [0xE9; 0x2013; 0xFC] /\ converted linux SChar SChar16 [-30; -128; -109] [0x2013].
Proof. exact converted_example. Qed.
