(** Properties C165-C166 (properties.jsonl). *)
From Coq Require Import Ascii String List Bool Arith ZArith NArith.
From Verif Require Import Base LogTextModel LogTextSpec LogTextExamples StampModel StampSpec StampCalendar StampProofs StampExamples.
Import ListNotations.
Open Scope list_scope.
Open Scope Z_scope.

(** C165 *)
Theorem gm_time_starts_at_the_epoch : gm_time 0 = epoch.
Proof. exact gmtime_epoch. Qed.
Print Assumptions gm_time_starts_at_the_epoch.
Theorem gm_time_follows_the_calendar : forall s, gm_time (s + 1) = next_second (gm_time s).
Proof. exact gmtime_next. Qed.
Print Assumptions gm_time_follows_the_calendar.
Theorem the_calendar_is_unique : forall f : Z -> tm, f 0 = epoch -> (forall s, f (s + 1) = next_second (f s)) -> forall s, 0 <= s -> f s = gm_time s.
Proof. exact calendar_unique. Qed.
Print Assumptions the_calendar_is_unique.
Theorem local_time_is_shifted : forall zone s, local_time zone s = gm_time (s + zone s).
Proof. exact local_shifted. Qed.
Print Assumptions local_time_is_shifted.
Theorem gm_time_is_injective : forall s s', date (gm_time s) = date (gm_time s') -> hour (gm_time s) = hour (gm_time s') ->
  minute (gm_time s) = minute (gm_time s') -> second (gm_time s) = second (gm_time s') -> s = s'.
Proof. exact gmtime_injective. Qed.
Print Assumptions gm_time_is_injective.
Example calendar_ex : gm_time 1709251199 = Tm 2024 2 29 23 59 59 /\ gm_time 1709251200 = Tm 2024 3 1 0 0 0 /\
  gm_time (-2203891201) = Tm 1900 2 28 23 59 59 /\ gm_time (-2203891200) = Tm 1900 3 1 0 0 0 /\ gm_time 951782400 = Tm 2000 2 29 0 0 0 /\
  local_time europe 1792889999 = Tm 2026 10 25 2 59 59 /\ local_time europe 1792890000 = Tm 2026 10 25 2 0 0.
Proof. exact calendar_case. Qed.

(** C166 *)
Theorem log_lines_sort_by_time_refuted : exists hide zone t e t' e', plausible zone /\ clock_time t /\ clock_time t' /\ t / 1000 < t' / 1000 /\
  text_compare (line_text hide zone t e empty) (line_text hide zone t' e' empty) = Gt.
Proof. exact sort_refuted_proof. Qed.
Print Assumptions log_lines_sort_by_time_refuted.
Theorem log_lines_tell_the_time_refuted : exists hide zone t e t' e', plausible zone /\ clock_time t /\ clock_time t' /\ t / 1000 < t' / 1000 /\
  stamp (line_text hide zone t e empty) = stamp (line_text hide zone t' e' empty).
Proof. exact tell_refuted_proof. Qed.
Print Assumptions log_lines_tell_the_time_refuted.
Theorem old_log_lines_sort_by_time_refuted : exists hide t e t' e', t / 1000 < t' / 1000 /\ - 2 ^ 63 <= t < 2 ^ 63 /\ - 2 ^ 63 <= t' < 2 ^ 63 /\
  text_compare (line_text hide utc t e empty) (line_text hide utc t' e' empty) = Gt.
Proof. exact old_refuted_proof. Qed.
Print Assumptions old_log_lines_sort_by_time_refuted.
Theorem log_lines_sort_by_local_time : forall hide zone t e s t' e' s', plausible zone -> clock_time t -> clock_time t' -> out s = [] -> out s' = [] ->
  text_compare (stamp (line_text hide zone t e s)) (stamp (line_text hide zone t' e' s')) = (local_micros zone t ?= local_micros zone t').
Proof. exact stamps_compare_proof. Qed.
Print Assumptions log_lines_sort_by_local_time.
Theorem log_lines_sort_by_time_partial : forall hide zone t e s t' e' s', plausible zone -> never_back zone -> clock_time t -> clock_time t' -> out s = [] -> out s' = [] ->
  t / 1000 < t' / 1000 -> text_compare (line_text hide zone t e s) (line_text hide zone t' e' s') = Lt.
Proof. exact lines_sort_proof. Qed.
Print Assumptions log_lines_sort_by_time_partial.
Theorem log_lines_tell_the_time_partial : forall hide zone t e s t' e' s', plausible zone -> never_back zone -> clock_time t -> clock_time t' -> out s = [] -> out s' = [] ->
  stamp (line_text hide zone t e s) = stamp (line_text hide zone t' e' s') <-> t / 1000 = t' / 1000.
Proof. exact stamp_tells_proof. Qed.
Print Assumptions log_lines_tell_the_time_partial.
Theorem log_lines_sort_exactly_in_zones_never_set_back : forall zone, plausible zone ->
  (never_back zone <-> forall hide t e s t' e' s', clock_time t -> clock_time t' -> out s = [] -> out s' = [] ->
   t / 1000 < t' / 1000 -> text_compare (line_text hide zone t e s) (line_text hide zone t' e' s') = Lt).
Proof. exact sort_exactly_proof. Qed.
Print Assumptions log_lines_sort_exactly_in_zones_never_set_back.
Theorem log_lines_tell_exactly_times_shown_once : forall zone, plausible zone ->
  (never_again zone <-> forall hide t e s t' e' s', clock_time t -> clock_time t' -> out s = [] -> out s' = [] ->
   (stamp (line_text hide zone t e s) = stamp (line_text hide zone t' e' s') <-> t / 1000 = t' / 1000)).
Proof. exact tell_exactly_proof. Qed.
Print Assumptions log_lines_tell_exactly_times_shown_once.
Example zones_ex : never_back spring /\ never_again spring /\ ~ never_back europe /\ ~ never_again europe.
Proof. exact zones_case. Qed.
Theorem text_order_is_equality : forall a b, text_compare a b = Eq <-> a = b.
Proof. exact compare_eq_iff. Qed.
Print Assumptions text_order_is_equality.
Example utc_ex : plausible utc /\ never_back utc.
Proof. exact utc_ok. Qed.
Example spring_ex : plausible spring /\ never_back spring.
Proof. exact spring_ok. Qed.
Example utc_lines_ex : clock_time 1709251199999999000 /\
  line_text true utc 1709251199999999000 sample empty = chars "2024-02-29 23:59:59.999999|   1234|Warning |disk almost full" /\
  line_text true utc 1709251200000000000 sample empty = chars "2024-03-01 00:00:00.000000|   1234|Warning |disk almost full".
Proof. exact utc_case. Qed.
Example change_ex : clock_time before_change /\ clock_time after_change /\ before_change < after_change /\
  stamp (line_text false europe before_change sample empty) = chars "2026-10-25 02:59:59.500000" /\
  stamp (line_text false europe after_change sample empty) = chars "2026-10-25 02:00:00.500000".
Proof. exact change_case. Qed.
Example old_ex : stamp (line_text true utc (-500000) sample empty) = chars "1970-01-01 00:00:00.00-500" /\
  stamp (line_text true utc (-400000) sample empty) = chars "1970-01-01 00:00:00.00-400".
Proof. exact old_case. Qed.
