(** Concrete time stamps. *)
From Coq Require Import Ascii String List Bool Arith ZArith NArith Lia.
From Verif Require Import Base LogTextModel LogTextSpec LogTextProofs LogTextExamples StampModel StampSpec StampCalendar StampProofs.
Import ListNotations.
Open Scope list_scope.
Open Scope Z_scope.

Definition empty : stream := Stream [] 0 " " false.
(** local time of central Europe in 2026: summer time ends on 25 October at 1:00 UTC *)
Definition europe (s : Z) : Z := if s <? 1792890000 then 7200 else 3600.
Lemma europe_ok : plausible europe.
Proof. intros s. unfold europe. destruct (s <? 1792890000); lia. Qed.
Lemma europe_back : ~ never_back europe.
Proof. intros N. specialize (N 1792889999 1792890000 ltac:(lia) ltac:(lia) ltac:(lia)). vm_compute in N. discriminate N. Qed.
Definition before_change : Z := 1792889999500000000.
Definition after_change : Z := 1792890000500000000.
Lemma change_case : clock_time before_change /\ clock_time after_change /\ before_change < after_change /\
  stamp (line_text false europe before_change sample empty) = chars "2026-10-25 02:59:59.500000" /\
  stamp (line_text false europe after_change sample empty) = chars "2026-10-25 02:00:00.500000".
Proof. split; [|split; [|split; [reflexivity|split; vm_compute; reflexivity]]]; split; try reflexivity; discriminate. Qed.
Lemma sort_refuted_proof : exists hide zone t e t' e', plausible zone /\ clock_time t /\ clock_time t' /\ t / 1000 < t' / 1000 /\
  text_compare (line_text hide zone t e empty) (line_text hide zone t' e' empty) = Gt.
Proof.
  exists false, europe, before_change, sample, after_change, sample. destruct change_case as (A & B & _). split; [exact europe_ok|]. split; [exact A|]. split; [exact B|].
  split; vm_compute; reflexivity.
Qed.
(** the hour is repeated: the stamps do not tell the times apart *)
Lemma tell_refuted_proof : exists hide zone t e t' e', plausible zone /\ clock_time t /\ clock_time t' /\ t / 1000 < t' / 1000 /\
  stamp (line_text hide zone t e empty) = stamp (line_text hide zone t' e' empty).
Proof.
  exists false, europe, (after_change - 3600000000000), sample, after_change, sample. split; [exact europe_ok|].
  split; [split; [discriminate|reflexivity]|]. split; [split; [discriminate|reflexivity]|]. split; vm_compute; reflexivity.
Qed.
(** before 1970 even UTC *)
Definition utc (s : Z) : Z := 0.
Lemma old_refuted_proof : exists hide t e t' e', t / 1000 < t' / 1000 /\ - 2 ^ 63 <= t < 2 ^ 63 /\ - 2 ^ 63 <= t' < 2 ^ 63 /\
  text_compare (line_text hide utc t e empty) (line_text hide utc t' e' empty) = Gt.
Proof.
  exists false, (-500000), sample, (-400000), sample. split; [vm_compute; reflexivity|]. split; [split; [discriminate|reflexivity]|]. split; [split; [discriminate|reflexivity]|].
  vm_compute. reflexivity.
Qed.
Lemma old_case : stamp (line_text true utc (-500000) sample empty) = chars "1970-01-01 00:00:00.00-500" /\
  stamp (line_text true utc (-400000) sample empty) = chars "1970-01-01 00:00:00.00-400".
Proof. split; vm_compute; reflexivity. Qed.

(** UTC meets the conditions *)
Lemma utc_ok : plausible utc /\ never_back utc.
Proof. split; [intros s; unfold utc; lia|]. intros a b _ H _. unfold utc. lia. Qed.
Lemma utc_case : clock_time 1709251199999999000 /\
  line_text true utc 1709251199999999000 sample empty = chars "2024-02-29 23:59:59.999999|   1234|Warning |disk almost full" /\
  line_text true utc 1709251200000000000 sample empty = chars "2024-03-01 00:00:00.000000|   1234|Warning |disk almost full".
Proof. split; [split; [discriminate|reflexivity]|]. split; vm_compute; reflexivity. Qed.
(** a zone that moves forward only *)
Definition spring (s : Z) : Z := if s <? 1774746000 then 3600 else 7200.
Lemma spring_ok : plausible spring /\ never_back spring.
Proof.
  split; [intros s; unfold spring; destruct (s <? 1774746000); lia|]. intros a b _ H _. unfold spring. destruct (Z.ltb_spec a 1774746000), (Z.ltb_spec b 1774746000); lia.
Qed.
Lemma calendar_case : gm_time 1709251199 = Tm 2024 2 29 23 59 59 /\ gm_time 1709251200 = Tm 2024 3 1 0 0 0 /\
  gm_time (-2203891201) = Tm 1900 2 28 23 59 59 /\ gm_time (-2203891200) = Tm 1900 3 1 0 0 0 /\ gm_time 951782400 = Tm 2000 2 29 0 0 0 /\
  local_time europe 1792889999 = Tm 2026 10 25 2 59 59 /\ local_time europe 1792890000 = Tm 2026 10 25 2 0 0.
Proof. repeat split. Qed.
Lemma zones_case : never_back spring /\ never_again spring /\ ~ never_back europe /\ ~ never_again europe.
Proof.
  destruct spring_ok as [_ N]. split; [exact N|]. split; [apply back_again, N|]. split; [exact europe_back|].
  intros A. apply (A 1792886400 1792890000); reflexivity || discriminate.
Qed.
