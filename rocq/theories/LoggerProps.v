(** Property theorems C59-C63 and C80-C84: logger.

    [exec ltb (initial lvl max flush clock) tr s]: an execution, of any length, of a logger created with these
    settings, with any threads logging and any schedule; [tr] lists its events and [s] is its last state.
    File names are any totally ordered type, messages any type. *)
From Coq Require Import List Bool Arith ZArith Permutation.
From Verif Require Import Base ListUpdate LoggerModel LoggerSpec LoggerProofs LoggerAccount LoggerLive LoggerTimes LoggerExamples.
Import ListNotations.

(** C59 *)
Theorem logger_writes_in_order : forall K M (ltb : K -> K -> bool), strict_total_order ltb ->
  forall lvl max flush clock tr (s : @logger K M) k, exec ltb (initial lvl max flush clock) tr s ->
  prefix (written_to ltb k tr) (accepted_for ltb k tr).
Proof. exact @prefix_proof. Qed.
Print Assumptions logger_writes_in_order.
(** if writing file [k] does not fail in the destructor; failures of other files do not matter *)
Theorem logger_writes_everything : forall K M (ltb : K -> K -> bool), strict_total_order ltb ->
  forall lvl max flush clock tr1 (s1 s2 : @logger K M) tr2 s k,
  exec ltb (initial lvl max flush clock) tr1 s1 -> step ltb s1 EDestroy s2 -> exec ltb s2 tr2 s -> dtor s = DDone ->
  ~ In (EFail k) tr2 ->
  written_to ltb k (tr1 ++ EDestroy :: tr2) = accepted_for ltb k (tr1 ++ EDestroy :: tr2).
Proof. exact @all_written_proof. Qed.
Print Assumptions logger_writes_everything.
(** what is accepted and not written is in the buffer; when the thread sleeps it is the buffer *)
Theorem logger_keeps_the_rest : forall K M (ltb : K -> K -> bool), strict_total_order ltb ->
  forall lvl max flush clock tr (s : @logger K M) k, exec ltb (initial lvl max flush clock) tr s -> dtor s = DNone ->
  exists n, n <= length (buffer ltb k (lfiles s)) /\
  accepted_for ltb k tr = written_to ltb k tr ++ skipn n (rev (buffer ltb k (lfiles s))) /\
  (pc s = LWaiting -> n = 0).
Proof. exact @buffered_proof. Qed.
Print Assumptions logger_keeps_the_rest.
Example logger_writes_in_order_ex : exists tr1 s1 s2 tr2 s,
  exec_nat (start 0 0 2 100) tr1 s1 /\ step_nat s1 EDestroy s2 /\ exec_nat s2 tr2 s /\ dtor s = DDone /\
  (forall k, ~ In (EFail k) tr2) /\ quiescent Nat.ltb s1 /\
  map e_msg (accepted_for Nat.ltb 7 tr1) = [1; 2] /\ map e_msg (written_to Nat.ltb 7 tr1) = [1; 2] /\
  map e_msg (accepted_for Nat.ltb 5 tr1) = [3] /\ written_to Nat.ltb 5 tr1 = [] /\
  map e_msg (written_to Nat.ltb 5 (tr1 ++ EDestroy :: tr2)) = [3] /\ (exists e, In (EAccept e) tr1 /\ e_level e = 5%Z).
Proof. exact whole_life. Qed.
Example logger_order_ex : strict_total_order Nat.ltb.
Proof. exact nat_order. Qed.

(** C60 *)
Theorem logger_counts_every_call : forall K M (ltb : K -> K -> bool) lvl max flush clock tr (s : @logger K M),
  exec ltb (initial lvl max flush clock) tr s ->
  NoDup (passes tr) /\
  Permutation (passes tr) (acceptances tr ++ discards tr ++ flat_map undecided (calls s)) /\
  discarded s = discarded_since_reset tr.
Proof. exact @counted_proof. Qed.
Print Assumptions logger_counts_every_call.
(** an entry is discarded exactly when its buffer has reached buffer_max_size, which is not 0 *)
Theorem logger_discards_only_when_full : forall K M (ltb : K -> K -> bool) lvl max flush clock tr (s : @logger K M) ev s' e,
  exec ltb (initial lvl max flush clock) tr s -> step ltb s ev s' ->
  (ev = EAccept e -> max_after max tr = 0 \/ length (buffer ltb (e_file e) (lfiles s)) < max_after max tr) /\
  (ev = EDiscard e -> 0 < max_after max tr <= length (buffer ltb (e_file e) (lfiles s))).
Proof. exact @full_proof. Qed.
Print Assumptions logger_discards_only_when_full.
(** from any state of any execution on, as long as buffer_max_size is [n] *)
Theorem logger_buffers_are_bounded : forall K M (ltb : K -> K -> bool), strict_total_order ltb ->
  forall (s0 : @logger K M) tr s n k, exec ltb s0 tr s ->
  (forall m, ~ In (EMax m) tr) -> max_size s0 = n -> 0 < n ->
  length (buffer ltb k (lfiles s)) <= Nat.max n (length (buffer ltb k (lfiles s0))).
Proof. exact @bound_proof. Qed.
Print Assumptions logger_buffers_are_bounded.
Example logger_counts_every_call_ex : exists tr s, exec_nat (start 0 1 5 0) tr s /\ max_size s = 1 /\ (forall m, ~ In (EMax m) tr) /\
  passes tr = [0; 1; 2] /\ acceptances tr = [0] /\ discards tr = [1] /\ flat_map undecided (calls s) = [2] /\ discarded s = 1 /\
  length (buffer Nat.ltb 7 (lfiles s)) = 1.
Proof. exact discarding_execution. Qed.
Example logger_reset_ex : exists tr s, exec Nat.ltb (@initial nat nat 0 1 5 0) tr s /\ discards tr = [1; 2; 3] /\ In EReset tr /\ discarded s = 1.
Proof. exact reset_execution. Qed.

(** C61.  [e] is the entry of a call that passed the level check after the events [tr0]. *)
Theorem logger_respects_the_level : forall K M (ltb : K -> K -> bool) lvl max flush clock tr (s : @logger K M) e,
  exec ltb (initial lvl max flush clock) tr s -> In (EAccept e) tr ->
  exists tr0 e0 tr1, tr = tr0 ++ EPass e0 :: tr1 /\ In (ECall e0) tr0 /\ e = stamp e0 (e_time e) /\
  (level_after lvl tr0 <= e_level e)%Z.
Proof. exact @level_proof. Qed.
Print Assumptions logger_respects_the_level.
(** the check itself *)
Theorem logger_checks_the_level : forall K M (ltb : K -> K -> bool), strict_total_order ltb ->
  forall lvl max flush clock tr (s : @logger K M) ev s' e,
  exec ltb (initial lvl max flush clock) tr s -> step ltb s ev s' ->
  (ev = EPass e -> (level_after lvl tr <= e_level e)%Z) /\ (ev = EReject e -> (e_level e < level_after lvl tr)%Z).
Proof. exact @check_proof. Qed.
Print Assumptions logger_checks_the_level.
(** with the level always above fatal (8), as with off (9), no entry of level verbose..fatal is accepted *)
Theorem logger_off_accepts_nothing : forall K M (ltb : K -> K -> bool) lvl max flush clock tr (s : @logger K M) e,
  exec ltb (initial lvl max flush clock) tr s -> (8 < lvl)%Z -> (forall z, In (ELevel z) tr -> (8 < z)%Z) ->
  (e_level e <= 8)%Z -> ~ In (EAccept e) tr.
Proof. exact @off_proof. Qed.
Print Assumptions logger_off_accepts_nothing.
Example logger_respects_the_level_ex : exists tr s e1 e2, exec_nat (start 9 0 5 0) tr s /\ In (EReject e1) tr /\ e_level e1 = 8%Z /\
  In (EAccept e2) tr /\ e_level e2 = 8%Z.
Proof. exact level_execution. Qed.

(** C62.  [exec_calm]: the flush size is lowered only while the logging thread does not hold its mutex; in
    particular when it is never changed. *)
Theorem logger_wakes_up : forall K M (ltb : K -> K -> bool), strict_total_order ltb ->
  forall lvl max flush clock tr (s : @logger K M) k, exec_calm ltb (initial lvl max flush clock) tr s ->
  pc s = LWaiting -> due (flush_size s) (buffer ltb k (lfiles s)) -> (exists e, In (CNotify e) (calls s)) \/ 0 < pend s.
Proof. exact @no_lost_wakeup_proof. Qed.
Print Assumptions logger_wakes_up.
Theorem logger_flushes : forall K M (ltb : K -> K -> bool), strict_total_order ltb ->
  forall lvl max flush clock tr (s : @logger K M) k, exec_calm ltb (initial lvl max flush clock) tr s ->
  quiescent ltb s -> dtor s = DNone -> ~ due (flush_size s) (buffer ltb k (lfiles s)).
Proof. exact @flushed_proof. Qed.
Print Assumptions logger_flushes.
Theorem logger_without_setter_is_calm : forall K M (ltb : K -> K -> bool) (s0 : @logger K M) tr s,
  exec ltb s0 tr s -> (forall n, ~ In (EFlush n) tr) -> exec_calm ltb s0 tr s.
Proof. exact @fixed_calm. Qed.
Print Assumptions logger_without_setter_is_calm.
Theorem logger_flush_size_race_refuted : exists tr s, exec_nat (start 0 0 2 0) tr s /\ quiescent Nat.ltb s /\ dtor s = DNone /\
  flush_size s = 1 /\ due (flush_size s) (buffer Nat.ltb 7 (lfiles s)).
Proof. exact flush_size_race. Qed.
Print Assumptions logger_flush_size_race_refuted.
Example logger_wakes_up_ex : exists tr s, exec_calm Nat.ltb (start 0 0 1 0) tr s /\ pc s = LWaiting /\
  due (flush_size s) (buffer Nat.ltb 7 (lfiles s)) /\ (exists e, calls s = [CNotify e]).
Proof. exact asleep_execution. Qed.
Example logger_flushes_ex : exists tr s, exec_calm Nat.ltb (start 0 0 1 0) tr s /\ quiescent Nat.ltb s /\ dtor s = DNone /\
  length (written_to Nat.ltb 7 tr) = 1 /\ buffer Nat.ltb 7 (lfiles s) = [].
Proof. exact flushed_execution. Qed.

(** C63 *)
Theorem logger_destructor_hangs_refuted : exists tr s, exec_nat (start 0 0 1 0) tr s /\ quiescent Nat.ltb s /\
  In EDestroy tr /\ dtor s <> DDone /\ pc s = LWaiting.
Proof. exact lost_stop. Qed.
Print Assumptions logger_destructor_hangs_refuted.
(** it returns if its notify_all does not fall between the thread's check of the stop flag and its wait *)
Theorem logger_destructor_returns_partial : forall K M (ltb : K -> K -> bool), strict_total_order ltb ->
  forall lvl max flush clock tr1 (s1 s2 : @logger K M) tr2 s, exec ltb (initial lvl max flush clock) tr1 s1 ->
  step ltb s1 EWakeAll s2 -> pc s1 <> LWaitEnter -> exec ltb s2 tr2 s -> quiescent ltb s -> dtor s = DDone.
Proof. exact @destroyed_proof. Qed.
Print Assumptions logger_destructor_returns_partial.
Example logger_destructor_returns_ex : exists tr1 s1 s2 tr2 s, exec_nat (start 0 0 1 0) tr1 s1 /\ step_nat s1 EWakeAll s2 /\
  pc s1 <> LWaitEnter /\ exec_nat s2 tr2 s /\ quiescent Nat.ltb s.
Proof. exact good_stop. Qed.

(** C80 *)
Theorem logger_keeps_the_order_of_each_thread : forall K M (ltb : K -> K -> bool) lvl max flush clock tr (s : @logger K M) e1 e2,
  exec ltb (initial lvl max flush clock) tr s ->
  before (accepted_entries tr) e1 e2 -> e_thread e1 = e_thread e2 -> e_id e1 < e_id e2.
Proof. exact @thread_order_proof. Qed.
Print Assumptions logger_keeps_the_order_of_each_thread.
Theorem logger_times_of_each_thread_are_ordered : forall K M (ltb : K -> K -> bool) lvl max flush clock tr (s : @logger K M) e1 e2,
  exec ltb (initial lvl max flush clock) tr s -> forward clock tr ->
  before (accepted_entries tr) e1 e2 -> e_thread e1 = e_thread e2 -> (e_time e1 <= e_time e2)%Z.
Proof. exact @thread_time_proof. Qed.
Print Assumptions logger_times_of_each_thread_are_ordered.
(** the time of an entry is what the clock showed at some moment between the level check of its call and its
    acceptance *)
Theorem logger_times_are_taken_during_the_call : forall K M (ltb : K -> K -> bool) lvl max flush clock tr (s : @logger K M) a e b,
  exec ltb (initial lvl max flush clock) tr s -> tr = a ++ EAccept e :: b ->
  exists tr0 e0 tr1 tr2, a = tr0 ++ EPass e0 :: tr1 ++ tr2 /\ e = stamp e0 (clock_after clock (tr0 ++ EPass e0 :: tr1)).
Proof. exact @stamped_proof. Qed.
Print Assumptions logger_times_are_taken_during_the_call.
Example logger_keeps_the_order_of_each_thread_ex : exists tr s e1 e2, exec_nat (start 0 0 5 100) tr s /\ forward 100 tr /\
  before (accepted_entries tr) e1 e2 /\
  e_thread e1 = e_thread e2 /\ e_id e1 = 0 /\ e_id e2 = 1 /\ e_time e1 = 100%Z /\ e_time e2 = 105%Z.
Proof. exact LoggerExamples.ordered_execution. Qed.

(** C81 *)
Theorem logger_times_in_a_file_refuted : exists tr s e1 e2, exec_nat (start 0 0 5 100) tr s /\ forward 100 tr /\
  before (accepted_for Nat.ltb 7 tr) e1 e2 /\ (e_time e2 < e_time e1)%Z.
Proof. exact times_out_of_order. Qed.
Print Assumptions logger_times_in_a_file_refuted.
(** for calls one of which begins after the entry of the other was accepted *)
Theorem logger_times_of_separate_calls_partial : forall K M (ltb : K -> K -> bool) lvl max flush clock a e1 b e2 c (s : @logger K M) e0,
  exec ltb (initial lvl max flush clock) (a ++ EAccept e1 :: b ++ EAccept e2 :: c) s ->
  forward clock (a ++ EAccept e1 :: b ++ EAccept e2 :: c) ->
  In (ECall e0) b -> e_id e0 = e_id e2 -> (e_time e1 <= e_time e2)%Z.
Proof. exact @separate_times_proof. Qed.
Print Assumptions logger_times_of_separate_calls_partial.
Example logger_times_of_separate_calls_ex : exists a e1 b e2 c s e0,
  exec_nat (start 0 0 5 100) (a ++ EAccept e1 :: b ++ EAccept e2 :: c) s /\
  forward 100 (a ++ EAccept e1 :: b ++ EAccept e2 :: c) /\ In (ECall e0) b /\ e_id e0 = e_id e2 /\
  e_thread e1 <> e_thread e2 /\ e_time e1 = 100%Z /\ e_time e2 = 105%Z.
Proof. exact separate_execution. Qed.

(** C82.  Steps of the logging thread, the calls in progress and the destructor, without failures and spurious
    wakeups. *)
Theorem logger_becomes_quiescent : forall K M (ltb : K -> K -> bool), strict_total_order ltb ->
  forall lvl max flush clock tr (s : @logger K M), exec ltb (initial lvl max flush clock) tr s ->
  exists b, forall n s', internals ltb n s s' -> n <= b.
Proof. exact @finite_proof. Qed.
Print Assumptions logger_becomes_quiescent.
Example logger_becomes_quiescent_ex : exists s, internals Nat.ltb 5 (start 0 0 1 0) s /\ quiescent Nat.ltb s.
Proof. exact settling. Qed.

(** C83.  [own_step]: steps of the logging thread itself, and failures to write. *)
Theorem logger_failing_file_spins_refuted : exists tr1 s tr2, exec_nat (start 0 0 1 0) tr1 s /\ exec_nat s tr2 s /\ tr2 <> [] /\
  forallb own_step tr2 = true /\ calls s = [] /\ pend s = 0 /\ dtor s = DNone.
Proof. exact busy_loop. Qed.
Print Assumptions logger_failing_file_spins_refuted.
(** if failures come to an end, the logging thread sleeps once nothing else happens; by C82 that is so after
    finitely many steps *)
Theorem logger_sleeps_partial : forall K M (ltb : K -> K -> bool), strict_total_order ltb ->
  forall lvl max flush clock tr (s : @logger K M), exec ltb (initial lvl max flush clock) tr s ->
  quiescent ltb s -> dtor s = DNone -> pc s = LWaiting /\ calls s = [] /\ pend s = 0.
Proof. exact @asleep_proof. Qed.
Print Assumptions logger_sleeps_partial.
Example logger_sleeps_ex : exists tr s, exec_nat (start 0 0 1 0) tr s /\ quiescent Nat.ltb s /\ dtor s = DNone /\ In (EFail 7) tr /\
  length (written_to Nat.ltb 7 tr) = 1.
Proof. exact sleeps_execution. Qed.

(** C84 *)
Theorem logger_full_buffer_is_written_refuted : forall K M (ltb : K -> K -> bool), strict_total_order ltb ->
  forall lvl max flush clock tr (s : @logger K M), exec ltb (initial lvl max flush clock) tr s -> 0 < max < flush ->
  (forall n, ~ In (EMax n) tr) -> (forall n, ~ In (EFlush n) tr) -> ~ In EDestroy tr -> forall k e, ~ In (EWrite k e) tr.
Proof. exact @starved_proof. Qed.
Print Assumptions logger_full_buffer_is_written_refuted.
Example logger_full_buffer_is_written_refuted_ex : exists tr s, exec_nat (start 0 1 2 0) tr s /\ quiescent Nat.ltb s /\ dtor s = DNone /\
  (forall n, ~ In (EMax n) tr) /\ (forall n, ~ In (EFlush n) tr) /\ ~ In EDestroy tr /\
  length (buffer Nat.ltb 7 (lfiles s)) = max_size s /\ discarded s = 1 /\ written_to Nat.ltb 7 tr = [].
Proof. exact starved_execution. Qed.
(** with a flush size of at most the maximum (for [exec_calm] see C62) *)
Theorem logger_full_buffer_is_written_partial : forall K M (ltb : K -> K -> bool), strict_total_order ltb ->
  forall lvl max flush clock tr (s : @logger K M) k, exec_calm ltb (initial lvl max flush clock) tr s ->
  quiescent ltb s -> dtor s = DNone -> 0 < max_size s -> flush_size s <= max_size s ->
  length (buffer ltb k (lfiles s)) < max_size s.
Proof. exact @not_full_proof. Qed.
Print Assumptions logger_full_buffer_is_written_partial.
Example logger_full_buffer_is_written_ex : exists tr s, exec_calm Nat.ltb (start 0 1 1 0) tr s /\ quiescent Nat.ltb s /\ dtor s = DNone /\
  0 < max_size s /\ flush_size s <= max_size s /\ length (accepted_for Nat.ltb 7 tr) = 1.
Proof. exact not_full_execution. Qed.

(** C100 *)
Theorem logger_settings_are_the_last_set : forall K M (ltb : K -> K -> bool) lvl max flush clock tr (s : @logger K M),
  exec ltb (initial lvl max flush clock) tr s ->
  level s = level_after lvl tr /\ max_size s = max_after max tr /\ flush_size s = flush_after flush tr.
Proof. exact @settings_proof. Qed.
Print Assumptions logger_settings_are_the_last_set.
Example logger_settings_are_the_last_set_ex : exists tr s, exec_nat (start 1 2 3 0) tr s /\
  tr = [ELevel 5; EMax 6; ELevel 7; EFlush 8] /\ level s = 7%Z /\ max_size s = 6 /\ flush_size s = 8.
Proof. exact settings_execution. Qed.
