(** Model of run_after (/repo/include/pluto/thread_pool.hpp 325-338): the time of the task.
    Times and durations are numbers of ticks of the clock's signed 64-bit representation (std::chrono::system_clock,
    steady_clock and high_resolution_clock); overflow of the addition (330) is undefined. *)
From Coq Require Import ZArith Bool.
From Verif Require Import Base.
Local Open Scope Z_scope.

Definition tick_ok (z : Z) : bool := (- 2 ^ 63 <=? z) && (z <? 2 ^ 63).
(** clock_type::now() + duration *)
Definition after_time (now d : Z) : outcome Z := if tick_ok (now + d) then Ret (now + d) else Ub.
