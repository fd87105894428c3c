(** Model of pluto::logger (/repo/include/pluto/logger.hpp) as a transition system: the buffers, the logging
    thread, the threads that log, and the destructor.

    A step is one critical section of m_loggingMutex, one access to an atomic variable, one notification, or
    one entry written to a file; steps of different threads interleave in any order.  The logging thread's
    critical sections are split further, because the setters access the atomic variables without the mutex.
    Condition variables wake the thread that waits on them when notified and, spuriously, at any time.
    What the files contain is modelled in LogFileModel.v; here a step either writes one entry or fails. *)
From Coq Require Import List Bool Arith ZArith.
From Verif Require Import Base.
Import ListNotations.

(** log_entry (196-217) with the name of its log file; [e_id] numbers the calls.  The source_info (174-194) is
    part of the message here. *)
Record entry {K M : Type} := Entry {
  e_id : nat; e_thread : nat; e_file : K; e_level : Z; e_time : Z; e_msg : M }.
Arguments entry : clear implicits.
Arguments Entry {K M}.

Section Logger.
Context {K M : Type} (ltb : K -> K -> bool).     (* file names, operator< on them; messages *)
Notation entry := (entry K M).

(** m_logFiles (359): a map from file names to buffers (349-354), in the order of the map.  The newest entry
    of a buffer comes first (742). *)
Definition files : Type := list (K * list entry).
Fixpoint find_file (k : K) (l : files) : option (list entry) :=
  match l with
  | [] => None
  | (k', b) :: l' => if equivb ltb k k' then Some b else find_file k l'
  end.
(** replaces the buffer of file [k], or creates it (731-735) *)
Fixpoint put_file (k : K) (b : list entry) (l : files) : files :=
  match l with
  | [] => [(k, b)]
  | (k', b') :: l' =>
      if ltb k k' then (k, b) :: l
      else if ltb k' k then (k', b') :: put_file k b l'
      else (k', b) :: l'
  end.
Definition buffer (k : K) (l : files) : list entry := match find_file k l with Some b => b | None => [] end.
(** the file after position [p] of an iteration over the map; [None] is the beginning *)
Definition after (p : option K) (k : K) : bool := match p with None => true | Some k' => ltb k' k end.
Definition next_file (p : option K) (l : files) : option (K * list entry) := find (fun f => after p (fst f)) l.

(** The logging thread, start_logging (871-925).  [sw] is shouldWait.  It holds m_loggingMutex in the states
    [LCheck] (before the loop condition, 876), [LWaitEnter] (before wait, 880), [LScan] (in the for loop, 887,
    after file [p]). [LStart], [LWoken], [LRelock] are waiting for the mutex.
    Without the mutex it writes the buffer of [k] (915): in [LOpen k todo] before the file is open and in
    [LWrite k todo n] afterwards; [todo] are the entries of the range still to be written, oldest first, and
    [n] entries have been written. *)
Inductive lpc :=
| LStart | LCheck (sw : bool) | LWaitEnter | LWaiting | LWoken | LScan (sw : bool) (p : option K)
| LOpen (k : K) (todo : list entry) | LWrite (k : K) (todo : list entry) (n : nat) | LRelock (k : K) (n : nat) | LExited.
Definition holds (c : lpc) : bool :=
  match c with LCheck _ | LWaitEnter | LScan _ _ => true | _ => false end.
Definition wake (c : lpc) : lpc := match c with LWaiting => LWoken | _ => c end.

(** A call of write, writef, format or streamer::end by a thread: before should_log; after it; after taking
    the time (726); after adding the entry and unlocking, before notify_one (748). *)
Inductive call := CEnter (e : entry) | CPassed (e : entry) | CTimed (e : entry) | CNotify (e : entry).
Definition call_entry (c : call) : entry :=
  match c with CEnter e | CPassed e | CTimed e | CNotify e => e end.

(** The destructor (381-405): not called; m_isLogging is false; notify_all done; joined, writing the buffers
    after file [p]; about to open file [k] and write its entries; writing them; returned. *)
Inductive dpc :=
| DNone | DStopped | DNotified | DFlush (p : option K) | DOpen (k : K) (todo : list entry) | DWrite (k : K) (todo : list entry) | DDone.

Record logger := Logger {
  lfiles : files;
  pc : lpc;
  logging : bool;        (* m_isLogging (361) *)
  level : Z;             (* m_level (362) *)
  max_size : nat;        (* m_bufferMaxSize (365) *)
  flush_size : nat;      (* m_bufferFlushSize (366) *)
  discarded : nat;       (* m_numDiscardedLogs (369) *)
  calls : list call;     (* calls in progress *)
  pend : nat;            (* calls of buffer_flush_size(n) before their notify_one (558) *)
  dtor : dpc;
  now : Z;               (* what the clock shows *)
  next_id : nat
}.
Definition set_files x (s : logger) := Logger x (pc s) (logging s) (level s) (max_size s) (flush_size s) (discarded s) (calls s) (pend s) (dtor s) (now s) (next_id s).
Definition set_pc x (s : logger) := Logger (lfiles s) x (logging s) (level s) (max_size s) (flush_size s) (discarded s) (calls s) (pend s) (dtor s) (now s) (next_id s).
Definition set_logging x (s : logger) := Logger (lfiles s) (pc s) x (level s) (max_size s) (flush_size s) (discarded s) (calls s) (pend s) (dtor s) (now s) (next_id s).
Definition set_level x (s : logger) := Logger (lfiles s) (pc s) (logging s) x (max_size s) (flush_size s) (discarded s) (calls s) (pend s) (dtor s) (now s) (next_id s).
Definition set_max x (s : logger) := Logger (lfiles s) (pc s) (logging s) (level s) x (flush_size s) (discarded s) (calls s) (pend s) (dtor s) (now s) (next_id s).
Definition set_flush x (s : logger) := Logger (lfiles s) (pc s) (logging s) (level s) (max_size s) x (discarded s) (calls s) (pend s) (dtor s) (now s) (next_id s).
Definition set_discarded x (s : logger) := Logger (lfiles s) (pc s) (logging s) (level s) (max_size s) (flush_size s) x (calls s) (pend s) (dtor s) (now s) (next_id s).
Definition set_calls x (s : logger) := Logger (lfiles s) (pc s) (logging s) (level s) (max_size s) (flush_size s) (discarded s) x (pend s) (dtor s) (now s) (next_id s).
Definition set_pend x (s : logger) := Logger (lfiles s) (pc s) (logging s) (level s) (max_size s) (flush_size s) (discarded s) (calls s) x (dtor s) (now s) (next_id s).
Definition set_dtor x (s : logger) := Logger (lfiles s) (pc s) (logging s) (level s) (max_size s) (flush_size s) (discarded s) (calls s) (pend s) x (now s) (next_id s).
Definition set_now x (s : logger) := Logger (lfiles s) (pc s) (logging s) (level s) (max_size s) (flush_size s) (discarded s) (calls s) (pend s) (dtor s) x (next_id s).
Definition set_next x (s : logger) := Logger (lfiles s) (pc s) (logging s) (level s) (max_size s) (flush_size s) (discarded s) (calls s) (pend s) (dtor s) (now s) x.

Inductive event :=
| ECall (e : entry)           (* a thread calls write etc. *)
| EPass (e : entry)           (* should_log (594-597) returned true *)
| EReject (e : entry)         (* ... false; the call returns *)
| EAccept (e : entry)         (* the entry was put into its buffer *)
| EDiscard (e : entry)        (* the buffer was full *)
| EOpen (k : K)               (* write_buffer_to_file has opened file k (839) *)
| EWrite (k : K) (e : entry)  (* entry e was written to file k (862-863) *)
| EFail (k : K)               (* write_buffer_to_file stopped with a filesystem_error *)
| EErase (k : K) (n : nat)    (* the logging thread has erased n entries from the buffer of file k (920) *)
| ELevel (z : Z) | EMax (n : nat) | EFlush (n : nat) | EReset    (* setters *)
| EDestroy                    (* the destructor begins *)
| EWakeAll                    (* its notify_all (384) *)
| EDestroyed                  (* it returns *)
| ETick (z : Z)               (* the clock changes to z *)
| ETau.

Definition thread_of (c : call) : nat := e_thread (call_entry c).
(** should_log, 594-597 *)
Definition should_log (s : logger) (e : entry) : bool := logging s && (level s <=? e_level e)%Z.

(** What other threads may begin: any calls before the destructor, and one call per thread at a time.  The
    destructor begins when no call is in progress. *)
Inductive client (s : logger) : event -> logger -> Prop :=
| c_call t k l m : dtor s = DNone -> ~ In t (map thread_of (calls s)) ->
    client s (ECall (Entry (next_id s) t k l 0 m))
      (set_next (S (next_id s)) (set_calls (calls s ++ [CEnter (Entry (next_id s) t k l 0 m)]) s))
| c_level z : dtor s = DNone -> client s (ELevel z) (set_level z s)                                  (* 531-535 *)
| c_max n : dtor s = DNone -> client s (EMax n) (set_max n s)                                        (* 549-553 *)
| c_flush n : dtor s = DNone -> client s (EFlush n) (set_pend (S (pend s)) (set_flush n s))          (* 555-560 *)
| c_reset : dtor s = DNone -> client s EReset (set_discarded 0 s)                                    (* 574-578 *)
| c_destroy : dtor s = DNone -> calls s = [] -> pend s = 0 ->
    client s EDestroy (set_dtor DStopped (set_logging false s)).                                     (* 383 *)

(** add_log_to_buffer's critical section, 729-755 *)
Definition add (e : entry) (s : logger) : option call * logger :=
  let b := buffer (e_file e) (lfiles s) in
  if (max_size s =? 0) || (length b <? max_size s) then
    let s' := set_files (put_file (e_file e) (e :: b) (lfiles s)) s in
    (if flush_size s <=? length (e :: b) then Some (CNotify e) else None, s')
  else (None, set_discarded (S (discarded s)) (set_files (put_file (e_file e) b (lfiles s)) s)).
Definition accepts (e : entry) (s : logger) : bool :=
  (max_size s =? 0) || (length (buffer (e_file e) (lfiles s)) <? max_size s).
Definition some_call (o : option call) : list call := match o with Some c => [c] | None => [] end.
Definition stamp (e : entry) (t : Z) : entry := Entry (e_id e) (e_thread e) (e_file e) (e_level e) t (e_msg e).

Inductive internal (s : logger) : event -> logger -> Prop :=
(* calls in progress *)
| p_check e l1 l2 : calls s = l1 ++ CEnter e :: l2 ->
    internal s (if should_log s e then EPass e else EReject e)
      (set_calls (l1 ++ (if should_log s e then [CPassed e] else []) ++ l2) s)
| p_time e l1 l2 : calls s = l1 ++ CPassed e :: l2 ->
    internal s ETau (set_calls (l1 ++ CTimed (stamp e (now s)) :: l2) s)                              (* 726 *)
| p_add e l1 l2 : calls s = l1 ++ CTimed e :: l2 -> holds (pc s) = false ->
    internal s (if accepts e s then EAccept e else EDiscard e)
      (set_calls (l1 ++ some_call (fst (add e s)) ++ l2) (snd (add e s)))
| p_notify e l1 l2 : calls s = l1 ++ CNotify e :: l2 ->
    internal s ETau (set_calls (l1 ++ l2) (set_pc (wake (pc s)) s))                                   (* 748 *)
| f_notify n : pend s = S n -> internal s ETau (set_pend n (set_pc (wake (pc s)) s))                  (* 558 *)
(* the logging thread *)
| l_start : pc s = LStart -> internal s ETau (set_pc (LCheck false) s)                                (* 874 *)
| l_check sw : pc s = LCheck sw ->                                                                    (* 876 *)
    internal s ETau (set_pc (if logging s then if sw then LWaitEnter else LScan true None else LExited) s)
| l_wait : pc s = LWaitEnter -> internal s ETau (set_pc LWaiting s)                                   (* 880 *)
| l_woken : pc s = LWoken -> internal s ETau (set_pc (LCheck false) s)
| l_scan sw p : pc s = LScan sw p ->                                                                  (* 887-910 *)
    internal s ETau (set_pc match next_file p (lfiles s) with
      | None => LCheck sw
      | Some (k, b) =>
          if negb (length b =? 0) && (flush_size s <=? length b) then LOpen k (rev b) else LScan sw (Some k)
      end s)
| l_open k todo : pc s = LOpen k todo -> internal s (EOpen k) (set_pc (LWrite k todo 0) s)            (* 819-839 *)
| l_write k e todo n : pc s = LWrite k (e :: todo) n ->                                               (* 841-863 *)
    internal s (EWrite k e) (set_pc (LWrite k todo (S n)) s)
| l_written k n : pc s = LWrite k [] n -> internal s ETau (set_pc (LRelock k n) s)                    (* 841 *)
| l_erase k n : pc s = LRelock k n ->                                                                 (* 917-920 *)
    internal s (EErase k n)
      (let b := buffer k (lfiles s) in
       set_pc (LScan false (Some k)) (set_files (put_file k (firstn (length b - n) b) (lfiles s)) s))
(* the destructor *)
| d_notify : dtor s = DStopped -> internal s EWakeAll (set_dtor DNotified (set_pc (wake (pc s)) s))   (* 384 *)
| d_join : dtor s = DNotified -> pc s = LExited -> internal s ETau (set_dtor (DFlush None) s)         (* 386-389 *)
| d_flush p : dtor s = DFlush p ->                                                                    (* 392-404 *)
    internal s (match next_file p (lfiles s) with None => EDestroyed | Some _ => ETau end)
      (set_dtor match next_file p (lfiles s) with
        | None => DDone
        | Some (k, b) => if length b =? 0 then DFlush (Some k) else DOpen k (rev b)
        end s)
| d_open k todo : dtor s = DOpen k todo -> internal s (EOpen k) (set_dtor (DWrite k todo) s)
| d_write k e todo : dtor s = DWrite k (e :: todo) -> internal s (EWrite k e) (set_dtor (DWrite k todo) s)
| d_written k : dtor s = DWrite k [] -> internal s ETau (set_dtor (DFlush (Some k)) s).

(** write_buffer_to_file may stop with a filesystem_error when finding the path, creating the directories or
    opening the file (819-839), and before any entry, when rotating and reopening the file (846-851). *)
Inductive fault (s : logger) : event -> logger -> Prop :=
| l_fail_open k todo : pc s = LOpen k todo -> fault s (EFail k) (set_pc (LRelock k 0) s)
| l_fail k e todo n : pc s = LWrite k (e :: todo) n -> fault s (EFail k) (set_pc (LRelock k n) s)
| d_fail_open k todo : dtor s = DOpen k todo -> fault s (EFail k) (set_dtor (DFlush (Some k)) s)
| d_fail k e todo : dtor s = DWrite k (e :: todo) -> fault s (EFail k) (set_dtor (DFlush (Some k)) s).

Inductive other (s : logger) : event -> logger -> Prop :=
| sp_wake : pc s = LWaiting -> other s ETau (set_pc LWoken s)        (* spurious wakeup *)
| tk z : other s (ETick z) (set_now z s).

Definition step (s : logger) (e : event) (s' : logger) : Prop :=
  client s e s' \/ internal s e s' \/ fault s e s' \/ other s e s'.

(** The constructor (376-379), with the initial values of the macros (56-82). *)
Definition initial (lvl : Z) (max flush : nat) (clock : Z) : logger :=
  Logger [] LStart true lvl max flush 0 [] 0 DNone clock 0.

Inductive exec (s0 : logger) : list event -> logger -> Prop :=
| exec_nil : exec s0 [] s0
| exec_snoc tr s e s' : exec s0 tr s -> step s e s' -> exec s0 (tr ++ [e]) s'.

(** [n] internal steps *)
Inductive internals : nat -> logger -> logger -> Prop :=
| internals_0 s : internals 0 s s
| internals_S n s e s' s'' : internal s e s' -> internals n s' s'' -> internals (S n) s s''.
End Logger.
