(** Model of reverb/cc/task_worker.h (TaskWorker with its deadlock checker) and of
    LastThreadId, reverb/cc/thread_stats.cc.  A step is one critical section, the call
    or the return of a callback; times are milliseconds.  Left out: messages in the
    log apart from the warning of the deadlock checker, FormatThreadStats. *)
From Verif Require Import Base Executor Closure.
Local Open Scope Z_scope.

(** thread_stats.h:25-46 without current_task_info and current_task_created_at (used
    for messages only).  [st_started] is read only if a task has been started. *)
Record tstats := mkTstats { st_current : Z; st_started : Z; st_processed : Z }.
Definition stats_new : tstats := mkTstats (-1) 0 0.

(** thread_stats.cc:24-48.  [last]: last_task_started, [None] is InfinitePast; [i]: the
    number of the first of [l]. *)
Fixpoint last_thread (l : list tstats) (i : Z) (last : option Z) (index : Z) : Z :=
  match l with
  | [] => index
  | s :: l =>
    if (st_current s <? st_processed s) || (st_current s =? -1) then -1
    else if match last with None => true | Some t => t <? st_started s end then last_thread l (i + 1) (Some (st_started s)) i
    else last_thread l (i + 1) last index
  end.
Definition last_thread_id (l : list tstats) : Z := last_thread l 0 None 0.

(** Tasks are numbered in the order of the calls of Schedule. *)
Notation task := nat.

(** RunWorker, task_worker.h:216-245: at Pop; with a task, before the first section of
    the statistics; before the call of the callback; in it; before the second
    section; returned. *)
Inductive tpos := TPop | TTaken (t : task) | TReady (t : task) | TRun (t : task) | TAfter (t : task) | TExit.
Record tworker := mkTworker { tw_pos : tpos; tw_stats : tstats }.

(** Close, lines 201-214: not running; before deadlock_checker_.Stop; in it; at Pop; in
    a callback; before the join. *)
Inductive qphase := QNo | QStop | QChecker | QPop | QRun (t : task) | QJoin.

(** [tp_snap]: where RunDeadlockChecker is: [Some l] while it reads the statistics
    (GetThreadStats, lines 255-264) and has read [l], [None] at its end.  [tp_results]:
    the calls of Schedule that have not returned.  [tp_next]: the number of calls. *)
Record pool := mkPool {
  tp_queue : uqueue task; tp_workers : list tworker; tp_close : qphase; tp_clo : closure;
  tp_snap : option (list tstats); tp_results : list task; tp_next : task }.

(** Lines 125-126. *)
Definition check_period : Z := 20000.
Definition time_to_warn : Z := 60000.

(** The constructor, lines 169-185, as one step at time [now]. *)
Definition tp_new (threads : nat) (now : Z) : pool :=
  mkPool uq_new (repeat (mkTworker TPop stats_new) threads) QNo (mkClosure false WBegin false now) None [] 0%nat.

Definition tp_now (s : pool) : Z := c_now (tp_clo s).

(** What happens: a call of Schedule pushes its task (or not); Schedule returns; a task is
    taken from the queue ([None]: by Close); thread [i] has noted the start of a task, or
    its end; a callback is called with a status and enough_queue_slots, returns; Close
    begins and returns; the deadlock checker begins, says nothing, warns. *)
Inductive tobs :=
| OPush (t : task) (ok : bool) | OResult (t : task) (r : bool)
| OPop (who : option nat) (t : task) | OTake (i : nat) (t : task) | OFinish (i : nat) (t : task)
| OCall (who : option nat) (t : task) (st : status) (enough : bool) | OBack (who : option nat) (t : task)
| OCloseStart | OCloseEnd | OCheck | OQuiet | OWarn (elapsed : Z).

(** [Schedule], lines 191-199, is two steps: [PPush], [PResult].  [PWorker], [PClose] and
    [PChecker] are the next step of a thread.  A call of Close begins when the one
    before has returned (two at a time would race on threads_), and not in a
    callback. *)
Inductive pev := PPush | PResult (t : task) | PWorker (i : nat) | PClose | PChecker | PTick (d : Z).
(** [TNot]: the step is not possible now.  [TCrash]: access beyond the end of a
    vector. *)
Inductive pres := TNot | TCrash | TDone (s : pool) (o : list tobs).

(** Lines 247-252: a size_t is never negative.  [max] is max_queue_size_to_warn_. *)
Definition not_almost_full (max : nat) (s : pool) : bool := (length (u_buf (tp_queue s)) <=? max)%nat.

Definition set_queue (s : pool) (q : uqueue task) : pool :=
  mkPool q (tp_workers s) (tp_close s) (tp_clo s) (tp_snap s) (tp_results s) (tp_next s).
Definition set_thread (s : pool) (i : nat) (w : tworker) : pool :=
  mkPool (tp_queue s) (<[i := w]> (tp_workers s)) (tp_close s) (tp_clo s) (tp_snap s) (tp_results s) (tp_next s).
Definition set_close (s : pool) (c : qphase) : pool :=
  mkPool (tp_queue s) (tp_workers s) c (tp_clo s) (tp_snap s) (tp_results s) (tp_next s).
Definition set_clock (s : pool) (c : closure) : pool :=
  mkPool (tp_queue s) (tp_workers s) (tp_close s) c (tp_snap s) (tp_results s) (tp_next s).
Definition set_snap (s : pool) (l : option (list tstats)) : pool :=
  mkPool (tp_queue s) (tp_workers s) (tp_close s) (tp_clo s) l (tp_results s) (tp_next s).
Definition exited (w : tworker) : bool := match tw_pos w with TExit => true | _ => false end.

(** Lines 216-245. *)
Definition worker_step (max : nat) (s : pool) (i : nat) : pres :=
  match tp_workers s !! i with
  | None => TNot
  | Some (mkTworker p st) =>
    match p with
    | TPop =>
      match uq_pop (tp_queue s) with
      | None => TNot
      | Some (Some t, q) => TDone (set_thread (set_queue s q) i (mkTworker (TTaken t) st)) [OPop (Some i) t]
      | Some (None, q) => TDone (set_thread (set_queue s q) i (mkTworker TExit st)) []
      end
    | TTaken t => TDone (set_thread s i (mkTworker (TReady t) (mkTstats (st_current st + 1) (tp_now s) (st_processed st)))) [OTake i t]
    | TReady t => TDone (set_thread s i (mkTworker (TRun t) st)) [OCall (Some i) t Ok (not_almost_full max s)]
    | TRun t => TDone (set_thread s i (mkTworker (TAfter t) st)) [OBack (Some i) t]
    | TAfter t => TDone (set_thread s i (mkTworker TPop (mkTstats (st_current st) (st_started st) (st_processed st + 1)))) [OFinish i t]
    | TExit => TNot
    end
  end.

(** Lines 201-214.  The second call of PeriodicClosure::Stop is an error, which is
    only logged. *)
Definition close_step (s : pool) : pres :=
  match tp_close s with
  | QNo => TDone (set_close (set_queue s (uq_set_last (tp_queue s))) QStop) [OCloseStart]
  | QStop =>
    match c_step check_period (tp_clo s) CStop with
    | CDone c None => TDone (set_close (set_clock s c) QChecker) []
    | CDone c (Some _) => TDone (set_close (set_clock s c) QPop) []
    | _ => TNot
    end
  | QChecker =>
    match c_step check_period (tp_clo s) CJoin with
    | CDone c _ => TDone (set_close (set_clock s c) QPop) []
    | _ => TNot
    end
  | QPop =>
    match uq_pop (tp_queue s) with
    | None => TNot
    | Some (Some t, q) => TDone (set_close (set_queue s q) (QRun t)) [OPop None t; OCall None t Cancelled false]
    | Some (None, q) => TDone (set_close (set_queue s q) QJoin) []
    end
  | QRun t => TDone (set_close s QPop) [OBack None t]
  | QJoin => if forallb exited (tp_workers s) then TDone (set_close s QNo) [OCloseEnd] else TNot
  end.

(** Lines 266-292. *)
Definition check_end (s : pool) (l : list tstats) : pres :=
  let id := last_thread_id l in
  if id =? -1 then TDone (set_snap s None) [OQuiet]
  else match l !! Z.to_nat id with
       | None => TCrash
       | Some st =>
         let elapsed := tp_now s - st_started st in
         TDone (set_snap s None) [if time_to_warn <=? elapsed then OWarn elapsed else OQuiet]
       end.

(** The thread of deadlock_checker_, Closure.v. *)
Definition closure_step (s : pool) (e : cevent) : option pool :=
  match c_step check_period (tp_clo s) e with CDone c _ => Some (set_clock s c) | _ => None end.
Definition checker_step (s : pool) : pres :=
  let go e o := match closure_step s e with Some s => TDone s o | None => TNot end in
  match c_worker (tp_clo s) with
  | WNone | WExit => TNot
  | WBegin => go CBegin []
  | WWait _ => go CWake []
  | WWoken => go CNext []
  | WReady _ => match closure_step s CCall with Some s => TDone (set_snap s (Some [])) [OCheck] | None => TNot end
  | WRun _ =>
    match tp_snap s with
    | Some l => match tp_workers s !! length l with
                | Some w => TDone (set_snap s (Some (l ++ [tw_stats w]))) []
                | None => check_end s l
                end
    | None => go CReturn []
    end
  end.

Definition tp_step (max : nat) (s : pool) (e : pev) : pres :=
  match e with
  | PPush =>
    let '(b, q) := uq_push (tp_queue s) (tp_next s) in
    TDone (mkPool q (tp_workers s) (tp_close s) (tp_clo s) (tp_snap s) (tp_results s ++ [tp_next s]) (S (tp_next s))) [OPush (tp_next s) b]
  | PResult t =>
    if bool_decide (t ∈ tp_results s) then
      TDone (mkPool (tp_queue s) (tp_workers s) (tp_close s) (tp_clo s) (tp_snap s) (List.remove Nat.eq_dec t (tp_results s)) (tp_next s))
        [OResult t (not_almost_full max s)]
    else TNot
  | PWorker i => worker_step max s i
  | PClose => close_step s
  | PChecker => checker_step s
  | PTick d => match closure_step s (CTick d) with Some s => TDone s [] | None => TNot end
  end.

(** Runs: what happened, with the times. *)
Notation tlog := (list (Z * tobs)).
Inductive tp_run (max : nat) (s0 : pool) : tlog -> pool -> Prop :=
| tr_nil : tp_run max s0 [] s0
| tr_snoc l s e s' o : tp_run max s0 l s -> tp_step max s e = TDone s' o -> tp_run max s0 (l ++ ((tp_now s',.) <$> o)) s'.
Fixpoint tp_script (max : nat) (s : pool) (es : list pev) : option (tlog * pool) :=
  match es with
  | [] => Some ([], s)
  | e :: es => match tp_step max s e with
               | TDone s o => '(l, s') ← tp_script max s es; Some (((tp_now s,.) <$> o) ++ l, s')
               | _ => None
               end
  end.
