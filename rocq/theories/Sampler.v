(** Model of the Sampler of reverb/cc/sampler.cc:168-400 (the two kinds of
    workers) and 471-703 (the object that owns them).

    The threads take turns: a step is a critical section of [mu_] (or of the mutex
    of a worker), a call on the queue of samples, or an interaction with the
    server or the table.  A step that would have to wait is not possible ([None]).
    What the server and the table answer is an argument of the step.  The contents
    of samples are a type [A]; [len] is the number of timesteps of a sample.
    Counters do not overflow. *)
From Verif Require Import Base Queue.

(** How a worker gets samples: over a stream, in requests of at most [spr] samples
    (samples_per_request_), or from a table in the same process, in calls of at
    most [flex] samples. *)
Inductive wkind := KGrpc (spr : Z) | KLocal (flex : Z).

Section Sampler.
Context {A : Type} (len : A -> nat).

(** Where the thread of a worker is.  [asked]: samples_to_stream; [got]:
    num_samples_returned. *)
Inductive wpos :=
| PWait                                        (* at LockWhen, line 671 *)
| PEnter (asked : Z)                           (* FetchSamples called *)
| PTop (asked got : Z)                         (* at the head of the loop of FetchSamples *)
| PRead (asked got req sampled : Z)            (* KGrpc: reading the answers to a request of [req] samples *)
| PPush (asked got : Z) (items : list A)       (* KLocal: items taken from the table, still to be pushed *)
| PRet (asked res : Z) (st : status)           (* FetchSamples returned {res, st} *)
| PExit.                                       (* RunWorker returned *)

(** [w_cancelled]: closed_ of the worker. *)
Record sworker := mkSw { w_kind : wkind; w_cancelled : bool; w_pos : wpos }.

(** The members of Sampler (sampler.h:375-425), the samples held by calls of
    GetNextSample and GetNextTrajectory in progress ([p_busy]), active_sample_ with
    the number of its remaining timesteps ([p_active]); and the history:
    every sample that entered the queue, every sample that was handed to the
    caller, every sample that was popped but refused by a check. *)
Record sampler := mkSampler {
  p_max : Z; p_per_stream : Z; p_requested : Z; p_returned : Z;
  p_closed : bool; p_status : status; p_queue : queue A; p_workers : list sworker;
  p_busy : list A; p_active : option (A * nat);
  h_fetched : list A; h_returned : list A; h_rejected : list A }.

Definition p_set_counts (p : sampler) (req ret : Z) : sampler :=
  mkSampler (p_max p) (p_per_stream p) req ret (p_closed p) (p_status p) (p_queue p) (p_workers p)
    (p_busy p) (p_active p) (h_fetched p) (h_returned p) (h_rejected p).
Definition p_set_queue (p : sampler) (q : queue A) : sampler :=
  mkSampler (p_max p) (p_per_stream p) (p_requested p) (p_returned p) (p_closed p) (p_status p) q (p_workers p)
    (p_busy p) (p_active p) (h_fetched p) (h_returned p) (h_rejected p).
Definition p_set_flags (p : sampler) (c : bool) (st : status) : sampler :=
  mkSampler (p_max p) (p_per_stream p) (p_requested p) (p_returned p) c st (p_queue p) (p_workers p)
    (p_busy p) (p_active p) (h_fetched p) (h_returned p) (h_rejected p).
Definition p_set_workers (p : sampler) (ws : list sworker) : sampler :=
  mkSampler (p_max p) (p_per_stream p) (p_requested p) (p_returned p) (p_closed p) (p_status p) (p_queue p) ws
    (p_busy p) (p_active p) (h_fetched p) (h_returned p) (h_rejected p).
Definition p_set_calls (p : sampler) (busy : list A) (act : option (A * nat)) : sampler :=
  mkSampler (p_max p) (p_per_stream p) (p_requested p) (p_returned p) (p_closed p) (p_status p) (p_queue p) (p_workers p)
    busy act (h_fetched p) (h_returned p) (h_rejected p).
Definition p_set_history (p : sampler) (f r j : list A) : sampler :=
  mkSampler (p_max p) (p_per_stream p) (p_requested p) (p_returned p) (p_closed p) (p_status p) (p_queue p) (p_workers p)
    (p_busy p) (p_active p) f r j.

Definition w_set_pos (w : sworker) (x : wpos) : sworker := mkSw (w_kind w) (w_cancelled w) x.
Definition p_set_pos (p : sampler) (i : nat) (x : wpos) : sampler :=
  p_set_workers p (alter (fun w => w_set_pos w x) i (p_workers p)).

(** GetNumWorkers, lines 403-416.  [maxs], [nw]: the options, -1 for "unlimited"
    and "select"; the division is of positive numbers. *)
Definition get_num_workers (maxs nw in_flight : Z) : Z :=
  Z.min (if nw =? -1 then 1 else nw) (Z.max 1 ((if maxs =? -1 then 2 ^ 63 - 1 else maxs) / in_flight)).

(** The constructor, lines 471-498; kDefaultMaxSamplesPerStream is 10000.  The
    kinds of the workers are given. *)
Definition p_new (maxs per_stream num_workers : Z) (kinds : list wkind) : sampler :=
  mkSampler (if maxs =? -1 then 2 ^ 63 - 1 else maxs) (if per_stream =? -1 then 10000 else per_stream) 0 0 false Ok
    (q_new (Z.to_nat (Z.max num_workers 1))) ((fun k => mkSw k false PWait) <$> kinds) [] None [] [] [].

(** Lines 625-627. *)
Definition should_stop (p : sampler) : bool :=
  p_closed p || (p_returned p =? p_max p) || negb (bool_decide (p_status p = Ok)).

(** Lines 212, 276-282, 329, 387-393: the loop of FetchSamples ends. *)
Definition fetch_end (asked got : Z) : wpos :=
  PRet asked got (if got =? asked then Ok else Internal).

(** Steps of the worker [i].  What comes from outside:
    - [VWrite ok st]: Write succeeded; if not, the status of the stream is [st];
    - [VSample x]: the last entry of a sample was read; the server sends at most
      the number of samples it was asked for, so this happens only while some are
      outstanding;
    - [VBad st]: AsSample failed;
    - [VEof st]: Read failed and [st] is the status (OK if it is a timeout of the
      rate limiter and nobody waits, lines 231-239);
    - [VStray]: after the last sample there are entries of another one;
    - [VTable items]: SampleFlexibleBatch returned these items (at most as many
      as asked for); [VRetry]: it timed out and the worker tries again (lines
      354-363); [VTableErr st]: it failed;
    - [VStep]: the worker goes on on its own. *)
Inductive wev := VStep | VWrite (ok : bool) (st : status) | VSample (x : A) | VBad (st : status) | VEof (st : status)
  | VStray | VTable (items : list A) | VRetry | VTableErr (st : status).

(** A push of [x] by the worker [i] (lines 251-266, 375-383): [next] is where it
    goes on, [asked] and [got] are its counters. *)
Definition push_sample (p : sampler) (i : nat) (x : A) (asked got : Z) (next : wpos) : option sampler :=
  match q_push (p_queue p) x with
  | None => None
  | Some (true, q) =>
    Some (p_set_pos (p_set_history (p_set_queue p q) (h_fetched p ++ [x]) (h_returned p) (h_rejected p)) i next)
  | Some (false, q) => Some (p_set_pos (p_set_queue p q) i (PRet asked got Cancelled))
  end.

Definition w_step (p : sampler) (i : nat) (w : sworker) (e : wev) : option sampler :=
  match w_pos w, e with
  | PWait, VStep => (* lines 666-681 *)
    if should_stop p then Some (p_set_pos p i PExit)
    else if p_requested p <? p_max p then
      let n := Z.min (p_per_stream p) (p_max p - p_requested p) in
      Some (p_set_pos (p_set_counts p (p_requested p + n) (p_returned p)) i (PEnter n))
    else None
  | PEnter asked, VStep =>
    match w_kind w with
    | KGrpc _ => (* lines 201-209 *)
      Some (p_set_pos p i (if w_cancelled w then PRet asked 0 Cancelled else PTop asked 0))
    | KLocal _ => Some (p_set_pos p i (PTop asked 0))
    end
  | PTop asked got, VStep =>
    if asked <=? got then Some (p_set_pos p i (fetch_end asked got))
    else match w_kind w with
         | KLocal _ => (* lines 329-335 *)
           if w_cancelled w then Some (p_set_pos p i (PRet asked 0 Cancelled)) else None
         | KGrpc _ => None
         end
  | PTop asked got, VWrite ok st =>
    match w_kind w with
    | KGrpc spr => (* lines 212-224 *)
      if got <? asked then
        Some (p_set_pos p i (if ok then PRead asked got (Z.min spr (asked - got)) 0 else PRet asked got st))
      else None
    | KLocal _ => None
    end
  | PTop asked got, VTable items =>
    match w_kind w with
    | KLocal flex => (* lines 342-371 *)
      if negb (w_cancelled w) && (got <? asked) && (Z.of_nat (length items) <=? Z.min flex (asked - got))
      then Some (p_set_pos p i (PPush asked got items)) else None
    | KGrpc _ => None
    end
  | PTop asked got, VRetry =>
    match w_kind w with
    | KLocal _ => if negb (w_cancelled w) && (got <? asked) then Some p else None
    | KGrpc _ => None
    end
  | PTop asked got, VTableErr st =>
    match w_kind w with
    | KLocal _ => (* lines 365-368 *)
      if negb (w_cancelled w) && (got <? asked) && negb (bool_decide (st = Ok)) then Some (p_set_pos p i (PRet asked got st)) else None
    | KGrpc _ => None
    end
  | PRead asked got req sampled, VStep => (* line 227, 212 *)
    if req <=? sampled then Some (p_set_pos p i (PTop asked got)) else None
  | PRead asked got req sampled, VSample x => (* lines 241-267 *)
    if sampled <? req then push_sample p i x asked got (PRead asked (got + 1) req (sampled + 1)) else None
  | PRead asked got req sampled, VBad st => (* lines 252-256 *)
    if (sampled <? req) && negb (bool_decide (st = Ok)) then Some (p_set_pos p i (PRet asked got st)) else None
  | PRead asked got req sampled, VEof st => (* lines 229-240 *)
    if sampled <? req then Some (p_set_pos p i (PRet asked got st)) else None
  | PRead asked got req sampled, VStray => (* lines 269-273 *)
    if req <=? sampled then Some (p_set_pos p i (PRet asked got Internal)) else None
  | PPush asked got items, VStep => (* lines 374-384 *)
    match items with
    | [] => Some (p_set_pos p i (PTop asked got))
    | x :: l => push_sample p i x asked got (PPush asked (got + 1) l)
    end
  | PPush asked got items, VBad st => (* lines 376-378 *)
    match items with [] => None | _ => if bool_decide (st = Ok) then None else Some (p_set_pos p i (PRet asked got st)) end
  | PRet asked res st, VStep => (* lines 683-701 *)
    let p := p_set_counts p (p_requested p - (asked - res)) (p_returned p) in
    if bool_decide (p_status p = Ok) && negb (bool_decide (st = Ok)) && negb (bool_decide (st = Unavailable)) then
      Some (p_set_pos (p_set_queue (p_set_flags p (p_closed p) st) (q_close (p_queue p))) i PExit)
    else Some (p_set_pos p i PWait)
  | _, _ => None
  end.

(** Lines 528-531, 548-549, 565-566: a sample has been handed over. *)
Definition count_returned (p : sampler) (x : A) : sampler :=
  let p := p_set_history (p_set_counts p (p_requested p) (p_returned p + 1)) (h_fetched p) (h_returned p ++ [x]) (h_rejected p) in
  if p_returned p =? p_max p then p_set_queue p (q_close (p_queue p)) else p.
Definition reject (p : sampler) (x : A) : sampler :=
  p_set_history p (h_fetched p) (h_returned p) (h_rejected p ++ [x]).

(** Steps.  The calls of the user:
    - [NPop]: GetNextSample or GetNextTrajectory pops a sample (any number of such
      calls can be in progress);
    - [NReturn i ok]: the [i]th of them goes on: [ok] tells whether the sample
      could be converted and fits the signature;
    - [NStepPop], [NStepNext ok]: GetNextTimestep (one call at a time) takes a new
      active sample and the next timestep;
    - [NClose], [NCancel i], [NCloseQueue]: the stages of Close (lines 629-642). *)
Inductive nev := NWorker (i : nat) (e : wev) | NPop | NReturn (i : nat) (ok : bool) | NStepPop | NStepNext (ok : bool)
  | NClose | NCancel (i : nat) | NCloseQueue.

(** Is a new active sample needed (lines 644-649)? *)
Definition need_active (p : sampler) : bool :=
  match p_active p with Some (_, S _) => false | _ => true end.

Definition p_step (p : sampler) (e : nev) : option sampler :=
  match e with
  | NWorker i e => w ← p_workers p !! i; w_step p i w e
  | NPop => (* line 653 *)
    match q_pop (p_queue p) with
    | Some (Some (Some x), q) => Some (p_set_calls (p_set_queue p q) (p_busy p ++ [x]) (p_active p))
    | _ => None
    end
  | NReturn i ok => (* lines 536-568 *)
    x ← p_busy p !! i;
    let p := p_set_calls p (delete i (p_busy p)) (p_active p) in
    Some (if ok : bool then count_returned p x else reject p x)
  | NStepPop => (* line 510 *)
    if need_active p then
      match q_pop (p_queue p) with
      | Some (Some (Some x), q) => Some (p_set_calls (p_set_queue p q) (p_busy p) (Some (x, len x)))
      | _ => None
      end
    else None
  | NStepNext ok => (* lines 511-533; the check of lines 511-514
      fails without a change *)
    match p_active p with
    | Some (x, S n) =>
      let p := p_set_calls p (p_busy p) (Some (x, n)) in
      Some (match n with O => if ok then count_returned p x else reject p x | S _ => p end)
    | _ => None
    end
  | NClose => Some (p_set_flags p true (p_status p)) (* lines 631-634 *)
  | NCancel i => (* lines 636-638, 182-186, 317-320 *)
    if p_closed p then Some (p_set_workers p (alter (fun w => mkSw (w_kind w) true (w_pos w)) i (p_workers p))) else None
  | NCloseQueue => (* line 640 *)
    if p_closed p then Some (p_set_queue p (q_close (p_queue p))) else None
  end.

(** Lines 652-663: what a call that could not pop a sample returns, [None] if it
    is still waiting. *)
Definition pop_failure (p : sampler) : option status :=
  match q_pop (p_queue p) with
  | Some (None, _) =>
    Some (if p_returned p =? p_max p then OutOfRange else if p_closed p then Cancelled else p_status p)
  | _ => None
  end.

Definition p_run (p : sampler) (es : list nev) : option sampler := foldl (fun o e => p ← o; p_step p e) (Some p) es.
Inductive p_reach (p0 : sampler) : sampler -> Prop :=
| pr_init : p_reach p0 p0
| pr_step p e p' : p_reach p0 p -> p_step p e = Some p' -> p_reach p0 p'.

End Sampler.
Arguments wpos : clear implicits.
Arguments sworker : clear implicits.
Arguments sampler : clear implicits.
Arguments wev : clear implicits.
Arguments nev : clear implicits.
