(** Model of the table worker: Table::TableWorkerLoop and the calls that talk to it
    (reverb/cc/table.cc).

    The worker holds [mu_] while it inserts and samples and [worker_mu_] while it
    fetches work and goes to sleep; the calls of other threads hold [worker_mu_] or
    [mu_], one after the other.  One action of the model is what one thread does
    under one lock; the part of the worker under [mu_] (a loop without bound) is
    divided further, and no call that needs [mu_] is possible meanwhile.

    Left out: asynchronous extensions (ExtensionOperation may release [mu_] when its
    buffer is full; see ExtWorker.v), memory release of deleted items, exceptions.
    Callbacks are handed to callback_executor_, which runs them once (C53); here the
    handing over counts as the answer. *)
From Verif Require Import Base RateLimiter Selector Trajectory Table.

(** table.h:130-136.  [q_id] numbers the requests in the order of arrival and is not
    a member.  [q_num] is the capacity reserved for the samples (table.cc:655); the
    deadline [None] is absl::InfiniteFuture(). *)
Record sreq := mkSreq { q_id : nat; q_num : nat; q_deadline : option Z; q_samples : list sampled }.

(** Where the worker is. *)
Inductive wpos :=
| PNotify                                      (** lines 216-228 *)
| PInsert                                      (** lines 230-242, [mu_] held *)
| PSample (made : bool)                        (** lines 243-267, [mu_] held *)
| PSwap                                        (** before line 270, no lock held *)
| PWait (wakeup : option Z) (blocked : bool)   (** line 334; [blocked]: kBlocked *)
| PFinal                                       (** lines 338-342 *)
| PReturned (st : status).                     (** the thread has ended *)

(** The worker's local variables and the members guarded by [worker_mu_].  Vectors
    with an index (current_inserts, current_sampling) are represented by what is left
    of them from the index on; requests moved out are [None], as in the code.
    [wk_sig]: the worker has been signalled while waiting.  [wk_owed]: calls that
    have changed the table and still have to signal the worker ([true]: only if it
    is not running).  [wk_t] is the part guarded by [mu_]; cancelled_ of the limiter
    is kept outside ([wk_cancel]), since the worker does not look at it when it
    inserts and samples.  Inserts and requests are numbered in the order of arrival. *)
Record wk := mkWk {
  wk_t : table; wk_cancel : bool; wk_now : Z;
  wk_pos : wpos; wk_prog : bool; wk_lim : bool;
  wk_ci : list (nat * item); wk_cs : list (option sreq); wk_nl : list nat;
  wk_term : list sreq; wk_ss : status; wk_is : status;
  wk_pi : list (nat * item); wk_ps : list (option sreq); wk_ns : list nat;
  wk_stop : bool; wk_sig : bool; wk_owed : list bool;
  wk_nins : nat; wk_nreq : nat }.

Definition wk_new (t : table) (now : Z) : wk :=
  mkWk t false now PNotify false false [] [] [] [] DeadlineExceeded Ok [] [] [] false false [] 0 0.

Definition set_t w t := mkWk t (wk_cancel w) (wk_now w) (wk_pos w) (wk_prog w) (wk_lim w) (wk_ci w) (wk_cs w) (wk_nl w) (wk_term w) (wk_ss w) (wk_is w)
  (wk_pi w) (wk_ps w) (wk_ns w) (wk_stop w) (wk_sig w) (wk_owed w) (wk_nins w) (wk_nreq w).
Definition set_cancel w := mkWk (wk_t w) true (wk_now w) (wk_pos w) (wk_prog w) (wk_lim w) (wk_ci w) (wk_cs w) (wk_nl w) (wk_term w) (wk_ss w) (wk_is w)
  (wk_pi w) (wk_ps w) (wk_ns w) (wk_stop w) (wk_sig w) (wk_owed w) (wk_nins w) (wk_nreq w).
Definition set_now w n := mkWk (wk_t w) (wk_cancel w) n (wk_pos w) (wk_prog w) (wk_lim w) (wk_ci w) (wk_cs w) (wk_nl w) (wk_term w) (wk_ss w) (wk_is w)
  (wk_pi w) (wk_ps w) (wk_ns w) (wk_stop w) (wk_sig w) (wk_owed w) (wk_nins w) (wk_nreq w).
Definition set_pos w p := mkWk (wk_t w) (wk_cancel w) (wk_now w) p (wk_prog w) (wk_lim w) (wk_ci w) (wk_cs w) (wk_nl w) (wk_term w) (wk_ss w) (wk_is w)
  (wk_pi w) (wk_ps w) (wk_ns w) (wk_stop w) (wk_sig w) (wk_owed w) (wk_nins w) (wk_nreq w).
Definition set_prog w b := mkWk (wk_t w) (wk_cancel w) (wk_now w) (wk_pos w) b (wk_lim w) (wk_ci w) (wk_cs w) (wk_nl w) (wk_term w) (wk_ss w) (wk_is w)
  (wk_pi w) (wk_ps w) (wk_ns w) (wk_stop w) (wk_sig w) (wk_owed w) (wk_nins w) (wk_nreq w).
Definition set_lim w b := mkWk (wk_t w) (wk_cancel w) (wk_now w) (wk_pos w) (wk_prog w) b (wk_ci w) (wk_cs w) (wk_nl w) (wk_term w) (wk_ss w) (wk_is w)
  (wk_pi w) (wk_ps w) (wk_ns w) (wk_stop w) (wk_sig w) (wk_owed w) (wk_nins w) (wk_nreq w).
Definition set_ci w l := mkWk (wk_t w) (wk_cancel w) (wk_now w) (wk_pos w) (wk_prog w) (wk_lim w) l (wk_cs w) (wk_nl w) (wk_term w) (wk_ss w) (wk_is w)
  (wk_pi w) (wk_ps w) (wk_ns w) (wk_stop w) (wk_sig w) (wk_owed w) (wk_nins w) (wk_nreq w).
Definition set_cs w l := mkWk (wk_t w) (wk_cancel w) (wk_now w) (wk_pos w) (wk_prog w) (wk_lim w) (wk_ci w) l (wk_nl w) (wk_term w) (wk_ss w) (wk_is w)
  (wk_pi w) (wk_ps w) (wk_ns w) (wk_stop w) (wk_sig w) (wk_owed w) (wk_nins w) (wk_nreq w).
Definition set_nl w l := mkWk (wk_t w) (wk_cancel w) (wk_now w) (wk_pos w) (wk_prog w) (wk_lim w) (wk_ci w) (wk_cs w) l (wk_term w) (wk_ss w) (wk_is w)
  (wk_pi w) (wk_ps w) (wk_ns w) (wk_stop w) (wk_sig w) (wk_owed w) (wk_nins w) (wk_nreq w).
Definition set_term w l := mkWk (wk_t w) (wk_cancel w) (wk_now w) (wk_pos w) (wk_prog w) (wk_lim w) (wk_ci w) (wk_cs w) (wk_nl w) l (wk_ss w) (wk_is w)
  (wk_pi w) (wk_ps w) (wk_ns w) (wk_stop w) (wk_sig w) (wk_owed w) (wk_nins w) (wk_nreq w).
Definition set_statuses w ss is := mkWk (wk_t w) (wk_cancel w) (wk_now w) (wk_pos w) (wk_prog w) (wk_lim w) (wk_ci w) (wk_cs w) (wk_nl w) (wk_term w) ss is
  (wk_pi w) (wk_ps w) (wk_ns w) (wk_stop w) (wk_sig w) (wk_owed w) (wk_nins w) (wk_nreq w).
Definition set_pi w l := mkWk (wk_t w) (wk_cancel w) (wk_now w) (wk_pos w) (wk_prog w) (wk_lim w) (wk_ci w) (wk_cs w) (wk_nl w) (wk_term w) (wk_ss w) (wk_is w)
  l (wk_ps w) (wk_ns w) (wk_stop w) (wk_sig w) (wk_owed w) (wk_nins w) (wk_nreq w).
Definition set_ps w l := mkWk (wk_t w) (wk_cancel w) (wk_now w) (wk_pos w) (wk_prog w) (wk_lim w) (wk_ci w) (wk_cs w) (wk_nl w) (wk_term w) (wk_ss w) (wk_is w)
  (wk_pi w) l (wk_ns w) (wk_stop w) (wk_sig w) (wk_owed w) (wk_nins w) (wk_nreq w).
Definition set_ns w l := mkWk (wk_t w) (wk_cancel w) (wk_now w) (wk_pos w) (wk_prog w) (wk_lim w) (wk_ci w) (wk_cs w) (wk_nl w) (wk_term w) (wk_ss w) (wk_is w)
  (wk_pi w) (wk_ps w) l (wk_stop w) (wk_sig w) (wk_owed w) (wk_nins w) (wk_nreq w).
Definition set_stop w := mkWk (wk_t w) (wk_cancel w) (wk_now w) (wk_pos w) (wk_prog w) (wk_lim w) (wk_ci w) (wk_cs w) (wk_nl w) (wk_term w) (wk_ss w) (wk_is w)
  (wk_pi w) (wk_ps w) (wk_ns w) true (wk_sig w) (wk_owed w) (wk_nins w) (wk_nreq w).
Definition set_sig w b := mkWk (wk_t w) (wk_cancel w) (wk_now w) (wk_pos w) (wk_prog w) (wk_lim w) (wk_ci w) (wk_cs w) (wk_nl w) (wk_term w) (wk_ss w) (wk_is w)
  (wk_pi w) (wk_ps w) (wk_ns w) (wk_stop w) b (wk_owed w) (wk_nins w) (wk_nreq w).
Definition set_owed w l := mkWk (wk_t w) (wk_cancel w) (wk_now w) (wk_pos w) (wk_prog w) (wk_lim w) (wk_ci w) (wk_cs w) (wk_nl w) (wk_term w) (wk_ss w) (wk_is w)
  (wk_pi w) (wk_ps w) (wk_ns w) (wk_stop w) (wk_sig w) l (wk_nins w) (wk_nreq w).
Definition set_count w ni nr := mkWk (wk_t w) (wk_cancel w) (wk_now w) (wk_pos w) (wk_prog w) (wk_lim w) (wk_ci w) (wk_cs w) (wk_nl w) (wk_term w) (wk_ss w) (wk_is w)
  (wk_pi w) (wk_ps w) (wk_ns w) (wk_stop w) (wk_sig w) (wk_owed w) ni nr.

(** worker_state_ (table.h:365-380): kRunning unless the worker waits. *)
Definition waiting (w : wk) : bool := match wk_pos w with PWait _ _ => true | _ => false end.
(** wakeup_worker_.Signal(): lost unless the worker waits. *)
Definition wake (w : wk) : wk := if waiting w then set_sig w true else w.

(** Lines 113-129: the requests that are taken out, what is left of the vector, the
    next deadline.  A deadline of [None] for [now] is InfiniteFuture (after a
    cancellation): every request has expired. *)
Definition expired (now : option Z) (r : sreq) : bool :=
  match now, q_deadline r with
  | None, _ => true
  | Some n, Some d => d <=? n
  | Some _, None => false
  end.
Definition min_deadline (a b : option Z) : option Z :=
  match a, b with Some x, Some y => Some (Z.min x y) | Some x, None => Some x | None, b => b end.
Fixpoint get_expired (now : option Z) (rs : list (option sreq)) (next : option Z) : list sreq * list (option sreq) * option Z :=
  match rs with
  | [] => ([], [], next)
  | None :: rs => let '(out, rest, next) := get_expired now rs next in (out, None :: rest, next)
  | Some r :: rs =>
    if expired now r then let '(out, rest, next) := get_expired now rs next in (r :: out, None :: rest, next)
    else let '(out, rest, next) := get_expired now rs (min_deadline next (q_deadline r)) in (out, Some r :: rest, next)
  end.

(** What others see of an action: an insertion was applied to the table, a sample was
    taken, a sampling request was answered, a client may insert again, a call
    returned. *)
Inductive wout :=
| OApplied (i : nat) (it : item) (at_ : Z * Z) (d : draw)
| OTaken (i : nat) (d : draw) (sm : sampled)
| OAnswer (i : nat) (st : status) (l : list sampled)
| OMayInsert (i : nat) (st : status)
| OMore (i : nat) (can : bool)
| OReturn (st : status).

Inductive wres := WNext (w : wk) (outs : list wout) | WCrash | WBlocked.

Inductive wev :=
| EWork (at_ : Z * Z) (d : draw)               (** the worker goes on *)
| EWake                                        (** the wait ends *)
| EInsert (it : item)                          (** InsertOrAssignAsync *)
| ERequest (num : nat) (timeout : option Z)    (** EnqueSampleRequest *)
| EMutate (us : list (Z * dbl)) (ks : list Z)  (** MutateItems, under mu_ *)
| EReset                                       (** Reset, under mu_ *)
| EClose                                       (** Close, under mu_ *)
| EOwed                                        (** the second half of one of these *)
| EStop                                        (** ~Table after Close *)
| ETick (now : Z).                             (** time passes *)

(** Drop the requests that have been moved out, lines 243-247. *)
Fixpoint skip_none (l : list (option sreq)) : list (option sreq) :=
  match l with None :: l => skip_none l | _ => l end.

Section WithFP.
Context {fp : FP}.

(** Lines 574-610. *)
Definition insert_internal (t : table) (now : Z * Z) (d : draw) (it : item) : option (status * table) :=
  match t_data t !! it_key it with
  | Some _ => Some (update_item t (it_key it) (it_prio it))
  | None => insert_new t now d it
  end.

(** Lines 234-242. *)
Definition work_insert (w : wk) (at_ : Z * Z) (d : draw) : wres :=
  match wk_ci w with
  | (i, it) :: rest =>
    if can_insert (t_limiter (wk_t w)) 1 then
      match insert_internal (wk_t w) at_ d it with
      | None => WCrash
      | Some (st, t) =>
        let w := set_ci (set_t w t) rest in
        if bool_decide (st = Ok) then WNext (set_pos (set_prog w true) (PSample true)) [OApplied i it at_ d]
        else WNext (set_pos w (PReturned st)) []
      end
    else WNext (set_pos w (PSample false)) []
  | [] => WNext (set_pos w (PSample false)) []
  end.

(** The end of one turn of the loop of line 232. *)
Definition end_turn (made : bool) : wpos := if made then PInsert else PSwap.

(** Lines 243-267, up to one sample.  A vector grown by emplace_back has capacity one
    if nothing was reserved, so a request for 0 samples is complete after one. *)
Definition work_sample (w : wk) (made : bool) (d : draw) : wres :=
  match skip_none (wk_cs w) with
  | Some r :: rest =>
    match maybe_commit_sample (t_limiter (wk_t w)) with
    | None => WNext (set_pos (set_cs w (Some r :: rest)) (end_turn made)) []
    | Some l =>
      match sample_one (with_limiter (wk_t w) l) d (wk_lim w) with
      | None => WCrash
      | Some (st, sm, t) =>
        let samples := q_samples r ++ [sm] in
        let w := set_prog (set_t w t) true in
        if negb (bool_decide (st = Ok)) then WNext (set_pos w (PReturned st)) []
        else if (Nat.max 1 (q_num r) =? length samples)%nat then
          WNext (set_pos (set_cs w rest) PInsert) [OTaken (q_id r) d sm; OAnswer (q_id r) Ok samples]
        else WNext (set_pos (set_cs w (Some (mkSreq (q_id r) (q_num r) (q_deadline r) samples) :: rest)) (PSample true)) [OTaken (q_id r) d sm]
      end
    end
  | l => WNext (set_pos (set_cs w l) (end_turn made)) []
  end.

(** Lines 269-295: fetch new batches. *)
Definition fetch (w : wk) : wk :=
  let w := match wk_ci w, wk_pi w with
           | [], _ :: _ => set_prog (set_nl (set_ns (set_pi (set_ci w (wk_pi w)) []) (wk_nl w)) (wk_ns w)) true
           | _, _ => w
           end in
  match wk_cs w, wk_ps w with
  | [], _ :: _ => set_lim (set_prog (set_ps (set_cs w (wk_ps w)) []) true) false
  | _, _ => w
  end.

(** Lines 304-319: the table has been closed. *)
Definition abandon (w : wk) : wk :=
  if wk_cancel w then
    let w := set_statuses w Cancelled Cancelled in
    let w := match wk_nl w, wk_ns w with [], _ :: _ => set_nl (set_ns w []) (wk_ns w) | _, _ => w end in
    set_ci w []
  else w.

(** Lines 269-336. *)
Definition work_swap (w : wk) : wres :=
  let w := fetch w in
  if wk_prog w then WNext (set_pos (set_prog w false) PNotify) []
  else
    let w := abandon w in
    let now := if wk_cancel w then None else Some (wk_now w) in
    let '(out1, cs, next) := get_expired now (wk_cs w) None in
    let '(out2, ps, next) := get_expired now (wk_ps w) next in
    let w := set_term (set_ps (set_cs w cs) ps) (out1 ++ out2) in
    match out1 ++ out2, wk_nl w with
    | [], [] =>
      if wk_stop w then WNext (set_pos w (PReturned Ok)) []
      else
        let left := match wk_cs w, wk_ci w with [], [] => false | _, _ => true end in
        let limited := match wk_cs w with [] => false | _ => true end in
        WNext (set_sig (set_pos (set_lim w limited) (PWait next left)) false) []
    | _, _ => WNext (set_pos w PFinal) []
    end.

Definition wk_step (c : Z) (w : wk) (e : wev) : wres :=
  match e with
  | EWork at_ d =>
    match wk_pos w with
    | PNotify =>
      (* lines 216-228 *)
      WNext (set_pos (set_nl w []) PInsert) ((fun i => OMayInsert i (wk_is w)) <$> wk_nl w)
    | PInsert => work_insert w at_ d
    | PSample made => work_sample w made d
    | PSwap => work_swap w
    | PFinal =>
      (* lines 338-342 *)
      WNext (set_pos (set_term w []) PNotify) ((fun r => OAnswer (q_id r) (wk_ss w) (q_samples r)) <$> wk_term w)
    | PWait _ _ | PReturned _ => WBlocked
    end
  | EWake =>
    (* lines 334-342: nothing to terminate *)
    if waiting w then WNext (set_pos (set_sig w false) PNotify) [] else WBlocked
  | EInsert it =>
    (* lines 544-572; [c] is max_enqueued_inserts_ *)
    if negb (bool_decide (check_item_validity it = Ok)) then WNext w [OReturn (check_item_validity it)]
    else
      let i := wk_nins w in
      let w := wake (set_count (set_pi w (wk_pi w ++ [(i, it)])) (S i) (wk_nreq w)) in
      let can := Z.of_nat (length (wk_pi w)) <? c in
      WNext (if can then w else set_ns w (wk_ns w ++ [i])) [OMore i can]
  | ERequest num timeout =>
    (* lines 642-669 *)
    let r := mkSreq (wk_nreq w) num ((fun t => wk_now w + t) <$> timeout) [] in
    WNext (wake (set_count (set_ps w (wk_ps w ++ [Some r])) (wk_nins w) (S (wk_nreq w)))) []
  | EMutate us ks =>
    (* lines 612-623 *)
    match mutate_items (wk_t w) us ks with
    | Some (RStatus st, t) =>
      let w := set_t w t in
      WNext (if bool_decide (st = Ok) then set_owed w (wk_owed w ++ [true]) else w) [OReturn st]
    | _ => WCrash
    end
  | EReset => WNext (set_owed (set_t w (reset_table (wk_t w))) (wk_owed w ++ [false])) []   (* lines 921-952 *)
  | EClose => WNext (set_owed (set_cancel w) (wk_owed w ++ [false])) []                     (* lines 819-823 *)
  | EOwed =>
    (* lines 626-631, 824-828 and 953-960.  The condition on the state of the worker
       makes no difference: a signal is lost if the worker does not wait *)
    match wk_owed w with
    | [] => WBlocked
    | only_idle :: rest => let w := set_owed w rest in WNext (if only_idle && negb (waiting w) then w else wake w) []
    end
  | EStop => WNext (wake (set_stop w)) []                                                   (* lines 160-164 *)
  | ETick now => WNext (set_now w now) []
  end.

(** The worker holds [mu_]. *)
Definition holds_mu (w : wk) : bool := match wk_pos w with PInsert | PSample _ => true | _ => false end.

(** What can happen: draws are in range, a call that needs [mu_] does not run while
    the worker holds it, the destructor runs after Close and after all other calls,
    time does not go backwards. *)
Definition wk_can (w : wk) (e : wev) : Prop :=
  match e with
  | EWork _ d => draw_ok d
  | EMutate _ _ | EReset => holds_mu w = false /\ wk_stop w = false
  | EClose => holds_mu w = false
  | EInsert _ | ERequest _ _ => wk_stop w = false
  | EStop => wk_cancel w = true
  | ETick now => wk_now w <= now
  | EOwed | EWake => True
  end.
(** The selectors accept the priorities. *)
Definition wk_prio (cf : tcfg) (e : wev) : Prop :=
  match e with
  | EInsert it => prio_ok cf (it_prio it)
  | EMutate us _ => Forall (fun u => prio_ok cf u.2) us
  | _ => True
  end.

(** A run of the table with its worker: the actions, each with what it shows.  [A]
    restricts the runs that are considered. *)
Inductive wk_trace (A : wk -> wev -> Prop) (c : Z) (w0 : wk) : list (wev * list wout) -> wk -> Prop :=
| wt_nil : wk_trace A c w0 [] w0
| wt_snoc tr w e w' outs : wk_trace A c w0 tr w -> wk_can w e -> A w e -> wk_step c w e = WNext w' outs -> wk_trace A c w0 (tr ++ [(e, outs)]) w'.

End WithFP.
